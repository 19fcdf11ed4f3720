(** * Inverse kinematics of the KukaOnRail in floating point (C173).

    [rail_ik] of Ik.v again, now with a rounding after every operation in the order Python
    evaluates them.  The helper Kuka is the one of FloatIk.v.  Overflow, NaN and signed
    zeros are not modelled. *)
From Coq Require Import Reals List.
From Verif Require Import PyBase Mat Geometry Robot Ik FloatFk FloatIk.
Import ListNotations.
Local Open Scope R_scope.

(** robots.py:389-409 KukaOnRail.ik; q_fixed is the number given, np.hstack copies it *)
Definition frail_ik (A : arith_ik) (rl : rail) (T : mat4) (q_fixed : R) : rail * res (ikres solref) :=
  let r := rl_rob rl in
  let Tw := fmul (ar A) (ftf_inverse A (r_tfb r)) T in
  let Tw := match r_tool r with Some (_, tf_tt) => fmul (ar A) Tw (ftf_inverse A tf_tt) | None => Tw end in
  match r_links r with
  | [] => (rl, Raise IndexError)
  | l :: ls =>
      let (l1, T1) := flink_transform (ar A) l q_fixed in
      let r1 := set_links r (l1 :: ls) in
      match T1 with
      | Raise e => (Rl r1 (rl_kuka rl), Raise e)
      | OutOfFuel => (Rl r1 (rl_kuka rl), OutOfFuel)
      | Ok T1 =>
          let k := rl_kuka rl in
          let (k1, res) := fkuka_ik A (Kk (set_tfb (k_rob k) T1) (k_arm k) (k_wrist k)) Tw in
          (Rl r1 k1, res <- res ;; Ok (match res with
                                       | IkFail => IkFail
                                       | IkOk s => IkOk (Own (map (fun qi => q_fixed :: qi) (read (k_wrist k1) s)))
                                       end))
      end
  end.
