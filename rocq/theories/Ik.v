(** * Model of the inverse kinematics in acrobotics/resources/robots.py.

    Numbers are exact reals; atan2 has no signed zeros.  A division by zero,
    which numpy turns into inf or nan with a warning, is the error value
    ZeroDivisionError here; theorems about these functions assume the link
    lengths to be nonzero.  {"success": False} is [IkFail] and
    {"success": True, "sol": s} is [IkOk s]. *)
From Coq Require Import Reals List Bool Arith.
From Verif Require Import PyBase Mat Util Geometry Robot.
Import ListNotations.
Local Open Scope R_scope.

Inductive ikres (A : Type) : Type := IkFail | IkOk (sol : A).
Arguments IkFail {A}.
Arguments IkOk {A} sol.

Definition tol : R := / 1000000.
Definition rdiv (x y : R) : res R := if Req_EM_T y 0 then Raise ZeroDivisionError else Ok (x / y).
(** np.sign *)
Definition sgn (x : R) : R := if Rlt_dec 0 x then 1 else if Rlt_dec x 0 then -1 else 0.
(** the test and the rounding of the elbow cosine, robots.py:121-125, 214-219, 228-233; None: not reachable *)
Definition elbow (c3 : R) : option R :=
  if Rlt_dec (1 + tol) c3 then None else if Rlt_dec c3 (- (1 + tol)) then None
  else if Rlt_dec (1 - tol) c3 then Some (sgn c3) else if Rlt_dec c3 (- (1 - tol)) then Some (sgn c3) else Some c3.
(** self.links[i].dh.a *)
Definition link_a (r : robot) (i : nat) : res R := l <- py_index (r_links r) i ;; Ok (da (l_dh l)).

(** robots.py:110-160 AnthropomorphicArm.ik *)
Definition anthro_ik (r : robot) (T : mat4) : res (ikres (list (list R))) :=
  let px := vx (pos T) in let py := vy (pos T) in let pz := vz (pos T) in
  l2 <- link_a r 1 ;; l3 <- link_a r 2 ;;
  let Lps := px ^ 2 + py ^ 2 + pz ^ 2 in
  c3 <- rdiv (Lps - l2 ^ 2 - l3 ^ 2) (2 * l2 * l3) ;;
  match elbow c3 with
  | None => Ok IkFail
  | Some c3 =>
      let s3 := sqrt (1 - c3 ^ 2) in
      let t3_1 := atan2 s3 c3 in let t3_2 := atan2 (- s3) c3 in
      let Lxy := sqrt (px ^ 2 + py ^ 2) in
      let A := l2 + l3 * c3 in
      let B := l3 * s3 in
      let t2_1 := atan2 (pz * A - Lxy * B) (Lxy * A + pz * B) in
      let t2_2 := atan2 (pz * A + Lxy * B) (- Lxy * A + pz * B) in
      let t2_3 := atan2 (pz * A + Lxy * B) (Lxy * A - pz * B) in
      let t2_4 := atan2 (pz * A - Lxy * B) (- Lxy * A - pz * B) in
      let t1_1 := atan2 py px in let t1_2 := atan2 (- py) (- px) in
      Ok (IkOk [[t1_1; t2_1; t3_1]; [t1_1; t2_3; t3_2]; [t1_2; t2_2; t3_1]; [t1_2; t2_4; t3_2]])
  end.

(** robots.py:211-223 and 225-236: q3_a and q3_b of one branch *)
Definition arm2_q3 (num den a1 x y q1 : R) : res (option (R * R)) :=
  let c1 := cos q1 in let s1 := sin q1 in
  c3 <- rdiv (num - 2 * a1 * s1 * y - 2 * a1 * x * c1) den ;;
  Ok (match elbow c3 with
      | None => None
      | Some c3 => let s3 := sqrt (1 - c3 ^ 2) in Some (atan2 s3 c3, atan2 (- s3) c3)
      end).
(** robots.py:182-281 Arm2.ik *)
Definition arm2_ik (r : robot) (T : mat4) : res (ikres (list (list R))) :=
  let x := vx (pos T) in let y := vy (pos T) in let z := vz (pos T) in
  a1 <- link_a r 0 ;; a2 <- link_a r 1 ;; a3 <- link_a r 2 ;;
  let q1_pos := atan2 y x in
  let q1_neg := atan2 (- y) (- x) in
  let den := 2 * a2 * a3 in
  let num := a1 ^ 2 - a2 ^ 2 - a3 ^ 2 + x ^ 2 + y ^ 2 + z ^ 2 in
  q3_pos <- arm2_q3 num den a1 x y q1_pos ;;
  q3_neg <- arm2_q3 num den a1 x y q1_neg ;;
  let L := sqrt (x ^ 2 + y ^ 2) in
  let sol_pos :=
    match q3_pos with
    | None => []
    | Some (q3a, q3b) =>
        let c3 := cos q3b in let s3 := sin q3a in
        let q2a := atan2 (- a3 * s3 * (L - a1) + z * (a2 + a3 * c3)) (a3 * s3 * z + (L - a1) * (a2 + a3 * c3)) in
        let q2b := atan2 (a3 * s3 * (L - a1) + z * (a2 + a3 * c3)) (- a3 * s3 * z + (L - a1) * (a2 + a3 * c3)) in
        [[q1_pos; q2a; q3a]; [q1_pos; q2b; q3b]]
    end in
  let sol_neg :=
    match q3_neg with
    | None => []
    | Some (q3a, q3b) =>
        let s3 := sin q3a in let c3 := cos q3b in
        let q2a := atan2 (a3 * s3 * (L + a1) + z * (a2 + a3 * c3)) (a3 * s3 * z - (L + a1) * (a2 + a3 * c3)) in
        let q2b := atan2 (- a3 * s3 * (L + a1) + z * (a2 + a3 * c3)) (- a3 * s3 * z - (L + a1) * (a2 + a3 * c3)) in
        [[q1_neg; q2a; q3a]; [q1_neg; q2b; q3b]]
    end in
  Ok (match q3_pos, q3_neg with None, None => IkFail | _, _ => IkOk (sol_pos ++ sol_neg) end).

(** robots.py:45-63: SphericalWrist with its array [qsol].  The "sol" of a
    result is that array itself: [Alias].  An array of its own is [Own]. *)
Record wrist : Type := Wr { w_rob : robot; w_qsol : list (list R) }.
Inductive solref : Type := Alias | Own (l : list (list R)).
(** the values seen through a reference when the wrist is in state w *)
Definition read (w : wrist) (s : solref) : list (list R) := match s with Alias => w_qsol w | Own l => l end.
Definition new_wrist (d3 : R) : wrist := Wr (SphericalWrist d3) [[0; 0; 0]; [0; 0; 0]].
Definition set_tfb (r : robot) (T : mat4) : robot := Rb (r_links r) (r_limits r) (r_base r) (r_tool r) T (r_mat r) (r_self r) (r_prio r).
Definition set_tool (r : robot) (t : option (coll * mat4)) : robot := Rb (r_links r) (r_limits r) (r_base r) t (r_tfb r) (r_mat r) (r_self r) (r_prio r).
(** robots.py:72-89 *)
Definition wrist_angles (Ree_rel : mat3) : list (list R) :=
  let n := col0 Ree_rel in let s := col1 Ree_rel in let a := col2 Ree_rel in
  let A := sqrt (vx a ^ 2 + vy a ^ 2) in
  let t1_1 := atan2 (vy a) (vx a) in
  let t2_1 := atan2 A (vz a) in
  let t3_1 := atan2 (vz s) (- vz n) in
  let t1_2 := atan2 (- vy a) (- vx a) in
  let t2_2 := atan2 (- A) (vz a) in
  let t3_2 := atan2 (- vz s) (vz n) in
  [[t1_1; t2_1; t3_1]; [t1_2; t2_2; t3_2]].
(** robots.py:65-90 SphericalWrist.ik *)
Definition wrist_ik (w : wrist) (T : mat4) : wrist * ikres solref :=
  let Rbase := rot (r_tfb (w_rob w)) in
  (Wr (w_rob w) (wrist_angles (mmul (mtr Rbase) (rot T))), IkOk Alias).

(** robots.py:284-320: Kuka with its helper robots *)
Record kuka : Type := Kk { k_rob : robot; k_arm : robot; k_wrist : wrist }.
Definition new_kuka (a1 a2 d4 d6 : R) : kuka := Kk (Kuka a1 a2 d4 d6) (Arm2 a1 a2 d4) (new_wrist d6).
(** robots.py:337-348, the loop over the arm solutions; np.hstack makes a new array *)
Fixpoint kuka_loop (Tw : mat4) (arm : robot) (w : wrist) (qs : list (list R)) : robot * wrist * res (list (list R)) :=
  match qs with
  | [] => (arm, w, Ok [])
  | q :: qs' =>
      match nth_error q 2 with
      | None => (arm, w, Raise IndexError)
      | Some q3 =>
          let q_arm := upd q 2 (q3 + PI / 2) in
          let (arm1, F) := fk arm q_arm in
          match F with
          | Raise e => (arm1, w, Raise e)
          | OutOfFuel => (arm1, w, OutOfFuel)
          | Ok F =>
              let base_wrist := M4 (rot F) v0 (brow Tw) 1 in
              let (w1, s) := wrist_ik (Wr (set_tfb (w_rob w) base_wrist) (w_qsol w)) Tw in
              let new := match s with IkFail => [] | IkOk s => map (fun q_wrist => q_arm ++ q_wrist) (read w1 s) end in
              let '(arm2, w2, rest) := kuka_loop Tw arm1 w1 qs' in
              (arm2, w2, rest <- rest ;; Ok (new ++ rest))
          end
      end
  end.
(** robots.py:323-334: base, tool and last link compensation *)
Definition kuka_target (r : robot) (T : mat4) : res mat4 :=
  let Tw := tmul (tf_inverse (r_tfb r)) T in
  let Tw := match r_tool r with Some (_, tf_tt) => tmul Tw (tf_inverse tf_tt) | None => Tw end in
  l <- py_index (r_links r) 5 ;;
  let d6 := dd (l_dh l) in
  let v6 := mapply (rot Tw) (V3 0 0 d6) in
  Ok (M4 (rot Tw) (vsub (pos Tw) v6) (brow Tw) (bww Tw)).
(** robots.py:322-351 Kuka.ik *)
Definition kuka_ik (k : kuka) (T : mat4) : kuka * res (ikres solref) :=
  match kuka_target (k_rob k) T with
  | Raise e => (k, Raise e)
  | OutOfFuel => (k, OutOfFuel)
  | Ok Tw =>
      match arm2_ik (k_arm k) Tw with
      | Raise e => (k, Raise e)
      | OutOfFuel => (k, OutOfFuel)
      | Ok IkFail => (k, Ok IkFail)
      | Ok (IkOk qs) =>
          let '(arm, w, sols) := kuka_loop Tw (k_arm k) (k_wrist k) qs in
          (Kk (k_rob k) arm w, sols <- sols ;; Ok (match sols with [] => IkFail | _ => IkOk (Own sols) end))
      end
  end.

(** robots.py:354-387: KukaOnRail and its helper Kuka, whose dimensions are literals *)
Record rail : Type := Rl { rl_rob : robot; rl_kuka : kuka }.
Definition new_rail (a1 a2 d4 d6 : R) : rail := Rl (KukaOnRail a1 a2 d4 d6) (new_kuka 0.18 0.6 0.62 0.115).
(** robots.py:389-409 KukaOnRail.ik; kuka.tf_base becomes the link's own matrix
    object, which is the value T1 until the link is used again *)
Definition rail_ik (rl : rail) (T : mat4) (q_fixed : R) : rail * res (ikres solref) :=
  let r := rl_rob rl in
  let Tw := tmul (tf_inverse (r_tfb r)) T in
  let Tw := match r_tool r with Some (_, tf_tt) => tmul Tw (tf_inverse tf_tt) | None => Tw end in
  match r_links r with
  | [] => (rl, Raise IndexError)
  | l :: ls =>
      let (l1, T1) := link_transform l q_fixed in
      let r1 := set_links r (l1 :: ls) in
      match T1 with
      | Raise e => (Rl r1 (rl_kuka rl), Raise e)
      | OutOfFuel => (Rl r1 (rl_kuka rl), OutOfFuel)
      | Ok T1 =>
          let k := rl_kuka rl in
          let (k1, res) := kuka_ik (Kk (set_tfb (k_rob k) T1) (k_arm k) (k_wrist k)) Tw in
          (Rl r1 k1, res <- res ;; Ok (match res with
                                       | IkFail => IkFail
                                       | IkOk s => IkOk (Own (map (fun qi => q_fixed :: qi) (read (k_wrist k1) s)))
                                       end))
      end
  end.
