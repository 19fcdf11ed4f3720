(** * Inverse kinematics in floating point (C152).

    The functions of Ik.v again, now with a rounding after every operation in the order
    Python evaluates them.  Overflow, NaN and signed zeros are not modelled: a float is a
    real number, and atan2 may return either end of its range on the branch cut. *)
From Coq Require Import Reals List.
From Verif Require Import PyBase Mat Geometry Robot Ik FloatFk.
Import ListNotations.
Local Open Scope R_scope.

(** the further operations: x ** 2, np.sqrt, np.arctan2, one entry of np.dot with three
    products, and the value of np.pi *)
Record arith_ik : Type := Ai { ar : arith; fsq : R -> R; fsqrt : R -> R; fatan2 : R -> R -> R; fdot3 : R -> R -> R -> R -> R -> R -> R; fpi : R }.

Section F.
Context (A : arith_ik).
Local Notation rn := (rnd (ar A)).

(** util.py:78-81, the position of tf_inverse; transposing and a change of sign are exact *)
Definition ftf_inverse (T : mat4) : mat4 :=
  let Rt := mtr (rot T) in
  let row a b c := fdot3 A (- a) (- b) (- c) (vx (pos T)) (vy (pos T)) (vz (pos T)) in
  M4 Rt (V3 (row (m00 Rt) (m01 Rt) (m02 Rt)) (row (m10 Rt) (m11 Rt) (m12 Rt)) (row (m20 Rt) (m21 Rt) (m22 Rt))) v0 1.
(** robots.py:324-333 *)
Definition fkuka_target (r : robot) (T : mat4) : res mat4 :=
  let Tw := fmul (ar A) (ftf_inverse (r_tfb r)) T in
  let Tw := match r_tool r with Some (_, tf_tt) => fmul (ar A) Tw (ftf_inverse tf_tt) | None => Tw end in
  l <- py_index (r_links r) 5 ;;
  let d6 := dd (l_dh l) in
  let v6 a b c := fdot3 A a b c 0 0 d6 in
  let M := rot Tw in
  Ok (M4 M (V3 (rn (vx (pos Tw) - v6 (m00 M) (m01 M) (m02 M))) (rn (vy (pos Tw) - v6 (m10 M) (m11 M) (m12 M))) (rn (vz (pos Tw) - v6 (m20 M) (m21 M) (m22 M))))
         (brow Tw) (bww Tw)).
(** robots.py:214-219, 228-233 with tol = 1e-6 rounded *)
Definition felbow (c3 : R) : option R :=
  let up := rn (1 + rn tol) in let lo := rn (1 - rn tol) in
  if Rlt_dec up c3 then None else if Rlt_dec c3 (- up) then None
  else if Rlt_dec lo c3 then Some (sgn c3) else if Rlt_dec c3 (- lo) then Some (sgn c3) else Some c3.
(** robots.py:211-223 and 225-236 *)
Definition farm2_q3 (num den a1 x y q1 : R) : res (option (R * R)) :=
  let c1 := fcos (ar A) q1 in let s1 := fsin (ar A) q1 in
  let top := rn (rn (num - rn (rn (rn (2 * a1) * s1) * y)) - rn (rn (rn (2 * a1) * x) * c1)) in
  c3 <- rdiv top den ;;
  Ok (match felbow (rn c3) with
      | None => None
      | Some c3 => let s3 := fsqrt A (rn (1 - fsq A c3)) in Some (fatan2 A s3 c3, fatan2 A (- s3) c3)
      end).
(** robots.py:182-281 Arm2.ik *)
Definition farm2_ik (r : robot) (T : mat4) : res (ikres (list (list R))) :=
  let x := vx (pos T) in let y := vy (pos T) in let z := vz (pos T) in
  a1 <- link_a r 0 ;; a2 <- link_a r 1 ;; a3 <- link_a r 2 ;;
  let q1_pos := fatan2 A y x in
  let q1_neg := fatan2 A (- y) (- x) in
  let den := rn (rn (2 * a2) * a3) in
  let num := rn (rn (rn (rn (rn (fsq A a1 - fsq A a2) - fsq A a3) + fsq A x) + fsq A y) + fsq A z) in
  q3_pos <- farm2_q3 num den a1 x y q1_pos ;;
  q3_neg <- farm2_q3 num den a1 x y q1_neg ;;
  let L := fsqrt A (rn (fsq A x + fsq A y)) in
  let sol_pos :=
    match q3_pos with
    | None => []
    | Some (q3a, q3b) =>
        let c3 := fcos (ar A) q3b in let s3 := fsin (ar A) q3a in
        let q2a := fatan2 A (rn (rn (rn (- a3 * s3) * rn (L - a1)) + rn (z * rn (a2 + rn (a3 * c3)))))
                            (rn (rn (rn (a3 * s3) * z) + rn (rn (L - a1) * rn (a2 + rn (a3 * c3))))) in
        let q2b := fatan2 A (rn (rn (rn (a3 * s3) * rn (L - a1)) + rn (z * rn (a2 + rn (a3 * c3)))))
                            (rn (rn (rn (- a3 * s3) * z) + rn (rn (L - a1) * rn (a2 + rn (a3 * c3))))) in
        [[q1_pos; q2a; q3a]; [q1_pos; q2b; q3b]]
    end in
  let sol_neg :=
    match q3_neg with
    | None => []
    | Some (q3a, q3b) =>
        let s3 := fsin (ar A) q3a in let c3 := fcos (ar A) q3b in
        let q2a := fatan2 A (rn (rn (rn (a3 * s3) * rn (L + a1)) + rn (z * rn (a2 + rn (a3 * c3)))))
                            (rn (rn (rn (a3 * s3) * z) - rn (rn (L + a1) * rn (a2 + rn (a3 * c3))))) in
        let q2b := fatan2 A (rn (rn (rn (- a3 * s3) * rn (L + a1)) + rn (z * rn (a2 + rn (a3 * c3)))))
                            (rn (rn (rn (- a3 * s3) * z) - rn (rn (L + a1) * rn (a2 + rn (a3 * c3))))) in
        [[q1_neg; q2a; q3a]; [q1_neg; q2b; q3b]]
    end in
  Ok (match q3_pos, q3_neg with None, None => IkFail | _, _ => IkOk (sol_pos ++ sol_neg) end).

(** robots.py:72-89 *)
Definition fwrist_angles (Ree_rel : mat3) : list (list R) :=
  let n := col0 Ree_rel in let s := col1 Ree_rel in let a := col2 Ree_rel in
  let a5 := fsqrt A (rn (fsq A (vx a) + fsq A (vy a))) in
  let t1_1 := fatan2 A (vy a) (vx a) in
  let t2_1 := fatan2 A a5 (vz a) in
  let t3_1 := fatan2 A (vz s) (- vz n) in
  let t1_2 := fatan2 A (- vy a) (- vx a) in
  let t2_2 := fatan2 A (- a5) (vz a) in
  let t3_2 := fatan2 A (- vz s) (vz n) in
  [[t1_1; t2_1; t3_1]; [t1_2; t2_2; t3_2]].
(** np.dot of two 3x3 arrays *)
Definition fmul3 (X Y : mat3) : mat3 :=
  let ent a b c (v : vec3) := fdot3 A a b c (vx v) (vy v) (vz v) in
  let row a b c := V3 (ent a b c (col0 Y)) (ent a b c (col1 Y)) (ent a b c (col2 Y)) in
  let r0 := row (m00 X) (m01 X) (m02 X) in let r1 := row (m10 X) (m11 X) (m12 X) in let r2 := row (m20 X) (m21 X) (m22 X) in
  M3 (vx r0) (vy r0) (vz r0) (vx r1) (vy r1) (vz r1) (vx r2) (vy r2) (vz r2).
(** robots.py:65-90 SphericalWrist.ik *)
Definition fwrist_ik (w : wrist) (T : mat4) : wrist * ikres solref :=
  let Rbase := rot (r_tfb (w_rob w)) in
  (Wr (w_rob w) (fwrist_angles (fmul3 (mtr Rbase) (rot T))), IkOk Alias).
(** robots.py:337-348 *)
Fixpoint fkuka_loop (Tw : mat4) (arm : robot) (w : wrist) (qs : list (list R)) : robot * wrist * res (list (list R)) :=
  match qs with
  | [] => (arm, w, Ok [])
  | q :: qs' =>
      match nth_error q 2 with
      | None => (arm, w, Raise IndexError)
      | Some q3 =>
          let q_arm := upd q 2 (rn (q3 + fpi A / 2)) in
          let (arm1, F) := ffk (ar A) arm q_arm in
          match F with
          | Raise e => (arm1, w, Raise e)
          | OutOfFuel => (arm1, w, OutOfFuel)
          | Ok F =>
              let base_wrist := M4 (rot F) v0 (brow Tw) 1 in
              let (w1, s) := fwrist_ik (Wr (set_tfb (w_rob w) base_wrist) (w_qsol w)) Tw in
              let new := match s with IkFail => [] | IkOk s => map (fun q_wrist => q_arm ++ q_wrist) (read w1 s) end in
              let '(arm2, w2, rest) := fkuka_loop Tw arm1 w1 qs' in
              (arm2, w2, rest <- rest ;; Ok (new ++ rest))
          end
      end
  end.
(** robots.py:322-351 Kuka.ik *)
Definition fkuka_ik (k : kuka) (T : mat4) : kuka * res (ikres solref) :=
  match fkuka_target (k_rob k) T with
  | Raise e => (k, Raise e)
  | OutOfFuel => (k, OutOfFuel)
  | Ok Tw =>
      match farm2_ik (k_arm k) Tw with
      | Raise e => (k, Raise e)
      | OutOfFuel => (k, OutOfFuel)
      | Ok IkFail => (k, Ok IkFail)
      | Ok (IkOk qs) =>
          let '(arm, w, sols) := fkuka_loop Tw (k_arm k) (k_wrist k) qs in
          (Kk (k_rob k) arm w, sols <- sols ;; Ok (match sols with [] => IkFail | _ => IkOk (Own sols) end))
      end
  end.
End F.
