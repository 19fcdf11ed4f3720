(** * Inverse kinematics of the AnthropomorphicArm in floating point (C172). *)
From Coq Require Import Reals List.
From Verif Require Import PyBase Mat Geometry Robot Ik FloatFk FloatIk.
Import ListNotations.
Local Open Scope R_scope.

Section F.
Context (A : arith_ik).
Local Notation rn := (rnd (ar A)).

(** robots.py:110-160 AnthropomorphicArm.ik; [anthro_ik] of Ik.v with a rounding after every
    operation in the order Python evaluates them.  A change of sign is exact; overflow, NaN and
    signed zeros are not modelled. *)
Definition fanthro_ik (r : robot) (T : mat4) : res (ikres (list (list R))) :=
  let px := vx (pos T) in let py := vy (pos T) in let pz := vz (pos T) in
  l2 <- link_a r 1 ;; l3 <- link_a r 2 ;;
  let Lps := rn (rn (fsq A px + fsq A py) + fsq A pz) in
  c3 <- rdiv (rn (rn (Lps - fsq A l2) - fsq A l3)) (rn (rn (2 * l2) * l3)) ;;
  match felbow A (rn c3) with
  | None => Ok IkFail
  | Some c3 =>
      let s3 := fsqrt A (rn (1 - fsq A c3)) in
      let t3_1 := fatan2 A s3 c3 in let t3_2 := fatan2 A (- s3) c3 in
      let Lxy := fsqrt A (rn (fsq A px + fsq A py)) in
      let a := rn (l2 + rn (l3 * c3)) in
      let b := rn (l3 * s3) in
      let t2_1 := fatan2 A (rn (rn (pz * a) - rn (Lxy * b))) (rn (rn (Lxy * a) + rn (pz * b))) in
      let t2_2 := fatan2 A (rn (rn (pz * a) + rn (Lxy * b))) (rn (rn (- Lxy * a) + rn (pz * b))) in
      let t2_3 := fatan2 A (rn (rn (pz * a) + rn (Lxy * b))) (rn (rn (Lxy * a) - rn (pz * b))) in
      let t2_4 := fatan2 A (rn (rn (pz * a) - rn (Lxy * b))) (rn (rn (- Lxy * a) - rn (pz * b))) in
      let t1_1 := fatan2 A py px in let t1_2 := fatan2 A (- py) (- px) in
      Ok (IkOk [[t1_1; t2_1; t3_1]; [t1_1; t2_3; t3_2]; [t1_2; t2_2; t3_1]; [t1_2; t2_4; t3_2]])
  end.
End F.
