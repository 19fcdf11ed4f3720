(** * Forward kinematics in floating point (C130, C131).

    The functions of Robot.v again, now with a rounding after every operation, as
    numpy does. Overflow and NaN are not modelled: a float is a real number. *)
From Coq Require Import Reals List.
From Verif Require Import PyBase Mat Geometry Robot.
Import ListNotations.
Local Open Scope R_scope.

(** the arithmetic numpy uses: the rounding of one operation, np.sin, np.cos and one
    entry of np.dot, which sums four products in an order BLAS chooses *)
Record arith : Type := Ar { rnd : R -> R; fsin : R -> R; fcos : R -> R; fdot : R -> R -> R -> R -> R -> R -> R -> R -> R }.

(** robot.py:46-57, the assignments of write_T with every product rounded; a change of
    sign is exact *)
Definition fwrite_T (A : arith) (T : mat4) (a alpha d theta : R) : mat4 :=
  let c_theta := fcos A theta in let s_theta := fsin A theta in let c_alpha := fcos A alpha in let s_alpha := fsin A alpha in
  M4 (M3 c_theta (rnd A (- s_theta * c_alpha)) (rnd A (s_theta * s_alpha))
         s_theta (rnd A (c_theta * c_alpha)) (rnd A (- c_theta * s_alpha))
         (m20 (rot T)) s_alpha c_alpha)
     (V3 (rnd A (a * c_theta)) (rnd A (a * s_theta)) d) (brow T) (bww T).
(** robot.py:35-58 *)
Definition flink_transform (A : arith) (l : link) (qi : R) : link * res mat4 :=
  match l_jt l with
  | JR => let T := fwrite_T A (l_T l) (da (l_dh l)) (dalpha (l_dh l)) (dd (l_dh l)) qi in (set_T l T, Ok T)
  | JP => let T := fwrite_T A (l_T l) (da (l_dh l)) (dalpha (l_dh l)) qi (dtheta (l_dh l)) in (set_T l T, Ok T)
  | JOther => (l, Raise UnboundLocalError)
  end.
(** np.dot and @ of two 4x4 arrays *)
Definition fmul (A : arith) (X Y : mat4) : mat4 :=
  let ent (r : vec3) (p : R) (c : vec3) (w : R) := fdot A (vx r) (vy r) (vz r) p (vx c) (vy c) (vz c) w in
  let r0 := V3 (m00 (rot X)) (m01 (rot X)) (m02 (rot X)) in
  let r1 := V3 (m10 (rot X)) (m11 (rot X)) (m12 (rot X)) in
  let r2 := V3 (m20 (rot X)) (m21 (rot X)) (m22 (rot X)) in
  let row r p := (ent r p (col0 (rot Y)) (vx (brow Y)), ent r p (col1 (rot Y)) (vy (brow Y)), ent r p (col2 (rot Y)) (vz (brow Y)), ent r p (pos Y) (bww Y)) in
  let '(a00, a01, a02, a03) := row r0 (vx (pos X)) in
  let '(a10, a11, a12, a13) := row r1 (vy (pos X)) in
  let '(a20, a21, a22, a23) := row r2 (vz (pos X)) in
  let '(a30, a31, a32, a33) := row (brow X) (bww X) in
  M4 (M3 a00 a01 a02 a10 a11 a12 a20 a21 a22) (V3 a03 a13 a23) (V3 a30 a31 a32) a33.
(** robot.py:128-131 *)
Fixpoint ffk_loop (A : arith) (ls : list link) (q : list R) (T : mat4) : list link * res mat4 :=
  match ls with
  | [] => ([], Ok T)
  | l :: ls' =>
      match q with
      | [] => (ls, Raise IndexError)
      | qi :: q' =>
          match flink_transform A l qi with
          | (l1, Ok Ti) => let (ls1, r) := ffk_loop A ls' q' (fmul A T Ti) in (l1 :: ls1, r)
          | (l1, Raise e) => (l1 :: ls', Raise e)
          | (l1, OutOfFuel) => (l1 :: ls', OutOfFuel)
          end
      end
  end.
Definition ffk (A : arith) (r : robot) (q : list R) : robot * res mat4 :=
  let (ls, T) := ffk_loop A (r_links r) q (r_tfb r) in
  (set_links r ls, T <- T ;; Ok (match r_tool r with Some (_, tf_tt) => fmul A T tf_tt | None => T end)).
(** robot.py:145-154 fk_all_links *)
Fixpoint fframes_loop (A : arith) (ls : list link) (q : list R) (T : mat4) : list link * res (list mat4) :=
  match ls with
  | [] => ([], Ok [])
  | l :: ls' =>
      match q with
      | [] => (ls, Raise IndexError)
      | qi :: q' =>
          match flink_transform A l qi with
          | (l1, Ok Ti) => let T1 := fmul A T Ti in let (ls1, r) := fframes_loop A ls' q' T1 in (l1 :: ls1, fs <- r ;; Ok (T1 :: fs))
          | (l1, Raise e) => (l1 :: ls', Raise e)
          | (l1, OutOfFuel) => (l1 :: ls', OutOfFuel)
          end
      end
  end.
Definition ffk_all_links (A : arith) (r : robot) (q : list R) : robot * res (list mat4) :=
  let (ls, fs) := fframes_loop A (r_links r) q (r_tfb r) in (set_links r ls, fs).
