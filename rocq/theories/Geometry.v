(** * Model of acrobotics/geometry.py (plotting left out).

    The box-box test of the external library fcl is a parameter [prim]; it gets
    the sizes and, for both boxes, tf[:3,:3] and tf[:3,3].  The CollisionResult
    object passed to fcl only collects contacts and is left out. *)
From Coq Require Import Reals List Bool.
From Verif Require Import PyBase Mat Util.
Import ListNotations.
Local Open Scope R_scope.

(** geometry.py:26-32 Shape.__init__ *)
Record shape : Type := Shape { dx : R; dy : R; dz : R }.
(** geometry.py:34-49 get_vertices; tf_apply (line 6-8) is [tapply] *)
Definition get_vertices (s : shape) (tf : mat4) : list vec3 :=
  let a := dx s / 2 in let b := dy s / 2 in let c := dz s / 2 in
  [ tapply tf (V3 (- a) b c); tapply tf (V3 (- a) b (- c)); tapply tf (V3 (- a) (- b) c); tapply tf (V3 (- a) (- b) (- c));
    tapply tf (V3 a b c); tapply tf (V3 a b (- c)); tapply tf (V3 a (- b) c); tapply tf (V3 a (- b) (- c)) ].
(** geometry.py:51-68 get_edges; a row of six numbers is a pair of points *)
Definition get_edges (s : shape) (tf : mat4) : list (vec3 * vec3) :=
  let v := fun i => nth i (get_vertices s tf) v0 in
  [ (v 0%nat, v 1%nat); (v 1%nat, v 3%nat); (v 3%nat, v 2%nat); (v 2%nat, v 0%nat);
    (v 0%nat, v 4%nat); (v 1%nat, v 5%nat); (v 3%nat, v 7%nat); (v 2%nat, v 6%nat);
    (v 4%nat, v 5%nat); (v 5%nat, v 7%nat); (v 7%nat, v 6%nat); (v 6%nat, v 4%nat) ].
(** geometry.py:70-79 get_normals *)
Definition get_normals (tf : mat4) : list vec3 :=
  let R := rot tf in
  [ mapply R (V3 1 0 0); mapply R (V3 (-1) 0 0); mapply R (V3 0 1 0); mapply R (V3 0 (-1) 0); mapply R (V3 0 0 1); mapply R (V3 0 0 (-1)) ].
(** geometry.py:11 Polyhedron *)
Record polyhedron : Type := Poly { pA : list vec3; pb : list R }.
(** geometry.py:81-86 get_polyhedron *)
Definition get_polyhedron (s : shape) (tf : mat4) : polyhedron :=
  let A := get_normals tf in
  let b := map (fun w => 0.5 * w) [dx s; dx s; dy s; dy s; dz s; dz s] in
  Poly A (map (fun p => fst p + snd p) (combine b (map (fun n => vdot n (pos tf)) A))).

(** geometry.py:137-139 Collection.__init__ *)
Record coll : Type := Coll { c_s : list shape; c_tf : list mat4 }.
(** geometry.py:154-159 get_polyhedrons *)
Definition get_polyhedrons (c : coll) : list polyhedron := map (fun p => get_polyhedron (fst p) (snd p)) (combine (c_s c) (c_tf c)).

Section Prim.
Context (prim : shape -> mat3 -> vec3 -> shape -> mat3 -> vec3 -> bool).
(** geometry.py:88-95 Shape.is_in_collision *)
Definition shape_collision (s : shape) (tf : mat4) (s' : shape) (tf' : mat4) : bool := prim s (rot tf) (pos tf) s' (rot tf') (pos tf').
(** geometry.py:97-101 is_in_collision_multi: the call misses two arguments *)
Definition shape_collision_multi (s : shape) (others : list shape) : res bool :=
  match others with [] => Ok false | _ => Raise TypeError end.
(** geometry.py:166-169 *)
Definition moved (tf : option mat4) (l : list mat4) : list mat4 :=
  match tf with Some T => map (tmul T) l | None => l end.
(** geometry.py:173-175, the inner loop *)
Fixpoint inner_loop (tf1 : mat4) (s1 : shape) (l : list (mat4 * shape)) : bool :=
  match l with
  | [] => false
  | (tf2, s2) :: l' => if shape_collision s1 tf1 s2 tf2 then true else inner_loop tf1 s1 l'
  end.
(** geometry.py:172-176, the outer loop *)
Fixpoint outer_loop (l l2 : list (mat4 * shape)) : bool :=
  match l with
  | [] => false
  | (tf1, s1) :: l' => if inner_loop tf1 s1 l2 then true else outer_loop l' l2
  end.
(** geometry.py:161-176 Collection.is_in_collision *)
Definition is_in_collision (self other : coll) (tf_self tf_other : option mat4) : bool :=
  outer_loop (combine (moved tf_self (c_tf self)) (c_s self)) (combine (moved tf_other (c_tf other)) (c_s other)).
End Prim.
