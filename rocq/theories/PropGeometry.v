(** * Property theorems C72-C75: geometry.py.

    [local_in s l]: |l| is at most half the box sizes, coordinate by
    coordinate; [in_box s T x]: x is the image under T of such a point;
    [satisfies p x]: A x <= b row by row; [member c s T]: shape s with transform
    T is at some index of c; [place o T]: T moved by the optional frame o. *)
From Coq Require Import Reals Lra List Bool.
From Verif Require Import PyBase Mat Util UtilProofs Geometry GeometryProofs.
Import ListNotations.
Local Open Scope R_scope.

(** C72 *)
Theorem C72_polyhedron_local : forall s T x, satisfies (get_polyhedron s T) x <-> local_in s (tapply (tf_inverse T) x).
Proof. exact polyhedron_local. Qed.
Print Assumptions C72_polyhedron_local.
Theorem C72_polyhedron_is_box : forall s T x, rigid T -> satisfies (get_polyhedron s T) x <-> in_box s T x.
Proof. exact polyhedron_box. Qed.
Print Assumptions C72_polyhedron_is_box.
(** C72: the polyhedra of a collection cover exactly its boxes. *)
Theorem C72_polyhedrons_of_collection : forall c x, Forall rigid (c_tf c) ->
  (exists p, In p (get_polyhedrons c) /\ satisfies p x) <->
  exists i s T, nth_error (c_s c) i = Some s /\ nth_error (c_tf c) i = Some T /\ in_box s T x.
Proof. exact polyhedrons_box. Qed.
Print Assumptions C72_polyhedrons_of_collection.
Example C72_example : in_box (Shape 2 4 6) (pose_z 0 1 1 1) (V3 2 3 4) /\ ~ in_box (Shape 2 4 6) eye4 (V3 2 0 0).
Proof.
  split.
  - exists (V3 1 2 3). split; [unfold local_in; cbn; rewrite !Rabs_pos_eq by lra; lra|]. unfold tapply, pose_z, rot_z. cbn. rewrite cos_0, sin_0. vring.
  - intros (l & (H & _) & E). unfold tapply, eye4 in E. cbn in *. destruct l as [a b c]. cbn in *. injection E as E _ _. apply Rabs_le_iff in H. lra.
Qed.

(** C73: the vertices are the eight corners, each once ... *)
Theorem C73_vertices : forall s T, exists cs, get_vertices s T = map (fun c => tapply T (corner s c)) cs /\ NoDup cs /\ forall c, In c cs.
Proof. exact vertices_corners. Qed.
Print Assumptions C73_vertices.
(** C73: ... inside the polyhedron ... *)
Theorem C73_vertices_inside : forall s T, rigid T -> 0 <= dx s -> 0 <= dy s -> 0 <= dz s ->
  Forall (satisfies (get_polyhedron s T)) (get_vertices s T).
Proof. exact vertices_inside. Qed.
Print Assumptions C73_vertices_inside.
(** C73: ... and the edges join exactly the neighbouring corners, each pair once, in one direction ... *)
Theorem C73_edges : forall s T, exists es,
  get_edges s T = map (fun e => (tapply T (corner s (fst e)), tapply T (corner s (snd e)))) es /\ NoDup es /\ length es = 12%nat /\
  (forall c c', neighbours c c' <-> In (c, c') es \/ In (c', c) es) /\
  (forall c c', In (c, c') es -> ~ In (c', c) es).
Proof. exact edges_spec. Qed.
Print Assumptions C73_edges.
(** C73: ... with the side of the box in that direction as length. *)
Theorem C73_edge_length : forall s T c c', rotation (rot T) -> neighbours c c' ->
  norm2 (vsub (tapply T (corner s c)) (tapply T (corner s c'))) =
  let '(a, b, d) := c in let '(a', b', d') := c' in
  if negb (eqb a a') then dx s * dx s else if negb (eqb b b') then dy s * dy s else dz s * dz s.
Proof. exact edge_length. Qed.
Print Assumptions C73_edge_length.
Example C73_example : neighbours (true, true, false) (true, false, false).
Proof. cbn. right. left. repeat split. discriminate. Qed.

(** C74 *)
Theorem C74_collision_pairs : forall prim c c' o o', is_in_collision prim c c' o o' = true <->
  exists s T s' T', member c s T /\ member c' s' T' /\ shape_collision prim s (place o T) s' (place o' T') = true.
Proof. exact collision_pairs. Qed.
Print Assumptions C74_collision_pairs.
Example C74_example :
  is_in_collision (fun s _ _ s' _ _ => if Rlt_dec (dx s) (dx s') then true else false)
    (Coll [Shape 9 1 1; Shape 1 1 1] [eye4; eye4]) (Coll [Shape 2 2 2] [eye4]) None None = true.
Proof. apply C74_collision_pairs. exists (Shape 1 1 1), eye4, (Shape 2 2 2), eye4. split; [exists 1%nat; split; reflexivity|]. split; [exists 0%nat; split; reflexivity|]. unfold shape_collision. cbn [dx]. destruct (Rlt_dec 1 2) as [|n]; [reflexivity|exfalso; apply n; lra]. Qed.

(** C75: with an exact box test the answer is about the point sets ... *)
Theorem C75_collision_points : forall prim c c' o o', exact_prim prim -> rigid_coll c -> rigid_coll c' -> rigid_opt o -> rigid_opt o' ->
  (is_in_collision prim c c' o o' = true <-> exists x, in_coll c o x /\ in_coll c' o' x).
Proof. exact collision_points. Qed.
Print Assumptions C75_collision_points.
(** C75: ... so it is symmetric ... *)
Theorem C75_collision_symmetric : forall prim c c' o o', exact_prim prim -> rigid_coll c -> rigid_coll c' -> rigid_opt o -> rigid_opt o' ->
  is_in_collision prim c c' o o' = is_in_collision prim c' c o' o.
Proof. exact collision_sym. Qed.
Print Assumptions C75_collision_symmetric.
(** C75: ... and the same after moving both by G. *)
Theorem C75_collision_frame : forall prim G c c' o o', exact_prim prim -> rigid G -> rigid_coll c -> rigid_coll c' -> rigid_opt o -> rigid_opt o' ->
  is_in_collision prim c c' (compose G o) (compose G o') = is_in_collision prim c c' o o'.
Proof. exact collision_frame. Qed.
Print Assumptions C75_collision_frame.
(** exact tests exist *)
Example C75_example : exact_prim box_test.
Proof. exact box_test_exact. Qed.
