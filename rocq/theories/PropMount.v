(** * Property theorem C134: the torch on the robot and the plates of the workpiece.

    [in_plane X Y Z]: the point with coordinates X, Y, Z in the torch drawing, turned
    by 11.3 degrees, in the flange frame.  [torch_hits]: the torch and one of the
    first four links have a common point.  [links_hit]: links i and j with i + 3 <= j
    have one.  [same_links r r0]: the links of r0 with any cached matrices.
    [cavity]: the inner space, open to the front.  [inside]: in the box, not on its
    surface.  wp_l, wp_w, wp_h, wp_t: length, width, height, thickness. *)
From Coq Require Import Reals Lra List Arith.
From Verif Require Import PyBase Mat Util Geometry GeometryProofs Robot RobotProofs Resources ResourcesProofs Mount.
Import ListNotations.
Local Open Scope R_scope.

(** C134: the x axis of the torch drawing is the axis of the flange. *)
Theorem C134_mount : forall x y z, tapply tf_tool (V3 x y z) = V3 y z x.
Proof. exact mount_axes. Qed.
Print Assumptions C134_mount.
Theorem C134_tip : pos tool_tip = in_plane (0.25 + 0.06 * cos angle2) (0.15 + 0.11 * sin angle2) 0.
Proof. exact tip_place. Qed.
Print Assumptions C134_tip.
(** C134: the torch never touches link 5, whatever the joint values ... *)
Theorem C134_kuka_link5 : forall a1 a2 d4 d6 r q l x, 0.09 < d6 -> same_links r (KukaG a1 a2 d4 d6) -> rigid (r_tfb r) -> (6 <= length q)%nat ->
  nth_error (r_links r) 4 = Some l -> in_coll (l_geom l) (Some (frame r q 4)) x -> in_coll (fst torch) (Some (frame r q 5)) x -> False.
Proof. exact kuka_torch5. Qed.
Print Assumptions C134_kuka_link5.
Theorem C134_rail_link5 : forall a1 a2 d4 d6 r q l x, 0.09 < d6 -> same_links r (KukaOnRailG a1 a2 d4 d6) -> rigid (r_tfb r) -> (7 <= length q)%nat ->
  nth_error (r_links r) 5 = Some l -> in_coll (l_geom l) (Some (frame r q 5)) x -> in_coll (fst torch) (Some (frame r q 6)) x -> False.
Proof. exact rail_torch5. Qed.
Print Assumptions C134_rail_link5.
(** C134: ... and always overlaps link 6, the one left out of the check. *)
Theorem C134_kuka_link6 : forall a1 a2 d4 d6 r q, same_links r (KukaG a1 a2 d4 d6) -> rigid (r_tfb r) ->
  exists l, nth_error (r_links r) 5 = Some l /\ in_coll (l_geom l) (Some (frame r q 5)) (pos (frame r q 5)) /\ in_coll (fst torch) (Some (frame r q 5)) (pos (frame r q 5)).
Proof. exact kuka_torch6. Qed.
Print Assumptions C134_kuka_link6.
(** C134: what is_in_self_collision answers for a Kuka with the torch. *)
Theorem C134_self_collision : forall prim a1 a2 d4 d6 r q, exact_prim prim -> 0.09 < d6 -> good r -> same_links r (KukaG a1 a2 d4 d6) -> rigid (r_tfb r) -> (6 <= length q)%nat ->
  r_tool r = Some torch -> r_mat r = band ->
  exists b, snd (is_in_self_collision prim r q) = Ok b /\ (b = true <-> links_hit r q \/ torch_hits r q).
Proof. exact kuka_torch_self. Qed.
Print Assumptions C134_self_collision.
Example C134_case : good kuka_torch /\ same_links kuka_torch (KukaG 0.18 0.6 0.62 0.115) /\ rigid (r_tfb kuka_torch) /\ r_tool kuka_torch = Some torch /\ r_mat kuka_torch = band /\ 0.09 < 0.115.
Proof. exact kuka_torch_case. Qed.

(** C134: the workpiece is a box without its cavity ... *)
Theorem C134_workpiece : forall p, in_coll workpiece None p <->
  Rabs (vx p) <= wp_l / 2 /\ Rabs (vy p) <= wp_w / 2 /\ 0 <= vz p <= wp_h + 2 * wp_t /\ ~ cavity p.
Proof. exact workpiece_set. Qed.
Print Assumptions C134_workpiece.
(** C134: ... and its plates do not run through each other. *)
Theorem C134_plates : forall i j si sj Ti Tj p, i <> j -> nth_error (c_s workpiece) i = Some si -> nth_error (c_tf workpiece) i = Some Ti ->
  nth_error (c_s workpiece) j = Some sj -> nth_error (c_tf workpiece) j = Some Tj -> inside si Ti p -> inside sj Tj p -> False.
Proof. exact plates_apart. Qed.
Print Assumptions C134_plates.
Example C134_plates_case : length (c_s workpiece) = 5%nat /\ length (c_tf workpiece) = 5%nat.
Proof. split; reflexivity. Qed.
