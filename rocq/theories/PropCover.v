(** * Property theorem C101, continued: other dimensions and the spherical robots.

    [on_skeleton], [in_links], [same_links]: see PropResources. *)
From Coq Require Import Reals Lra List Arith Lia.
From Verif Require Import PyBase Mat Util Geometry GeometryProofs Robot RobotProofs Resources ResourcesProofs Cover.
Import ListNotations.
Local Open Scope R_scope.

(** C101: the Kuka and the Kuka on a rail with other dimensions; the default lengths d4 and d6 are the largest allowed. *)
Theorem C101_kuka_dimensions : forall a1 a2 d4 d6 r q x, 0 <= a1 <= 0.24 -> 0 <= a2 <= 0.7 -> 0 <= d4 <= 0.62 -> 0 <= d6 <= 0.115 ->
  same_links r (KukaG a1 a2 d4 d6) -> rigid (r_tfb r) -> (6 <= length q)%nat -> on_skeleton r q 0 x -> in_links r q x.
Proof. exact kuka_covered_dims. Qed.
Print Assumptions C101_kuka_dimensions.
Theorem C101_rail_dimensions_partial : forall a1 a2 d4 d6 r q x, 0 <= a1 <= 0.24 -> 0 <= a2 <= 0.7 -> 0 <= d4 <= 0.62 -> 0 <= d6 <= 0.115 ->
  same_links r (KukaOnRailG a1 a2 d4 d6) -> rigid (r_tfb r) -> (7 <= length q)%nat -> on_skeleton r q 1 x -> in_links r q x.
Proof. exact rail_covered_dims. Qed.
Print Assumptions C101_rail_dimensions_partial.
Example C101_dimensions : 0 <= 0.18 <= 0.24 /\ 0 <= 0.6 <= 0.7 /\ 0 <= 0.62 <= 0.62 /\ 0 <= 0.115 <= 0.115.
Proof. lra. Qed.
(** C101: the wrist is covered in all configurations for lengths up to 0.1 and for no others. *)
Theorem C101_wrist_boxes : forall d3 r q x, Rabs d3 <= 0.1 -> same_links r (SphericalWristG d3) -> rigid (r_tfb r) -> (3 <= length q)%nat -> on_skeleton r q 0 x -> in_links r q x.
Proof. exact wrist_covered. Qed.
Print Assumptions C101_wrist_boxes.
Theorem C101_wrist_refuted : forall d3, 0.1 < Rabs d3 -> exists x, on_skeleton (SphericalWristG d3) [0; 0; 0] 0 x /\ ~ in_links (SphericalWristG d3) [0; 0; 0] x.
Proof. exact wrist_uncovered. Qed.
Print Assumptions C101_wrist_refuted.
(** C101: the spherical arm is not covered when its slide is extended. *)
Theorem C101_spherical_refuted : forall d2, exists x, on_skeleton (SphericalArmG d2) [0; 0; 1] 0 x /\ ~ in_links (SphericalArmG d2) [0; 0; 1] x.
Proof. exact spherical_uncovered. Qed.
Print Assumptions C101_spherical_refuted.
Theorem C101_spherical_partial : forall d2 r q x, Rabs d2 <= 0.1 -> (forall q3, nth_error q 2 = Some q3 -> Rabs q3 <= 0.1) -> same_links r (SphericalArmG d2) ->
  rigid (r_tfb r) -> (3 <= length q)%nat -> on_skeleton r q 0 x -> in_links r q x.
Proof. exact spherical_covered. Qed.
Print Assumptions C101_spherical_partial.
Example C101_spherical_case : let r := SphericalArmG 0.1 in same_links r r /\ rigid (r_tfb r) /\ Rabs 0.1 <= 0.1.
Proof. split; [reflexivity|]. split; [exact eye4_rigid|]. rewrite Rabs_pos_eq; lra. Qed.
