(** * Link boxes and link lengths: other dimensions and the spherical robots (C101). *)
From Coq Require Import Reals Lra Lia List Bool Arith.
From Verif Require Import PyBase Mat Util UtilProofs HaltonProofs Geometry GeometryProofs Robot RobotProofs RobotForms Ik IkProofs KukaProofs RailProofs Path PathProofs Resources ResourcesProofs.
Import ListNotations.
Local Open Scope R_scope.

Lemma part t a m : 0 <= t <= 1 -> 0 <= a <= m -> 0 <= (1 - t) * a <= a /\ (1 - t) * a <= m.
Proof. intros H A. assert (0 <= (1 - t) * a) by (apply Rmult_le_pos; lra). assert ((1 - t) * a <= 1 * a) by (apply Rmult_le_compat_r; lra). lra. Qed.
Ltac boxes := first [apply pose_x0_box|apply translation_box]; cbn [vx vy vz dx dy dz vscale]; apply Rabs_le; lra.
Lemma kuka_covered_dims a1 a2 d4 d6 r q x : 0 <= a1 <= 0.24 -> 0 <= a2 <= 0.7 -> 0 <= d4 <= 0.62 -> 0 <= d6 <= 0.115 ->
  same_links r (KukaG a1 a2 d4 d6) -> rigid (r_tfb r) -> (6 <= length q)%nat -> on_skeleton r q 0 x -> in_links r q x.
Proof.
  intros A1 A2 D4 D6 H Rb L (i & t & [_ Hi] & Ht & ->). rewrite (same_links_ndof _ _ H) in Hi. change (ndof (KukaG a1 a2 d4 d6)) with 6%nat in Hi.
  destruct (nth_error_some q i ltac:(lia)) as [qi F]. pose proof (part t a1 _ Ht A1). pose proof (part t a2 _ Ht A2). pose proof (part t d4 _ Ht D4). pose proof (part t d6 _ Ht D6).
  destruct i as [|[|[|[|[|[|i]]]]]]; [| | | | | |lia].
  - get_link H 0%nat l E Ed Ej Eg. rewrite (skeleton_local r q _ l qi t Rb E F). unfold lback. rewrite Ed, Ej. eapply in_links_local; eauto using pose_x_rigid.
    cbn [da dalpha dd dtheta]. unfold back. rewrite sin_PI2, cos_PI2. boxes.
  - get_link H 1%nat l E Ed Ej Eg. rewrite (skeleton_local r q _ l qi t Rb E F). unfold lback. rewrite Ed, Ej. eapply in_links_local; eauto using pose_x_rigid.
    cbn [da dalpha dd dtheta]. unfold back. rewrite sin_0, cos_0. boxes.
  - get_link H 2%nat l E Ed Ej Eg. rewrite (skeleton_local r q _ l qi t Rb E F). unfold lback. rewrite Ed, Ej. eapply in_links_local; eauto using pose_x_rigid.
    cbn [da dalpha dd dtheta]. unfold back. rewrite sin_PI2, cos_PI2. boxes.
  - get_link H 3%nat l E Ed Ej Eg. rewrite (skeleton_local r q _ l qi t Rb E F). unfold lback. rewrite Ed, Ej. cbn [da dalpha dd dtheta]. unfold back. rewrite sin_mPI2, cos_mPI2.
    destruct (Rle_lt_dec ((1 - t) * d4) 0.2) as [Hs|Hs].
    + eapply in_links_local; eauto using pose_x_rigid. boxes.
    + get_link H 2%nat l2 E2 Ed2 Ej2 Eg2. rewrite (frame_down r q 2 l qi _ Rb E F). eapply in_links_local; eauto using pose_x_rigid.
      unfold lspec. rewrite Ej, Ed. cbn [da dalpha dd dtheta].
      rewrite dhm_dhx, dhx_m. munf. cbn [rot pos vx vy vz m00 m01 m02 m10 m11 m12 m20 m21 m22]. boxes.
  - get_link H 4%nat l E Ed Ej Eg. rewrite (skeleton_local r q _ l qi t Rb E F). unfold lback. rewrite Ed, Ej. eapply in_links_local; eauto using pose_x_rigid.
    cbn [da dalpha dd dtheta]. unfold back. rewrite sin_PI2, cos_PI2. boxes.
  - get_link H 5%nat l E Ed Ej Eg. rewrite (skeleton_local r q _ l qi t Rb E F). unfold lback. rewrite Ed, Ej. cbn [da dalpha dd dtheta]. unfold back. rewrite sin_0, cos_0.
    destruct (Rle_lt_dec ((1 - t) * d6) 0.03) as [Hs|Hs].
    + eapply in_links_local; eauto using pose_x_rigid. boxes.
    + get_link H 4%nat l4 E4 Ed4 Ej4 Eg4. rewrite (frame_down r q 4 l qi _ Rb E F). eapply in_links_local; eauto using pose_x_rigid.
      unfold lspec. rewrite Ej, Ed. cbn [da dalpha dd dtheta].
      rewrite dhm_dhx, dhx_0. unfold rot_z. munf. cbn [rot pos vx vy vz m00 m01 m02 m10 m11 m12 m20 m21 m22]. boxes.
Qed.
Lemma rail_covered_dims a1 a2 d4 d6 r q x : 0 <= a1 <= 0.24 -> 0 <= a2 <= 0.7 -> 0 <= d4 <= 0.62 -> 0 <= d6 <= 0.115 ->
  same_links r (KukaOnRailG a1 a2 d4 d6) -> rigid (r_tfb r) -> (7 <= length q)%nat -> on_skeleton r q 1 x -> in_links r q x.
Proof.
  intros A1 A2 D4 D6 H Rb L (i & t & [H1 Hi] & Ht & ->). rewrite (same_links_ndof _ _ H) in Hi. change (ndof (KukaOnRailG a1 a2 d4 d6)) with 7%nat in Hi.
  destruct (nth_error_some q i ltac:(lia)) as [qi F]. pose proof (part t a1 _ Ht A1). pose proof (part t a2 _ Ht A2). pose proof (part t d4 _ Ht D4). pose proof (part t d6 _ Ht D6).
  destruct i as [|[|[|[|[|[|[|i]]]]]]]; [lia| | | | | | |lia].
  - get_link H 1%nat l E Ed Ej Eg. rewrite (skeleton_local r q _ l qi t Rb E F). unfold lback. rewrite Ed, Ej. eapply in_links_local; eauto using pose_x_rigid.
    cbn [da dalpha dd dtheta]. unfold back. rewrite sin_PI2, cos_PI2. boxes.
  - get_link H 2%nat l E Ed Ej Eg. rewrite (skeleton_local r q _ l qi t Rb E F). unfold lback. rewrite Ed, Ej. eapply in_links_local; eauto using pose_x_rigid.
    cbn [da dalpha dd dtheta]. unfold back. rewrite sin_0, cos_0. boxes.
  - get_link H 3%nat l E Ed Ej Eg. rewrite (skeleton_local r q _ l qi t Rb E F). unfold lback. rewrite Ed, Ej. eapply in_links_local; eauto using pose_x_rigid.
    cbn [da dalpha dd dtheta]. unfold back. rewrite sin_PI2, cos_PI2. boxes.
  - get_link H 4%nat l E Ed Ej Eg. rewrite (skeleton_local r q _ l qi t Rb E F). unfold lback. rewrite Ed, Ej. cbn [da dalpha dd dtheta]. unfold back. rewrite sin_mPI2, cos_mPI2.
    destruct (Rle_lt_dec ((1 - t) * d4) 0.2) as [Hs|Hs].
    + eapply in_links_local; eauto using pose_x_rigid. boxes.
    + get_link H 3%nat l2 E2 Ed2 Ej2 Eg2. rewrite (frame_down r q 3 l qi _ Rb E F). eapply in_links_local; eauto using pose_x_rigid.
      unfold lspec. rewrite Ej, Ed. cbn [da dalpha dd dtheta].
      rewrite dhm_dhx, dhx_m. munf. cbn [rot pos vx vy vz m00 m01 m02 m10 m11 m12 m20 m21 m22]. boxes.
  - get_link H 5%nat l E Ed Ej Eg. rewrite (skeleton_local r q _ l qi t Rb E F). unfold lback. rewrite Ed, Ej. eapply in_links_local; eauto using pose_x_rigid.
    cbn [da dalpha dd dtheta]. unfold back. rewrite sin_PI2, cos_PI2. boxes.
  - get_link H 6%nat l E Ed Ej Eg. rewrite (skeleton_local r q _ l qi t Rb E F). unfold lback. rewrite Ed, Ej. cbn [da dalpha dd dtheta]. unfold back. rewrite sin_0, cos_0.
    destruct (Rle_lt_dec ((1 - t) * d6) 0.03) as [Hs|Hs].
    + eapply in_links_local; eauto using pose_x_rigid. boxes.
    + get_link H 5%nat l4 E4 Ed4 Ej4 Eg4. rewrite (frame_down r q 5 l qi _ Rb E F). eapply in_links_local; eauto using pose_x_rigid.
      unfold lspec. rewrite Ej, Ed. cbn [da dalpha dd dtheta].
      rewrite dhm_dhx, dhx_0. unfold rot_z. munf. cbn [rot pos vx vy vz m00 m01 m02 m10 m11 m12 m20 m21 m22]. boxes.
Qed.

(** ** Spherical arm and wrist *)
Lemma part_abs t a m : 0 <= t <= 1 -> Rabs a <= 2 * m -> Rabs ((1 - t) * a) <= m \/ Rabs (a - (1 - t) * a) <= m.
Proof.
  intros H A. replace (a - (1 - t) * a) with (t * a) by ring. rewrite !Rabs_mult, (Rabs_pos_eq t), (Rabs_pos_eq (1 - t)) by lra.
  destruct (Rle_lt_dec ((1 - t) * Rabs a) m); auto. right. lra.
Qed.
Lemma unit_box x y z : Rabs x <= 0.5 -> Rabs y <= 0.05 -> Rabs z <= 0.05 -> in_box (Shape 1 0.1 0.1) eye4 (V3 x y z).
Proof. intros A B C. exists (V3 x y z). split; [unfold local_in; cbn [vx vy vz dx dy dz]; lra|]. unfold eye4. vring. Qed.
Lemma unit_box_inv p : in_box (Shape 1 0.1 0.1) eye4 p -> Rabs (vx p) <= 0.5 /\ Rabs (vy p) <= 0.05 /\ Rabs (vz p) <= 0.05.
Proof. intros (l & (A & B & C) & ->). replace (tapply eye4 l) with l by (unfold eye4; vring). cbn [dx dy dz] in *. lra. Qed.
Lemma eye4_rigid : rigid eye4. Proof. apply rigid_eye. Qed.
Ltac bar H i l E Ed Ej Eg :=
  match type of H with same_links ?r ?r0 =>
    let o := eval cbv [SphericalArmG SphericalWristG set_geom set_links r_links SphericalArm SphericalWrist robot_init bar_geom repeat
      map combine nth_error fst snd l_dh l_jt l_T lr lp new_link] in (nth_error (r_links r0) i) in
    match o with Some ?l0 => destruct (same_links_nth r r0 i l0 H ltac:(reflexivity)) as (l & E & Ed & Ej & Eg); cbn [l_dh l_jt l_geom] in Ed, Ej, Eg end
  end.
Ltac flat := unfold vscale; cbn [vx vy vz]; apply unit_box; rewrite ?Ropp_0, ?Rmult_0_r, ?Rmult_0_l, ?Rmult_0_r, ?Ropp_0, ?Rmult_0_r, ?Rabs_R0; try lra.
Lemma wrist_covered d3 r q x : Rabs d3 <= 0.1 -> same_links r (SphericalWristG d3) -> rigid (r_tfb r) -> (3 <= length q)%nat -> on_skeleton r q 0 x -> in_links r q x.
Proof.
  intros D H Rb L (i & t & [_ Hi] & Ht & ->). rewrite (same_links_ndof _ _ H) in Hi. change (ndof (SphericalWristG d3)) with 3%nat in Hi. destruct (nth_error_some q i ltac:(lia)) as [qi F].
  destruct i as [|[|[|i]]]; [| | |lia].
  - bar H 0%nat l E Ed Ej Eg. rewrite (skeleton_local r q _ l qi t Rb E F). unfold lback. rewrite Ed, Ej. eapply in_links_local; eauto using eye4_rigid.
    cbn [da dalpha dd dtheta]. unfold back. rewrite sin_mPI2, cos_mPI2. flat.
  - bar H 1%nat l E Ed Ej Eg. rewrite (skeleton_local r q _ l qi t Rb E F). unfold lback. rewrite Ed, Ej. eapply in_links_local; eauto using eye4_rigid.
    cbn [da dalpha dd dtheta]. unfold back. rewrite sin_PI2, cos_PI2. flat.
  - bar H 2%nat l E Ed Ej Eg. rewrite (skeleton_local r q _ l qi t Rb E F). unfold lback. rewrite Ed, Ej. cbn [da dalpha dd dtheta]. unfold back. rewrite sin_0, cos_0. destruct (part_abs t d3 0.05 Ht ltac:(lra)) as [K|K].
    + eapply in_links_local; eauto using eye4_rigid. flat. replace ((1 - t) * (- d3 * 1)) with (- ((1 - t) * d3)) by ring. rewrite Rabs_Ropp. exact K.
    + bar H 1%nat l2 E2 Ed2 Ej2 Eg2. rewrite (frame_down r q 1 l qi _ Rb E F). eapply in_links_local; eauto using eye4_rigid. unfold lspec. rewrite Ej, Ed. cbn [da dalpha dd dtheta]. rewrite dhm_dhx, dhx_0.
      unfold rot_z, vscale, tapply, mapply, vadd. cbn [rot pos vx vy vz m00 m01 m02 m10 m11 m12 m20 m21 m22]. apply unit_box.
      * match goal with |- Rabs ?u <= _ => replace u with 0 by ring end. rewrite Rabs_R0. lra.
      * match goal with |- Rabs ?u <= _ => replace u with 0 by ring end. rewrite Rabs_R0. lra.
      * match goal with |- Rabs ?u <= _ => replace u with (d3 - (1 - t) * d3) by ring end. exact K.
Qed.
Lemma spherical_covered d2 r q x : Rabs d2 <= 0.1 -> (forall q3, nth_error q 2 = Some q3 -> Rabs q3 <= 0.1) -> same_links r (SphericalArmG d2) -> rigid (r_tfb r) -> (3 <= length q)%nat -> on_skeleton r q 0 x -> in_links r q x.
Proof.
  intros D Q H Rb L (i & t & [_ Hi] & Ht & ->). rewrite (same_links_ndof _ _ H) in Hi. change (ndof (SphericalArmG d2)) with 3%nat in Hi. destruct (nth_error_some q i ltac:(lia)) as [qi F].
  destruct i as [|[|[|i]]]; [| | |lia].
  - bar H 0%nat l E Ed Ej Eg. rewrite (skeleton_local r q _ l qi t Rb E F). unfold lback. rewrite Ed, Ej. eapply in_links_local; eauto using eye4_rigid.
    cbn [da dalpha dd dtheta]. unfold back. rewrite sin_mPI2, cos_mPI2. flat.
  - bar H 1%nat l E Ed Ej Eg. rewrite (skeleton_local r q _ l qi t Rb E F). unfold lback. rewrite Ed, Ej. cbn [da dalpha dd dtheta]. unfold back. rewrite sin_PI2, cos_PI2. destruct (part_abs t d2 0.05 Ht ltac:(lra)) as [K|K].
    + eapply in_links_local; eauto using eye4_rigid. flat. replace ((1 - t) * (- d2 * 1)) with (- ((1 - t) * d2)) by ring. rewrite Rabs_Ropp. exact K.
    + bar H 0%nat l2 E2 Ed2 Ej2 Eg2. rewrite (frame_down r q 0 l qi _ Rb E F). eapply in_links_local; eauto using eye4_rigid. unfold lspec. rewrite Ej, Ed. cbn [da dalpha dd dtheta]. rewrite dhm_dhx, dhx_p.
      unfold vscale, tapply, mapply, vadd. cbn [rot pos vx vy vz m00 m01 m02 m10 m11 m12 m20 m21 m22]. apply unit_box.
      * match goal with |- Rabs ?u <= _ => replace u with 0 by ring end. rewrite Rabs_R0. lra.
      * match goal with |- Rabs ?u <= _ => replace u with 0 by ring end. rewrite Rabs_R0. lra.
      * match goal with |- Rabs ?u <= _ => replace u with (d2 - (1 - t) * d2) by ring end. exact K.
  - specialize (Q qi F). bar H 2%nat l E Ed Ej Eg. rewrite (skeleton_local r q _ l qi t Rb E F). unfold lback. rewrite Ed, Ej. cbn [da dalpha dd dtheta]. unfold back. rewrite sin_0, cos_0. destruct (part_abs t qi 0.05 Ht ltac:(lra)) as [K|K].
    + eapply in_links_local; eauto using eye4_rigid. flat. replace ((1 - t) * (- qi * 1)) with (- ((1 - t) * qi)) by ring. rewrite Rabs_Ropp. exact K.
    + bar H 1%nat l2 E2 Ed2 Ej2 Eg2. rewrite (frame_down r q 1 l qi _ Rb E F). eapply in_links_local; eauto using eye4_rigid. unfold lspec. rewrite Ej, Ed. cbn [da dalpha dd dtheta]. rewrite dhm_dhx, dhx_0.
      unfold rot_z, vscale, tapply, mapply, vadd. rewrite cos_0, sin_0. cbn [rot pos vx vy vz m00 m01 m02 m10 m11 m12 m20 m21 m22]. apply unit_box.
      * match goal with |- Rabs ?u <= _ => replace u with 0 by ring end. rewrite Rabs_R0. lra.
      * match goal with |- Rabs ?u <= _ => replace u with 0 by ring end. rewrite Rabs_R0. lra.
      * match goal with |- Rabs ?u <= _ => replace u with (qi - (1 - t) * qi) by ring end. exact K.
Qed.
(** a point given in the coordinates of each of three bars *)
Lemma not_in_bars r q x m0 m1 m2 : rigid (r_tfb r) -> ndof r = 3%nat -> (forall i l, nth_error (r_links r) i = Some l -> l_geom l = coll1 (Shape 1 0.1 0.1) eye4) ->
  x = tapply (frame r q 0) m0 -> x = tapply (frame r q 1) m1 -> x = tapply (frame r q 2) m2 ->
  0.05 < Rabs (vy m0) -> 0.05 < Rabs (vz m1) -> 0.05 < Rabs (vz m2) -> ~ in_links r q x.
Proof.
  intros Rb N HG E0 E1 E2 K0 K1 K2 (i & l & E & B). rewrite (HG i l E) in B. apply in_coll1 in B. cbn [place] in B.
  assert (Li : (i < 3)%nat) by (rewrite <- N; unfold ndof; apply nth_error_Some; congruence).
  destruct i as [|[|[|i]]]; [rewrite E0 in B|rewrite E1 in B|rewrite E2 in B|lia]; apply in_box_move in B; auto using eye4_rigid, frame_rigid; apply unit_box_inv in B; lra.
Qed.
Lemma wrist_uncovered d3 : 0.1 < Rabs d3 -> exists x, on_skeleton (SphericalWristG d3) [0; 0; 0] 0 x /\ ~ in_links (SphericalWristG d3) [0; 0; 0] x.
Proof.
  intros D. set (r := SphericalWristG d3). assert (Rb : rigid (r_tfb r)) by apply eye4_rigid. pose proof (same_links_refl r) as H. unfold r in H at 2. bar H 1%nat l1 G1 Ed1 Ej1 Eg1. bar H 2%nat l2 E2 Ed2 Ej2 Eg2.
  eexists. split; [exists 2%nat, (1 / 2); split; [split; [lia|cbn; lia]|split; [lra|reflexivity]]|].
  rewrite (skeleton_local r [0; 0; 0] 2 l2 0 (1 / 2) Rb E2 eq_refl). unfold lback. rewrite Ej2, Ed2. cbn [da dalpha dd dtheta]. unfold back. rewrite sin_0, cos_0.
  eapply not_in_bars; [exact Rb|reflexivity| | | |reflexivity| | |].
  - intros i l E. assert (Li : (i < 3)%nat) by (change 3%nat with (ndof r); unfold ndof; apply nth_error_Some; congruence). destruct i as [|[|[|i]]]; [injection E as <-; reflexivity..|lia].
  - rewrite (frame_down r [0; 0; 0] 1 l2 0 _ Rb E2 eq_refl), (frame_down r [0; 0; 0] 0 l1 0 _ Rb G1 eq_refl). reflexivity.
  - rewrite (frame_down r [0; 0; 0] 1 l2 0 _ Rb E2 eq_refl). reflexivity.
  - unfold lspec. rewrite Ej1, Ed1, Ej2, Ed2. cbn [da dalpha dd dtheta]. rewrite !dhm_dhx, dhx_0, dhx_p. unfold rot_z. rewrite cos_0, sin_0. unfold vscale, tapply, mapply, vadd. cbn [rot pos vx vy vz m00 m01 m02 m10 m11 m12 m20 m21 m22].
    match goal with |- _ < Rabs ?u => replace u with (- (d3 / 2)) by field end. rewrite Rabs_Ropp. unfold Rdiv. rewrite Rabs_mult, (Rabs_pos_eq (/ 2)) by lra. lra.
  - unfold lspec. rewrite Ej2, Ed2. cbn [da dalpha dd dtheta]. rewrite !dhm_dhx, dhx_0. unfold rot_z. rewrite cos_0, sin_0. unfold vscale, tapply, mapply, vadd. cbn [rot pos vx vy vz m00 m01 m02 m10 m11 m12 m20 m21 m22].
    match goal with |- _ < Rabs ?u => replace u with (d3 / 2) by field end. unfold Rdiv. rewrite Rabs_mult, (Rabs_pos_eq (/ 2)) by lra. lra.
  - cbn [vscale vz]. replace ((1 - 1 / 2) * (- d3 * 1)) with (- (d3 / 2)) by field. rewrite Rabs_Ropp. unfold Rdiv. rewrite Rabs_mult, (Rabs_pos_eq (/ 2)) by lra. lra.
Qed.
Lemma spherical_uncovered d2 : exists x, on_skeleton (SphericalArmG d2) [0; 0; 1] 0 x /\ ~ in_links (SphericalArmG d2) [0; 0; 1] x.
Proof.
  set (r := SphericalArmG d2). assert (Rb : rigid (r_tfb r)) by apply eye4_rigid. pose proof (same_links_refl r) as H. unfold r in H at 2. bar H 1%nat l1 G1 Ed1 Ej1 Eg1. bar H 2%nat l2 E2 Ed2 Ej2 Eg2.
  eexists. split; [exists 2%nat, (1 / 2); split; [split; [lia|cbn; lia]|split; [lra|reflexivity]]|].
  rewrite (skeleton_local r [0; 0; 1] 2 l2 1 (1 / 2) Rb E2 eq_refl). unfold lback. rewrite Ej2, Ed2. cbn [da dalpha dd dtheta]. unfold back. rewrite sin_0, cos_0.
  eapply not_in_bars; [exact Rb|reflexivity| | | |reflexivity| | |].
  - intros i l E. assert (Li : (i < 3)%nat) by (change 3%nat with (ndof r); unfold ndof; apply nth_error_Some; congruence). destruct i as [|[|[|i]]]; [injection E as <-; reflexivity..|lia].
  - rewrite (frame_down r [0; 0; 1] 1 l2 1 _ Rb E2 eq_refl), (frame_down r [0; 0; 1] 0 l1 0 _ Rb G1 eq_refl). reflexivity.
  - rewrite (frame_down r [0; 0; 1] 1 l2 1 _ Rb E2 eq_refl). reflexivity.
  - unfold lspec. rewrite Ej1, Ed1, Ej2, Ed2. cbn [da dalpha dd dtheta]. rewrite !dhm_dhx, dhx_0, dhx_p. unfold rot_z. rewrite cos_0, sin_0. unfold vscale, tapply, mapply, vadd. cbn [rot pos vx vy vz m00 m01 m02 m10 m11 m12 m20 m21 m22].
    match goal with |- _ < Rabs ?u => replace u with (- (1 / 2)) by field end. rewrite Rabs_Ropp, Rabs_pos_eq; lra.
  - unfold lspec. rewrite Ej2, Ed2. cbn [da dalpha dd dtheta]. rewrite !dhm_dhx, dhx_0. unfold rot_z. rewrite cos_0, sin_0. unfold vscale, tapply, mapply, vadd. cbn [rot pos vx vy vz m00 m01 m02 m10 m11 m12 m20 m21 m22].
    match goal with |- _ < Rabs ?u => replace u with (1 / 2) by field end. rewrite Rabs_pos_eq; lra.
  - cbn [vscale vz]. match goal with |- _ < Rabs ?u => replace u with (- (1 / 2)) by field end. rewrite Rabs_Ropp, Rabs_pos_eq; lra.
Qed.
