(** * Lemmas about the bundled geometry, tool, workpiece and paths. *)
From Coq Require Import Reals Lra Lia List Bool Arith ZArith Permutation.
From Verif Require Import PyBase Mat Util UtilProofs HaltonProofs Geometry GeometryProofs Robot RobotProofs RobotForms Ik IkProofs KukaProofs RailProofs Path PathProofs Resources.
Import ListNotations.
Local Open Scope R_scope.

(** ** The arm as a chain of segments *)
(** the same links up to the cached matrices *)
Definition same_links (r r0 : robot) : Prop := map reset_link (r_links r) = map reset_link (r_links r0).
(** frame before link i *)
Definition before (r : robot) (q : list R) (i : nat) : mat4 := match i with O => r_tfb r | S j => frame r q j end.
(** x lies on the segment between the origins before and after one of the links k, k+1, ... *)
Definition on_skeleton (r : robot) (q : list R) (k : nat) (x : vec3) : Prop :=
  exists i t, (k <= i < ndof r)%nat /\ 0 <= t <= 1 /\ x = vadd (vscale (1 - t) (pos (before r q i))) (vscale t (pos (frame r q i))).
(** x lies in a box of some link *)
Definition in_links (r : robot) (q : list R) (x : vec3) : Prop :=
  exists i l, nth_error (r_links r) i = Some l /\ in_coll (l_geom l) (Some (frame r q i)) x.

Lemma same_links_nth r r0 i l0 : same_links r r0 -> nth_error (r_links r0) i = Some l0 ->
  exists l, nth_error (r_links r) i = Some l /\ l_dh l = l_dh l0 /\ l_jt l = l_jt l0 /\ l_geom l = l_geom l0.
Proof.
  intros H E. unfold same_links in H. apply (f_equal (fun x => nth_error x i)) in H. rewrite !nth_error_map, E in H. cbn in H.
  destruct (nth_error (r_links r) i) as [l|]; [|discriminate]. exists l. split; auto. destruct l, l0. cbn in *. injection H as -> -> ->. auto.
Qed.
Lemma same_links_ndof r r0 : same_links r r0 -> ndof r = ndof r0.
Proof. intros H. apply (f_equal (@length link)) in H. rewrite !map_length in H. exact H. Qed.
Lemma same_links_refl r : same_links r r. Proof. reflexivity. Qed.
Lemma same_links_run prim r r0 os : good r -> same_links r r0 -> same_links (run_ops prim r os) r0.
Proof.
  intros G H. unfold same_links. rewrite <- H. destruct (run_ops_keep prim os r G) as [_ E]. apply (f_equal r_links) in E. exact E.
Qed.

Lemma firstn_S_nth {A} : forall (l : list A) i a, nth_error l i = Some a -> firstn (S i) l = firstn i l ++ [a].
Proof. induction l as [|b l IH]; intros [|i] a E; cbn in E; try discriminate; [injection E as ->; reflexivity|]. change (b :: firstn (S i) l = b :: (firstn i l ++ [a])). rewrite (IH i a E). reflexivity. Qed.
Lemma nth_error_combine {A B} : forall (l : list A) (m : list B) i a b, nth_error l i = Some a -> nth_error m i = Some b -> nth_error (combine l m) i = Some (a, b).
Proof. induction l as [|x l IH]; intros [|y m] [|i] a b E F; cbn in *; try discriminate; [congruence|eauto]. Qed.
Lemma frame_step r q i l qi : nth_error (r_links r) i = Some l -> nth_error q i = Some qi -> frame r q i = tmul (before r q i) (lspec l qi).
Proof.
  intros E F. unfold before. unfold frame at 1. rewrite (firstn_S_nth _ _ _ (nth_error_combine _ _ _ _ _ E F)), fold_left_app. cbn [fold_left fst snd]. f_equal.
  destruct i; reflexivity.
Qed.
Lemma before_rigid r q i : rigid (r_tfb r) -> rigid (before r q i).
Proof. intros H. destruct i; cbn; auto. apply frame_rigid; auto. Qed.

(** the previous origin seen from the frame of a link *)
Definition back (a alpha d : R) : vec3 := V3 (- a) (- d * sin alpha) (- d * cos alpha).
Lemma dhm_back a alpha d t : tapply (dhm a alpha d t) (back a alpha d) = v0.
Proof.
  rewrite dhm_dhx. unfold dhx, back, v0. munf. cbn [rot pos vx vy vz m00 m01 m02 m10 m11 m12 m20 m21 m22].
  apply vec3_eq; cbn [vx vy vz]; try ring. pose proof (sin2_cos2 alpha) as S. unfold Rsqr in S.
  transitivity (d * (1 - (sin alpha * sin alpha + cos alpha * cos alpha))); [ring|rewrite S; ring].
Qed.
Lemma tapply_v0 T : tapply T v0 = pos T. Proof. vring. Qed.
Lemma tapply_between T u v t : vadd (vscale (1 - t) (tapply T u)) (vscale t (tapply T v)) = tapply T (vadd (vscale (1 - t) u) (vscale t v)).
Proof. vring. Qed.
Definition lback (l : link) (qi : R) : vec3 := back (da (l_dh l)) (dalpha (l_dh l)) (match l_jt l with JP => qi | _ => dd (l_dh l) end).
Lemma lspec_back l qi : tapply (lspec l qi) (lback l qi) = v0.
Proof. unfold lspec, lback. destruct (l_jt l); apply dhm_back. Qed.
Lemma skeleton_local r q i l qi t : rigid (r_tfb r) -> nth_error (r_links r) i = Some l -> nth_error q i = Some qi ->
  vadd (vscale (1 - t) (pos (before r q i))) (vscale t (pos (frame r q i))) = tapply (frame r q i) (vscale (1 - t) (lback l qi)).
Proof.
  intros Rb E F. rewrite <- (tapply_v0 (before r q i)), <- (tapply_v0 (frame r q i)), <- (lspec_back l qi).
  rewrite <- tapply_tmul by (auto using before_rigid, lspec_rigid). rewrite <- (frame_step r q i l qi E F).
  rewrite tapply_between. f_equal. rewrite lspec_back. unfold v0. vring.
Qed.

(** membership of a point given in link coordinates *)
Lemma in_links_local r q i l s tf p : rigid (r_tfb r) -> nth_error (r_links r) i = Some l -> l_geom l = coll1 s tf -> rigid tf ->
  in_box s tf p -> in_links r q (tapply (frame r q i) p).
Proof.
  intros Rb E G Rt B. exists i, l. split; auto. rewrite G. exists s, tf. split; [exists 0%nat; split; reflexivity|]. cbn [place].
  apply in_box_move; auto. apply frame_rigid; auto.
Qed.
(** a point of link i+1 in the coordinates of link i *)
Lemma frame_down r q i l qi p : rigid (r_tfb r) -> nth_error (r_links r) (S i) = Some l -> nth_error q (S i) = Some qi ->
  tapply (frame r q (S i)) p = tapply (frame r q i) (tapply (lspec l qi) p).
Proof. intros Rb E F. rewrite (frame_step r q (S i) l qi E F). cbn [before]. apply tapply_tmul; [apply frame_rigid; auto|apply lspec_rigid]. Qed.
Lemma nth_error_some {A} (l : list A) i : (i < length l)%nat -> exists a, nth_error l i = Some a.
Proof. intros H. destruct (nth_error l i) eqn:E; eauto. apply nth_error_None in E. lia. Qed.

Lemma pose_x0_box s x y z p : Rabs (vx p - x) <= dx s / 2 -> Rabs (vy p - y) <= dy s / 2 -> Rabs (vz p - z) <= dz s / 2 -> in_box s (pose_x 0 x y z) p.
Proof.
  intros H1 H2 H3. exists (V3 (vx p - x) (vy p - y) (vz p - z)). split; [repeat split; auto|].
  unfold pose_x. rewrite cos_0, sin_0. munf. cbn [rot pos vx vy vz m00 m01 m02 m10 m11 m12 m20 m21 m22]. apply vec3_eq; cbn [vx vy vz]; ring.
Qed.
Lemma translation_box s x y z p : Rabs (vx p - x) <= dx s / 2 -> Rabs (vy p - y) <= dy s / 2 -> Rabs (vz p - z) <= dz s / 2 -> in_box s (translation x y z) p.
Proof.
  intros H1 H2 H3. exists (V3 (vx p - x) (vy p - y) (vz p - z)). split; [repeat split; auto|].
  unfold translation, mid. munf. cbn [rot pos vx vy vz m00 m01 m02 m10 m11 m12 m20 m21 m22]. apply vec3_eq; cbn [vx vy vz]; ring.
Qed.
Ltac boxed := first [apply pose_x0_box|apply translation_box]; cbn [vx vy vz dx dy dz vscale back]; apply Rabs_le; lra.

(** ** C101 *)
Ltac get_link H i l E Ed Ej Eg :=
  match type of H with same_links ?r ?r0 =>
    let o := eval cbv [KukaG KukaOnRailG AnthropomorphicArmG set_geom set_links r_links Kuka KukaOnRail AnthropomorphicArm robot_init kuka_geom rail_geom anthro_geom
      map combine nth_error fst snd l_dh l_jt l_T lr lp new_link] in (nth_error (r_links r0) i) in
    match o with Some ?l0 => destruct (same_links_nth r r0 i l0 H ltac:(reflexivity)) as (l & E & Ed & Ej & Eg); cbn [l_dh l_jt l_geom] in Ed, Ej, Eg end
  end.
Lemma kuka_covered r q x : same_links r (KukaG 0.18 0.6 0.62 0.115) -> rigid (r_tfb r) -> (6 <= length q)%nat -> on_skeleton r q 0 x -> in_links r q x.
Proof.
  intros H Rb L (i & t & [_ Hi] & Ht & ->). rewrite (same_links_ndof _ _ H) in Hi. change (ndof (KukaG 0.18 0.6 0.62 0.115)) with 6%nat in Hi.
  destruct (nth_error_some q i ltac:(lia)) as [qi F].
  destruct i as [|[|[|[|[|[|i]]]]]]; [| | | | | |lia].
  - get_link H 0%nat l E Ed Ej Eg. rewrite (skeleton_local r q _ l qi t Rb E F). unfold lback. rewrite Ed, Ej. eapply in_links_local; eauto using pose_x_rigid.
    cbn [da dalpha dd]. unfold back. rewrite sin_PI2, cos_PI2. boxed.
  - get_link H 1%nat l E Ed Ej Eg. rewrite (skeleton_local r q _ l qi t Rb E F). unfold lback. rewrite Ed, Ej. eapply in_links_local; eauto using pose_x_rigid.
    cbn [da dalpha dd]. unfold back. rewrite sin_0, cos_0. boxed.
  - get_link H 2%nat l E Ed Ej Eg. rewrite (skeleton_local r q _ l qi t Rb E F). unfold lback. rewrite Ed, Ej. eapply in_links_local; eauto using pose_x_rigid.
    cbn [da dalpha dd]. unfold back. rewrite sin_PI2, cos_PI2. boxed.
  - get_link H 3%nat l E Ed Ej Eg. rewrite (skeleton_local r q _ l qi t Rb E F). unfold lback. rewrite Ed, Ej. cbn [da dalpha dd]. unfold back. rewrite sin_mPI2, cos_mPI2.
    destruct (Rle_lt_dec ((1 - t) * 0.62) 0.2) as [Hs|Hs].
    + eapply in_links_local; eauto using pose_x_rigid. boxed.
    + get_link H 2%nat l2 E2 Ed2 Ej2 Eg2. rewrite (frame_down r q 2 l qi _ Rb E F). eapply in_links_local; eauto using pose_x_rigid.
      unfold lspec. rewrite Ej, Ed. cbn [da dalpha dd].
      rewrite dhm_dhx, dhx_m. munf. cbn [rot pos vx vy vz m00 m01 m02 m10 m11 m12 m20 m21 m22]. boxed.
  - get_link H 4%nat l E Ed Ej Eg. rewrite (skeleton_local r q _ l qi t Rb E F). unfold lback. rewrite Ed, Ej. eapply in_links_local; eauto using pose_x_rigid.
    cbn [da dalpha dd]. unfold back. rewrite sin_PI2, cos_PI2. boxed.
  - get_link H 5%nat l E Ed Ej Eg. rewrite (skeleton_local r q _ l qi t Rb E F). unfold lback. rewrite Ed, Ej. cbn [da dalpha dd]. unfold back. rewrite sin_0, cos_0.
    destruct (Rle_lt_dec ((1 - t) * 0.115) 0.03) as [Hs|Hs].
    + eapply in_links_local; eauto using pose_x_rigid. boxed.
    + get_link H 4%nat l4 E4 Ed4 Ej4 Eg4. rewrite (frame_down r q 4 l qi _ Rb E F). eapply in_links_local; eauto using pose_x_rigid.
      unfold lspec. rewrite Ej, Ed. cbn [da dalpha dd].
      rewrite dhm_dhx, dhx_0. unfold rot_z. munf. cbn [rot pos vx vy vz m00 m01 m02 m10 m11 m12 m20 m21 m22]. boxed.
Qed.
Lemma rail_covered r q x : same_links r (KukaOnRailG 0.18 0.6 0.62 0.115) -> rigid (r_tfb r) -> (7 <= length q)%nat -> on_skeleton r q 1 x -> in_links r q x.
Proof.
  intros H Rb L (i & t & [H1 Hi] & Ht & ->). rewrite (same_links_ndof _ _ H) in Hi. change (ndof (KukaOnRailG 0.18 0.6 0.62 0.115)) with 7%nat in Hi.
  destruct (nth_error_some q i ltac:(lia)) as [qi F].
  destruct i as [|[|[|[|[|[|[|i]]]]]]]; [lia| | | | | | |lia].
  - get_link H 1%nat l E Ed Ej Eg. rewrite (skeleton_local r q _ l qi t Rb E F). unfold lback. rewrite Ed, Ej. eapply in_links_local; eauto using pose_x_rigid.
    cbn [da dalpha dd]. unfold back. rewrite sin_PI2, cos_PI2. boxed.
  - get_link H 2%nat l E Ed Ej Eg. rewrite (skeleton_local r q _ l qi t Rb E F). unfold lback. rewrite Ed, Ej. eapply in_links_local; eauto using pose_x_rigid.
    cbn [da dalpha dd]. unfold back. rewrite sin_0, cos_0. boxed.
  - get_link H 3%nat l E Ed Ej Eg. rewrite (skeleton_local r q _ l qi t Rb E F). unfold lback. rewrite Ed, Ej. eapply in_links_local; eauto using pose_x_rigid.
    cbn [da dalpha dd]. unfold back. rewrite sin_PI2, cos_PI2. boxed.
  - get_link H 4%nat l E Ed Ej Eg. rewrite (skeleton_local r q _ l qi t Rb E F). unfold lback. rewrite Ed, Ej. cbn [da dalpha dd]. unfold back. rewrite sin_mPI2, cos_mPI2.
    destruct (Rle_lt_dec ((1 - t) * 0.62) 0.2) as [Hs|Hs].
    + eapply in_links_local; eauto using pose_x_rigid. boxed.
    + get_link H 3%nat l2 E2 Ed2 Ej2 Eg2. rewrite (frame_down r q 3 l qi _ Rb E F). eapply in_links_local; eauto using pose_x_rigid.
      unfold lspec. rewrite Ej, Ed. cbn [da dalpha dd].
      rewrite dhm_dhx, dhx_m. munf. cbn [rot pos vx vy vz m00 m01 m02 m10 m11 m12 m20 m21 m22]. boxed.
  - get_link H 5%nat l E Ed Ej Eg. rewrite (skeleton_local r q _ l qi t Rb E F). unfold lback. rewrite Ed, Ej. eapply in_links_local; eauto using pose_x_rigid.
    cbn [da dalpha dd]. unfold back. rewrite sin_PI2, cos_PI2. boxed.
  - get_link H 6%nat l E Ed Ej Eg. rewrite (skeleton_local r q _ l qi t Rb E F). unfold lback. rewrite Ed, Ej. cbn [da dalpha dd]. unfold back. rewrite sin_0, cos_0.
    destruct (Rle_lt_dec ((1 - t) * 0.115) 0.03) as [Hs|Hs].
    + eapply in_links_local; eauto using pose_x_rigid. boxed.
    + get_link H 5%nat l4 E4 Ed4 Ej4 Eg4. rewrite (frame_down r q 5 l qi _ Rb E F). eapply in_links_local; eauto using pose_x_rigid.
      unfold lspec. rewrite Ej, Ed. cbn [da dalpha dd].
      rewrite dhm_dhx, dhx_0. unfold rot_z. munf. cbn [rot pos vx vy vz m00 m01 m02 m10 m11 m12 m20 m21 m22]. boxed.
Qed.
Lemma anthro_covered a2 a3 r q x : 0 <= a2 -> 0 <= a3 -> same_links r (AnthropomorphicArmG a2 a3) -> rigid (r_tfb r) -> (3 <= length q)%nat -> on_skeleton r q 0 x -> in_links r q x.
Proof.
  intros P2 P3 H Rb L (i & t & [_ Hi] & Ht & ->). rewrite (same_links_ndof _ _ H) in Hi. change (ndof (AnthropomorphicArmG a2 a3)) with 3%nat in Hi.
  destruct (nth_error_some q i ltac:(lia)) as [qi F].
  destruct i as [|[|[|i]]]; [| | |lia].
  - get_link H 0%nat l E Ed Ej Eg. rewrite (skeleton_local r q _ l qi t Rb E F). unfold lback. rewrite Ed, Ej. eapply in_links_local; eauto using translation_rigid.
    cbn [da dalpha dd]. unfold back. rewrite sin_PI2, cos_PI2. boxed.
  - get_link H 1%nat l E Ed Ej Eg. rewrite (skeleton_local r q _ l qi t Rb E F). unfold lback. rewrite Ed, Ej. eapply in_links_local; eauto using translation_rigid.
    cbn [da dalpha dd]. unfold back. rewrite sin_0, cos_0. apply translation_box; cbn [vx vy vz dx dy dz vscale]; apply Rabs_le; nra.
  - get_link H 2%nat l E Ed Ej Eg. rewrite (skeleton_local r q _ l qi t Rb E F). unfold lback. rewrite Ed, Ej. eapply in_links_local; eauto using translation_rigid.
    cbn [da dalpha dd]. unfold back. rewrite sin_0, cos_0. apply translation_box; cbn [vx vy vz dx dy dz vscale]; apply Rabs_le; nra.
Qed.

(** the planar arm has boxes of negative width: no point is in them *)
Lemma in_coll1 s tf o x : in_coll (coll1 s tf) o x <-> in_box s (place o tf) x.
Proof.
  split; [|intros H; exists s, tf; split; auto; exists 0%nat; split; reflexivity].
  intros (s' & T & (i & E1 & E2) & B). destruct i as [|[|i]]; cbn in E1, E2; [|discriminate|discriminate]. congruence.
Qed.
Ltac links_of E :=
  cbv [PlanarArmG Arm2G SphericalArmG SphericalWristG bar_geom KukaG set_geom set_links r_links PlanarArm Arm2 SphericalArm SphericalWrist Kuka robot_init planar_geom arm2_geom kuka_geom
    repeat map combine fst snd l_dh l_jt l_T lr lp new_link] in E; cbn [nth_error] in E.
Lemma planar_nothing a1 a2 a3 r q x : 0 < a1 -> 0 < a2 -> 0 < a3 -> same_links r (PlanarArmG a1 a2 a3) -> ~ in_links r q x.
Proof.
  intros P1 P2 P3 H (i & l & E & B). assert (Hl : exists l0, nth_error (r_links (PlanarArmG a1 a2 a3)) i = Some l0).
  { apply nth_error_some. change (length (r_links (PlanarArmG a1 a2 a3))) with (ndof (PlanarArmG a1 a2 a3)). rewrite <- (same_links_ndof _ _ H). unfold ndof. apply nth_error_Some. congruence. }
  destruct Hl as [l0 E0]. destruct (same_links_nth _ _ _ _ H E0) as (l' & E' & _ & _ & G). rewrite E in E'. injection E' as <-. rewrite G in B. links_of E0.
  destruct i as [|[|[|i]]]; cbn [nth_error] in E0; [| | |destruct i; discriminate]; injection E0 as <-; cbn [l_geom] in B; apply in_coll1 in B; destruct B as (p & [Hx _] & _); cbn [dx] in Hx; pose proof (Rabs_pos (vx p)); lra.
Qed.
(** straight out, the base point of Arm2 is in no box *)
Lemma Rabs_le_inv' x a : Rabs x <= a -> - a <= x <= a.
Proof. intros H. pose proof (Rle_abs x). pose proof (Rle_abs (- x)). rewrite Rabs_Ropp in *. lra. Qed.
(** with every joint at 0 a revolute link only shifts along x *)
Lemma dhm_0_vx a alpha d p : vx (tapply (dhm a alpha d 0) p) = a + vx p.
Proof. rewrite dhm_dhx. unfold dhx. rewrite cos_0, sin_0. destruct p. munf. ring. Qed.
Lemma arm2_uncovered : exists q x, length q = 3%nat /\ on_skeleton (Arm2G 1 1 1) q 0 x /\ ~ in_links (Arm2G 1 1 1) q x.
Proof.
  exists [0; 0; 0], v0. split; auto. split.
  - exists 0%nat, 0. split; [change (ndof (Arm2G 1 1 1)) with 3%nat; lia|]. split; [lra|]. cbn [before]. change (r_tfb (Arm2G 1 1 1)) with eye4. unfold eye4. munf. apply vec3_eq; cbn [vx vy vz]; ring.
  - intros (i & l & E & B). links_of E.
    assert (K : forall p, (exists c, 1 <= c /\ vx (tapply (frame (Arm2G 1 1 1) [0; 0; 0] i) p) = c + vx p)).
    { clear B. intros p. destruct i as [|[|[|i]]]; [| | |destruct i; discriminate]; clear E; unfold frame; cbn [firstn combine r_links Arm2G set_geom set_links map fst snd Arm2 robot_init lr new_link l_dh l_jt l_T fold_left lspec arm2_geom r_tfb da dalpha dd];
      rewrite tmul_1_l; rewrite ?tapply_tmul by (auto using rigid_tmul, dhm_rigid); rewrite ?dhm_0_vx; [exists 1|exists 2|exists 3]; (split; [lra|ring]). }
    assert (Eg : l_geom l = coll1 (Shape 1 0.1 0.1) eye4) by (destruct i as [|[|[|i]]]; cbn [nth_error] in E; [| | |destruct i; discriminate]; injection E as <-; reflexivity).
    rewrite Eg in B. apply in_coll1 in B. cbn [place] in B. rewrite tmul_1_r in B. destruct B as (p & [Hx _] & Ep).
    destruct (K p) as (c & Hc & Ec). apply (f_equal vx) in Ep. rewrite Ec in Ep. cbn [dx v0 vx] in *. apply Rabs_le_inv' in Hx. lra.
Qed.
