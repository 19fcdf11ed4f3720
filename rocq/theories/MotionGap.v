(** * Clearance: how far a collision-free robot may move.

    Specification and proofs; the motion between the points of a plan is not
    checked by the code.  [lerp s q q']: joint values on the straight line. *)
From Coq Require Import String Reals Lra List Arith ZArith Lia.
From Flocq Require Import Core.
From Verif Require Import PyBase Cost CostFloat SpecPath GraphCommon CppGraph CppGraphProofs CppExamples Mat Util UtilProofs Geometry GeometryProofs Robot RobotProofs RobotForms Resources ResourcesProofs Ik IkProofs TaskProofs KukaProofs Planning PlanningProofs Pipeline PipelineProofs Motion MotionKuka FloatCost FloatCostProofs.
Import ListNotations.
Local Open Scope R_scope.

Fixpoint lerp (s : R) (q q' : list R) : list R :=
  match q, q' with x :: q1, y :: q1' => (x + s * (y - x)) :: lerp s q1 q1' | _, _ => [] end.
(** bodies that move: link i with its geometry, or the tool *)
Definition body (r : robot) (i : nat) (c : coll) : Prop :=
  (exists l, nth_error (r_links r) i = Some l /\ c = l_geom l) \/ (exists tip, r_tool r = Some (c, tip) /\ i = (ndof r - 1)%nat).
(** links and tool keep the distance d from the scene *)
Definition gap (r : robot) (scene : coll) (q : list R) (d : R) : Prop :=
  forall i c x y, body r i c -> in_coll c (Some (frame r q i)) x -> in_coll scene None y -> d <= len (vsub x y).
(** so do the pairs looked at by is_in_self_collision *)
Definition self_gap (r : robot) (q : list R) (d : R) : Prop :=
  (forall i j li lj x y, nth_error (r_links r) i = Some li -> nth_error (r_links r) j = Some lj -> r_mat r i j = true ->
     in_coll (l_geom li) (Some (frame r q i)) x -> in_coll (l_geom lj) (Some (frame r q j)) y -> d <= len (vsub x y)) /\
  (forall tool tip i l x y, r_tool r = Some (tool, tip) -> (i + 1 < ndof r)%nat -> nth_error (r_links r) i = Some l ->
     in_coll (l_geom l) (Some (frame r q i)) x -> in_coll tool (Some (frame r q (ndof r - 1))) y -> d <= len (vsub x y)).
(** no point of a body is further than rho from the origin of its frame *)
Definition reach (r : robot) (rho : R) : Prop := 0 <= rho /\ forall i c p, body r i c -> in_coll c None p -> len p <= rho.

Lemma body_rigid r i c : solid r -> body r i c -> rigid_coll c.
Proof.
  intros (_ & RL & _ & ST) [(l & E & ->)|(tip & E & _)]; [|eapply ST; eauto]. unfold rigid_links in RL. rewrite Forall_forall in RL. apply RL. eapply nth_error_In; eauto.
Qed.
Lemma in_coll_local c F x : rigid F -> rigid_coll c -> (in_coll c (Some F) x <-> exists p, in_coll c None p /\ x = tapply F p).
Proof.
  intros HF Hc. split.
  - intros (s & T & M & l & Hl & ->). cbn [place]. exists (tapply T l). split; [exists s, T; split; auto; exists l; auto|].
    apply tapply_tmul; auto. destruct M as (i & _ & E). apply nth_error_In in E. unfold rigid_coll in Hc. rewrite Forall_forall in Hc. auto.
  - intros (p & (s & T & M & l & Hl & ->) & ->). exists s, T. split; auto. cbn [place] in *. exists l. split; auto.
    symmetry. apply tapply_tmul; auto. destruct M as (i & _ & E). apply nth_error_In in E. unfold rigid_coll in Hc. rewrite Forall_forall in Hc. auto.
Qed.
Lemma body_move r q q' i c x : solid r -> length q = length q' -> forall rho, reach r rho -> body r i c -> in_coll c (Some (frame r q' i)) x ->
  exists x0, in_coll c (Some (frame r q i)) x0 /\ len (vsub x0 x) <= move_bound (r_links r) q q' rho.
Proof.
  intros S L rho [Hr HR] B H. pose proof (body_rigid r i c S B) as C. assert (F : forall q, rigid (frame r q i)) by (intros; apply frame_rigid, S).
  apply in_coll_local in H; auto. destruct H as (p & Hp & ->). exists (tapply (frame r q i) p). split; [apply in_coll_local; eauto|].
  eapply Rle_trans; [apply frame_move; [apply S|auto]|]. eapply Rle_trans; [apply move_firstn, len_nonneg|]. apply move_bound_le. eauto.
Qed.
Lemma gap_move r scene q q' d rho : solid r -> length q = length q' -> reach r rho -> gap r scene q d -> gap r scene q' (d - move_bound (r_links r) q q' rho).
Proof.
  intros S L R G i c x y B Hx Hy. destruct (body_move r q q' i c x S L rho R B Hx) as (x0 & H0 & M). pose proof (G i c x0 y B H0 Hy) as D.
  pose proof (len_vsub3 x0 x y). lra.
Qed.
Lemma self_gap_move r q q' d rho : solid r -> length q = length q' -> reach r rho -> self_gap r q d -> self_gap r q' (d - 2 * move_bound (r_links r) q q' rho).
Proof.
  intros S L R [G1 G2].
  assert (A : forall i j c c' x y, body r i c -> body r j c' -> in_coll c (Some (frame r q' i)) x -> in_coll c' (Some (frame r q' j)) y ->
    (forall x y, in_coll c (Some (frame r q i)) x -> in_coll c' (Some (frame r q j)) y -> d <= len (vsub x y)) -> d - 2 * move_bound (r_links r) q q' rho <= len (vsub x y)).
  { intros i j c c' x y B B' Hx Hy D. destruct (body_move r q q' i c x S L rho R B Hx) as (x0 & H0 & M). destruct (body_move r q q' j c' y S L rho R B' Hy) as (y0 & K0 & N).
    specialize (D x0 y0 H0 K0). pose proof (len_vsub3 x0 x y0). pose proof (len_vsub3 x y y0) as T. rewrite (len_sym y y0) in T. lra. }
  split.
  - intros i j li lj x y Ei Ej E Hx Hy. apply (A i j (l_geom li) (l_geom lj)); auto; [left; eauto|left; eauto|]. intros x0 y0 H0 K0. exact (G1 i j li lj x0 y0 Ei Ej E H0 K0).
  - intros tool tip i l x y Et Li El Hx Hy. apply (A i (ndof r - 1)%nat (l_geom l) tool); auto; [left; eauto|right; eauto|]. intros x0 y0 H0 K0. exact (G2 tool tip i l x0 y0 Et Li El H0 K0).
Qed.
Lemma len_same x : len (vsub x x) = 0.
Proof. replace (vsub x x) with (V3 0 0 0) by vring. rewrite len_x. apply Rabs_R0. Qed.
(** the base does not move *)
Definition base_clear (r : robot) (scene : coll) : Prop := forall b x, r_base r = Some b -> in_coll b (Some (r_tfb r)) x -> ~ in_coll scene None x.
Lemma clear_base r scene q : clear r scene q -> base_clear r scene.
Proof. intros [H _] b x E Hx. apply H. left. eauto. Qed.
Lemma gap_clear r scene q d d' : base_clear r scene -> gap r scene q d -> 0 < d -> (r_self r = true -> self_gap r q d' /\ 0 < d') -> clear r scene q.
Proof.
  intros B G D HS. split.
  - intros x [(b & E & Hx)|[(i & l & E & Hx)|(tool & tip & E & Hx)]] Hs.
    + eapply B; eauto.
    + assert (Y : body r i (l_geom l)) by (left; eauto). pose proof (G i _ x x Y Hx Hs) as L. rewrite len_same in L. lra.
    + assert (Y : body r (ndof r - 1) tool) by (right; eauto). pose proof (G _ _ x x Y Hx Hs) as L. rewrite len_same in L. lra.
  - intros Es. destruct (HS Es) as [[S1 S2] D']. split.
    + intros i j li lj x Ei Ej E Hx Hy. pose proof (S1 i j li lj x x Ei Ej E Hx Hy) as L. rewrite len_same in L. lra.
    + intros tool tip i l x Et Li El Hx Hy. pose proof (S2 tool tip i l x x Et Li El Hx Hy) as L. rewrite len_same in L. lra.
Qed.

(** ** The straight line in joint space *)
Lemma lerp_length s : forall q q', length q = length q' -> length (lerp s q q') = length q.
Proof. induction q as [|x q IH]; intros [|y q'] L; cbn in *; try discriminate; auto. Qed.
Lemma lerp_swap s : forall q q', lerp s q q' = lerp (1 - s) q' q.
Proof. induction q as [|x q IH]; intros [|y q']; cbn [lerp]; auto. f_equal; [ring|auto]. Qed.
Lemma lerp_move s : forall ls q q' t, length q = length q' -> move_bound ls q (lerp s q q') t = Rabs s * move_bound ls q q' t.
Proof.
  induction ls as [|l ls IH]; intros [|x q] [|y q'] t L; cbn [lerp move_bound]; try discriminate; try ring. rewrite IH by (cbn in L; lia).
  replace (x - (x + s * (y - x))) with (s * (x - y)) by ring. rewrite Rabs_mult. ring.
Qed.
Lemma move_pos ls q q' t : 0 <= t -> 0 <= move_bound ls q q' t.
Proof. intros T. pose proof (move_firstn 0 ls q q' t T) as H. cbn [firstn move_bound] in H. exact H. Qed.
Lemma half_clear r scene q q' d d' rho s : solid r -> length q = length q' -> reach r rho -> base_clear r scene ->
  gap r scene q d -> (r_self r = true -> self_gap r q d') ->
  move_bound (r_links r) q q' rho < 2 * d -> (r_self r = true -> move_bound (r_links r) q q' rho < d') -> 0 <= s <= 1 / 2 -> clear r scene (lerp s q q').
Proof.
  intros S L R B G HS M1 M2 Hs. pose proof (lerp_move s (r_links r) q q' rho L) as E. rewrite Rabs_pos_eq in E by lra.
  pose proof (move_pos (r_links r) q q' rho (proj1 R)) as P. set (m := move_bound (r_links r) q q' rho) in *.
  assert (X : s * m <= 1 / 2 * m) by (apply Rmult_le_compat_r; lra).
  assert (L' : length q = length (lerp s q q')) by (symmetry; apply lerp_length; auto).
  apply (gap_clear r scene _ (d - s * m) (d' - 2 * (s * m))); auto.
  - rewrite <- E. apply gap_move; auto.
  - lra.
  - intros Es. specialize (M2 Es). split; [rewrite <- E; apply self_gap_move; auto|lra].
Qed.
Lemma between_clear prim r scene q q' d d' rho : exact_prim prim -> good r -> joints_ok r -> (1 <= ndof r <= length q)%nat -> solid r -> rigid_coll scene ->
  length q = length q' -> reach r rho -> base_clear r scene ->
  gap r scene q d -> gap r scene q' d -> (r_self r = true -> self_gap r q d' /\ self_gap r q' d') ->
  move_bound (r_links r) q q' rho < 2 * d -> move_bound (r_links r) q' q rho < 2 * d ->
  (r_self r = true -> move_bound (r_links r) q q' rho < d' /\ move_bound (r_links r) q' q rho < d') ->
  forall s, 0 <= s <= 1 -> clear r scene (lerp s q q') /\ snd (robot_collision prim r (lerp s q q') scene) = Ok false.
Proof.
  intros X G J N S C L R B G1 G2 HS M1 M2 M3 s Hs.
  assert (Cl : clear r scene (lerp s q q')).
  { destruct (Rle_dec s (1 / 2)) as [H|H].
    - apply (half_clear r scene q q' d d' rho); auto; try lra; intros Es; [apply HS|apply M3]; auto.
    - rewrite lerp_swap. apply (half_clear r scene q' q d d' rho); auto; try lra; intros Es; [apply HS|apply M3]; auto. }
  split; auto. assert (N' : (1 <= ndof r <= length (lerp s q q'))%nat) by (rewrite lerp_length; auto).
  pose proof (proj2 (free_iff_clear prim r scene _ X G J N' S C) Cl) as H. unfold hit in H.
  destruct (collision_correct prim r (lerp s q q') scene G J ltac:(lia) ltac:(lia)) as (b & E & _). rewrite E in *. congruence.
Qed.
(** rounding the joint values *)
Lemma rounded_clear prim r scene q d d' rho : exact_prim prim -> good r -> joints_ok r -> (1 <= ndof r <= length q)%nat -> solid r -> rigid_coll scene ->
  reach r rho -> base_clear r scene -> gap r scene q d -> (r_self r = true -> self_gap r q d') -> Forall (fun x => Rabs x <= 3 * PI / 2) q ->
  let m := ulp_bound * move_bound (r_links r) q (map (fun x => x - 1) q) rho in
  m < d -> (r_self r = true -> 2 * m < d') -> snd (robot_collision prim r (map f32 q) scene) = Ok false.
Proof.
  intros X G J N S C R B G1 HS Hq m M1 M2. assert (L : length q = length (map f32 q)) by (rewrite map_length; auto).
  assert (Mb : move_bound (r_links r) q (map f32 q) rho <= m). { apply move_le; [apply R|apply rounded; auto|unfold ulp_bound; lra]. }
  assert (Cl : clear r scene (map f32 q)).
  { apply (gap_clear r scene _ (d - move_bound (r_links r) q (map f32 q) rho) (d' - 2 * move_bound (r_links r) q (map f32 q) rho)); auto.
    - apply gap_move; auto.
    - lra.
    - intros Es. specialize (M2 Es). split; [apply self_gap_move; auto|lra]. }
  assert (N' : (1 <= ndof r <= length (map f32 q))%nat) by (rewrite map_length; auto).
  pose proof (proj2 (free_iff_clear prim r scene _ X G J N' S C) Cl) as H. unfold hit in H.
  destruct (collision_correct prim r (map f32 q) scene G J ltac:(lia) ltac:(lia)) as (b & E & _). rewrite E in *. congruence.
Qed.

(** ** A sliding box and a plate *)
Definition slider : robot := robot_init [new_link (DH 0 0 0 0) JP (Coll [Shape 0.2 0.2 0.2] [eye4])].
Definition plate (z : R) : coll := Coll [Shape 1 1 0.1] [M4 mid (V3 0 0 z) v0 1].

Lemma trans_rigid v : rigid (M4 mid v v0 1).
Proof. constructor; cbn [rot brow bww]; auto. apply rigid_eye. Qed.
Lemma trans_apply v l : tapply (M4 mid v v0 1) l = vadd v l.
Proof. destruct v, l. vring. Qed.
Lemma slider_frame a : frame slider [a] 0 = M4 mid (V3 0 0 a) v0 1.
Proof.
  unfold frame, slider. cbn [r_links robot_init combine firstn fold_left r_tfb fst snd lspec new_link l_jt l_dh da dalpha dd dtheta]. rewrite tmul_1_l.
  unfold dhm. rewrite pose_x_0.
  assert (Ez : pose_z 0 0 0 0 = eye4) by (unfold pose_z, eye4, mid; rewrite cos_0, sin_0, Ropp_0; reflexivity). rewrite Ez, tmul_1_l.
  change (M4 mid (V3 0 0 0) v0 1) with eye4. change (translation 0 0 0) with eye4. rewrite !tmul_1_r. reflexivity.
Qed.
Lemma slider_body i c : body slider i c -> i = 0%nat /\ c = Coll [Shape 0.2 0.2 0.2] [eye4].
Proof.
  intros [(l & E & ->)|(tip & E & _)]; [|discriminate]. destruct i as [|i]; [|destruct i; discriminate]. cbn in E. injection E as <-. split; reflexivity.
Qed.
Lemma single_in s T o x : in_coll (Coll [s] [T]) o x <-> in_box s (place o T) x.
Proof.
  split; [intros (s' & T' & (i & E1 & E2) & H)|intros H; exists s, T; split; auto; exists 0%nat; auto].
  destruct i as [|i]; [|destruct i; discriminate]. cbn in E1, E2. injection E1 as <-. injection E2 as <-. exact H.
Qed.
Lemma slider_in a x : in_coll (Coll [Shape 0.2 0.2 0.2] [eye4]) (Some (frame slider [a] 0)) x <-> Rabs (vx x) <= 0.1 /\ Rabs (vy x) <= 0.1 /\ Rabs (vz x - a) <= 0.1.
Proof.
  rewrite single_in. cbn [place]. rewrite slider_frame, tmul_1_r. unfold in_box, local_in. cbn [dx dy dz]. split.
  - intros (l & (A & B & C) & ->). rewrite trans_apply. destruct l as [l1 l2 l3]. cbn [vx vy vz vadd] in *. rewrite !Rplus_0_l. replace (a + l3 - a) with l3 by ring. lra.
  - intros (A & B & C). exists (V3 (vx x) (vy x) (vz x - a)). cbn [vx vy vz]. split; [lra|]. rewrite trans_apply. destruct x as [x y z]. apply vec3_eq; cbn; ring.
Qed.
Lemma plate_in z y : in_coll (plate z) None y <-> Rabs (vx y) <= 0.5 /\ Rabs (vy y) <= 0.5 /\ Rabs (vz y - z) <= 0.05.
Proof.
  unfold plate. rewrite single_in. cbn [place]. unfold in_box, local_in. cbn [dx dy dz]. split.
  - intros (l & (A & B & C) & ->). rewrite trans_apply. destruct l as [l1 l2 l3]. cbn [vx vy vz vadd] in *. rewrite !Rplus_0_l. replace (z + l3 - z) with l3 by ring. lra.
  - intros (A & B & C). exists (V3 (vx y) (vy y) (vz y - z)). cbn [vx vy vz]. split; [lra|]. rewrite trans_apply. destruct y as [x y w]. apply vec3_eq; cbn; ring.
Qed.
Lemma slider_facts : good slider /\ joints_ok slider /\ ndof slider = 1%nat /\ solid slider /\ base_clear slider (plate 2) /\ forall z, rigid_coll (plate z).
Proof.
  split; [apply robot_init_good; repeat constructor|]. split; [repeat constructor; discriminate|]. split; [reflexivity|]. split.
  { split; [apply rigid_eye|]. split; [apply Forall_cons; [apply Forall_cons; [apply rigid_eye|constructor]|constructor]|]. split; intros; discriminate. }
  split; [intros b x E; discriminate|]. intros z. apply Forall_cons; [apply trans_rigid|constructor].
Qed.
Lemma slider_clear z a : 0.15 < Rabs (z - a) -> clear slider (plate z) [a].
Proof.
  intros H. split.
  - intros x [(b & E & _)|[(i & l & E & Hx)|(t & tip & E & _)]] Hs; try discriminate.
    destruct (slider_body i (l_geom l)) as [-> Ec]; [left; eauto|]. rewrite Ec in Hx. apply slider_in in Hx. apply plate_in in Hs.
    destruct Hx as (_ & _ & Hx), Hs as (_ & _ & Hs). apply Rabs_le_inv in Hx. apply Rabs_le_inv in Hs. revert H. unfold Rabs. destruct (Rcase_abs (z - a)); lra.
  - intros _. split; [|intros; discriminate]. intros i j li lj x Ei Ej E. destruct (slider_body i (l_geom li)) as [-> _]; [left; eauto|]. destruct (slider_body j (l_geom lj)) as [-> _]; [left; eauto|]. discriminate.
Qed.
Lemma slider_verdict prim z a : exact_prim prim -> (snd (robot_collision prim slider [a] (plate z)) = Ok false <-> clear slider (plate z) [a]).
Proof.
  intros X. destruct slider_facts as (G & J & N & S & _ & C). rewrite <- (free_iff_clear prim slider (plate z) [a] X G J ltac:(rewrite N; cbn; lia) S (C z)). unfold hit.
  destruct (collision_correct prim slider [a] (plate z) G J ltac:(rewrite N; cbn; lia) ltac:(rewrite N; lia)) as (b & -> & _). split; congruence.
Qed.
Lemma slider_hit prim z a : exact_prim prim -> Rabs (z - a) <= 0.15 -> snd (robot_collision prim slider [a] (plate z)) = Ok true.
Proof.
  intros X H. destruct slider_facts as (G & J & N & _).
  destruct (collision_correct prim slider [a] (plate z) G J ltac:(rewrite N; cbn; lia) ltac:(rewrite N; lia)) as (b & Eb & _). rewrite Eb. destruct b; auto. exfalso.
  apply slider_verdict in Eb; auto. destruct Eb as [Eb _]. apply (Eb (V3 0 0 (a + 2 / 3 * (z - a)))).
  + right. left. exists 0%nat. eexists. split; [reflexivity|]. cbn [l_geom new_link]. apply slider_in. cbn [vx vy vz]. rewrite !Rabs_R0. split; [lra|]. split; [lra|]. apply Rabs_le_inv in H. apply Rabs_le. lra.
  + apply plate_in. cbn [vx vy vz]. rewrite !Rabs_R0. split; [lra|]. split; [lra|]. apply Rabs_le_inv in H. apply Rabs_le. lra.
Qed.
Lemma between_refuted prim pq : exact_prim prim ->
  exists rows c, get_shortest_path (K := RCost) 1 rsq pq (fun x => x) (arrays F32 1 [[[0]]; [[1]]]) "bfs" None = Ok (GspOk (K := RCost) rows c) /\ rows = [[0]; [1]] /\
  Forall (fun q => snd (robot_collision prim slider q (plate 0.5)) = Ok false) rows /\
  snd (robot_collision prim slider (lerp (1 / 2) [0] [1]) (plate 0.5)) = Ok true.
Proof.
  intros X. destruct (exact_search pq 1 [[[0]]; [[1]]]) as (js & p & E & P & _); [repeat constructor|discriminate|repeat constructor; discriminate|].
  assert (Ep : p = [[0]; [1]]).
  { destruct js as [|j1 [|j2 [|]]], p as [|x [|y [|]]]; cbn [picks] in P; try tauto. destruct P as (A1 & A2 & _). destruct j1 as [|j1]; [|destruct j1; discriminate]. destruct j2 as [|j2]; [|destruct j2; discriminate]. cbn in A1, A2. congruence. }
  do 2 eexists. split; [exact E|]. split; [exact Ep|]. split.
  - rewrite Ep. apply Forall_cons; [|apply Forall_cons; [|constructor]]; apply slider_verdict; auto; apply slider_clear.
    + rewrite Rabs_pos_eq; lra.
    + replace (0.5 - 1) with (- (0.5)) by lra. rewrite Rabs_Ropp, Rabs_pos_eq; lra.
  - cbn [lerp]. apply slider_hit; auto. apply Rabs_le. lra.
Qed.
(** every joint value that is no float32 has a plate that only the rounded value hits *)
Lemma round_refuted prim x : exact_prim prim -> f32 x <> x ->
  exists z, snd (robot_collision prim slider [x] (plate z)) = Ok false /\ snd (robot_collision prim slider (map f32 [x]) (plate z)) = Ok true.
Proof.
  intros X H. destruct (Rlt_dec x (f32 x)) as [L|L].
  - exists (f32 x + 0.15). split; [apply slider_verdict; auto; apply slider_clear; rewrite Rabs_pos_eq; lra|]. cbn [map]. apply slider_hit; auto. apply Rabs_le. lra.
  - exists (f32 x - 0.15). split; [apply slider_verdict; auto; apply slider_clear; rewrite Rabs_left1; lra|]. cbn [map]. apply slider_hit; auto. apply Rabs_le. lra.
Qed.
Lemma third_rounds : f32 (1 / 3) <> 1 / 3.
Proof.
  intros E. assert (F : generic_format radix2 (FLT_exp (-149) 24) (1 / 3)). { rewrite <- E. unfold f32, rnd. apply generic_format_round; [apply FLT_exp_valid; reflexivity|apply valid_rnd_N]. }
  apply FLT_format_generic in F; [|reflexivity]. destruct F as [[m e] F1 _ F3]. cbn [Fnum Fexp] in *. unfold F2R in F1. cbn [Fnum Fexp] in F1.
  assert (P : IZR (2 ^ 149) = IZR (3 * (m * 2 ^ (e + 149)))).
  { rewrite !mult_IZR. change (2 ^ (e + 149))%Z with (Zpower radix2 (e + 149)). rewrite (IZR_Zpower radix2 (e + 149)) by lia. rewrite bpow_plus. change (bpow radix2 149) with (IZR (2 ^ 149)).
    transitivity (3 * (IZR m * bpow radix2 e) * IZR (2 ^ 149)); [rewrite <- F1; lra|ring]. }
  apply eq_IZR in P. assert (Q : (2 ^ 149 mod 3 = 0)%Z) by (rewrite P, Z.mul_comm; apply Z.mod_mul; lia). vm_compute in Q. discriminate.
Qed.
Lemma len_vz v : Rabs (vz v) <= len v.
Proof.
  apply sqr_le; [apply len_nonneg|]. rewrite len_sqr. rewrite <- Rabs_mult, Rabs_pos_eq by apply Rle_0_sqr. destruct v as [x y z]. unfold norm2, vdot. cbn [vx vy vz].
  pose proof (Rle_0_sqr x). pose proof (Rle_0_sqr y). unfold Rsqr in *. lra.
Qed.
Lemma slider_gap a : 0 <= a <= 1 -> gap slider (plate 2) [a] 0.8.
Proof.
  intros Ha i c x y B Hx Hy. destruct (slider_body i c B) as [-> ->]. apply slider_in in Hx. apply plate_in in Hy. destruct Hx as (_ & _ & Hx), Hy as (_ & _ & Hy).
  apply Rabs_le_inv in Hx. apply Rabs_le_inv in Hy. eapply Rle_trans; [|apply len_vz]. replace (vz (vsub x y)) with (- (vz y - vz x)) by (destruct x, y; cbn; ring). rewrite Rabs_Ropp, Rabs_pos_eq; lra.
Qed.
Lemma slider_self q d : self_gap slider q d.
Proof. split; [|intros; discriminate]. intros i j li lj x y Ei Ej E. destruct (slider_body i (l_geom li)) as [-> _]; [left; eauto|]. destruct (slider_body j (l_geom lj)) as [-> _]; [left; eauto|]. discriminate. Qed.
Lemma slider_reach : reach slider 0.2.
Proof.
  split; [lra|]. intros i c p B Hp. destruct (slider_body i c B) as [-> ->]. apply single_in in Hp. cbn [place] in Hp. destruct Hp as (l & (A & B' & C) & ->). cbn [dx dy dz] in *.
  replace (tapply eye4 l) with l by (destruct l; vring). apply sqr_le; [lra|]. rewrite len_sqr. destruct l as [x y z]. unfold norm2, vdot. cbn [vx vy vz] in *.
  assert (Q : forall t, Rabs t <= 0.2 / 2 -> t * t <= 0.01). { intros t Ht. rewrite <- abs_sq. replace 0.01 with (0.1 * 0.1) by lra. apply Rmult_le_compat; try apply Rabs_pos; lra. }
  pose proof (Q x A). pose proof (Q y B'). pose proof (Q z C). lra.
Qed.
Lemma slider_case : good slider /\ joints_ok slider /\ solid slider /\ rigid_coll (plate 2) /\ base_clear slider (plate 2) /\ reach slider 0.2 /\
  gap slider (plate 2) [0] 0.8 /\ gap slider (plate 2) [1] 0.8 /\ self_gap slider [0] 2 /\ self_gap slider [1] 2 /\
  move_bound (r_links slider) [0] [1] 0.2 = 1 /\ move_bound (r_links slider) [1] [0] 0.2 = 1.
Proof.
  destruct slider_facts as (G & J & _ & S & B & C). do 4 (split; [solve [auto]|]). split; [exact B|]. split; [apply slider_reach|]. split; [apply slider_gap; lra|]. split; [apply slider_gap; lra|].
  split; [apply slider_self|]. split; [apply slider_self|]. split; cbn [slider robot_init r_links move_bound new_link l_jt].
  - replace (0 - 1) with (- (1)) by ring. rewrite Rabs_Ropp, Rabs_R1. ring.
  - rewrite Rminus_0_r, Rabs_R1. ring.
Qed.
