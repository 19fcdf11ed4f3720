(** * Solutions the planner does not lose in floating point: proofs of C154. *)
From Coq Require Import String Reals Lra Lia Psatz List Bool Arith ZArith Permutation.
From Flocq Require Import Core.
From Verif Require Import PyBase Cost SpecPath GraphCommon CppGraph CppGraphProofs CppSearch CppMain CppExamples Mat Util UtilProofs Geometry GeometryProofs Robot RobotProofs RobotForms ResourcesProofs Ik IkProofs KukaProofs KingpinProofs Path PathProofs Planning PlanningProofs PlanningCart Pipeline PipelineProofs Motion MotionKuka.
From Verif Require Import FloatFk FloatFkProofs FloatColl FloatCollProofs FloatIk FloatIkProofs FloatIkArm FloatIkWrist FloatIkKuka FloatIkDouble FloatPlan FloatPlanProofs FloatIkAll.
Import ListNotations.
Local Open Scope R_scope.

(** ** From sines and cosines to angles *)
Lemma turn_reduce d : exists n : Z, Rabs (d - 2 * IZR n * PI) <= PI.
Proof.
  pose proof PI_RGT_0 as P. set (x := d / (2 * PI) + / 2). exists (Int_part x). destruct (base_Int_part x) as [A B].
  assert (E : d = (x - / 2) * (2 * PI)) by (unfold x; field; lra). apply Rabs_le. rewrite E. split; nra.
Qed.
Lemma sine_small x : 0 <= x <= PI / 2 -> sin x <= 0.8 -> x <= 1.2 * sin x.
Proof.
  intros H S. assert (X1 : x <= 1).
  { destruct (Rle_dec x 1) as [|N]; auto. exfalso. destruct (sin_range 1 ltac:(lra)) as [L _]. pose proof (sin_incr_1 1 x). pose proof PI2_1. pose proof PI_4. lra. }
  destruct (sin_range x ltac:(lra)) as [L _]. assert (x ^ 3 <= x) by nra. lra.
Qed.
Lemma anear_turn e p q : anear e p q -> e <= 1 -> exists n : Z, Rabs (p - 2 * IZR n * PI - q) <= 1.7 * e.
Proof.
  intros [Hc Hs] He. destruct (turn_reduce (p - q)) as (n & B). exists n. set (d := p - q - 2 * IZR n * PI) in *. replace (p - 2 * IZR n * PI - q) with d by (unfold d; ring).
  assert (E0 : 0 <= e) by (pose proof (Rabs_pos (cos p - cos q)); lra).
  assert (C : cos d = cos (p - q)). { unfold d. replace (p - q - 2 * IZR n * PI) with (p - q + 2 * IZR (- n) * PI) by (rewrite opp_IZR; ring). apply (cong_cos_sin _ (p - q)). exists (- n)%Z. reflexivity. }
  rewrite cos_minus in C. pose proof (sin2_cos2 p) as P1. pose proof (sin2_cos2 q) as Q1. unfold Rsqr in P1, Q1.
  assert (D : (cos p - cos q) * (cos p - cos q) + (sin p - sin q) * (sin p - sin q) <= 2 * (e * e)).
  { assert (S1 : forall x, Rabs x <= e -> x * x <= e * e) by (intros x H; apply Rabs_le_inv in H; nra). pose proof (S1 _ Hc). pose proof (S1 _ Hs). lra. }
  assert (H2 : 2 - 2 * cos d <= 2 * (e * e)) by (rewrite C; nra).
  set (x := Rabs d / 2). assert (HX : 0 <= x <= PI / 2) by (unfold x; pose proof (Rabs_pos d); lra).
  assert (CX : cos d = 1 - 2 * sin x * sin x). { rewrite <- cos_2a_sin. unfold x. replace (2 * (Rabs d / 2)) with (Rabs d) by field. unfold Rabs. destruct (Rcase_abs d); auto. rewrite cos_neg. auto. }
  assert (S0 : 0 <= sin x) by (apply sin_ge_0; pose proof PI_RGT_0; lra).
  assert (SX : sin x <= 0.7072 * e). { apply Rsqr_incr_0_var; [unfold Rsqr|lra]. rewrite CX in H2. nra. }
  pose proof (sine_small x HX ltac:(lra)) as Z. unfold x in Z at 1. lra.
Qed.

(** ** Frames do not see whole turns *)
Definition rev_only (r : robot) : Prop := Forall (fun l => l_jt l = JR) (r_links r).
Lemma lspec_turn l a b : l_jt l = JR -> cong a b -> lspec l a = lspec l b.
Proof. intros J C. unfold lspec. rewrite J. unfold dhm, pose_z, rot_z. destruct (cong_cos_sin _ _ C) as [C1 S1]. rewrite ?C1, ?S1. reflexivity. Qed.
Lemma frame_turn r q q' i : rev_only r -> Forall2 cong q q' -> frame r q i = frame r q' i.
Proof.
  intros J F. unfold frame. rewrite !combine_firstn. revert J. unfold rev_only. generalize (r_tfb r). generalize (S i). generalize (r_links r). intros ls n T J.
  assert (J' : Forall (fun l => l_jt l = JR) (firstn n ls)). { rewrite Forall_forall in J |- *. intros l H. apply J. clear - H. revert ls H. induction n as [|n IH]; intros [|x ls]; cbn; try tauto. intros [->|H]; auto. }
  revert T J'. generalize (firstn n ls). clear - F. induction F as [|a b q q' C F IH]; intros [|l ls] T J; cbn [combine fold_left]; auto. inversion J; subst. cbn [fst snd]. rewrite (lspec_turn l a b); auto.
Qed.

(** ** Moving a little keeps most of the distance *)
Lemma coll_move D L c F F' e x : 0 <= e -> coll_size D L c -> rigid_coll c -> rigid F -> rigid F' ->
  (forall y, len y <= D + L -> len (vsub (tapply F' y) (tapply F y)) <= e) -> in_coll c (Some F') x -> exists x', in_coll c (Some F) x' /\ len (vsub x x') <= e.
Proof.
  intros He [SD SL] RC RF RF' M (s & T & Hm & (l & Hl & ->)). exists (tapply (place (Some F) T) l). split; [exists s, T; split; auto; exists l; auto|].
  destruct Hm as (i & E1 & E2). apply nth_error_In in E1. apply nth_error_In in E2. unfold rigid_coll in RC. rewrite Forall_forall in SD, SL, RC. pose proof (SD _ E1) as B1. pose proof (SL _ E2) as B2. pose proof (RC _ E2) as B3.
  cbn [place]. rewrite !tapply_tmul by auto. apply M. assert (LL : len l <= D). { destruct Hl as (lx & ly & lz). pose proof (len_abs_le l). lra. }
  eapply Rle_trans; [apply len_tapply_le; auto|]. lra.
Qed.
Lemma far_near d e x y x' y' : d + 2 * e < len (vsub x' y') -> len (vsub x x') <= e -> len (vsub y y') <= e -> d < len (vsub x y).
Proof. intros H A B. pose proof (len_vsub3 x' x y') as Z. pose proof (len_vsub3 x y y') as Y. rewrite (len_sym x' x) in Z. lra. Qed.
Lemma len_self x : len (vsub x x) = 0.
Proof. replace (vsub x x) with v0 by (destruct x; apply vec3_eq; cbn; ring). unfold len, norm2, vdot, v0. cbn. replace (0 * 0 + 0 * 0 + 0 * 0) with 0 by ring. apply sqrt_0. Qed.
Lemma clear_move D L r scene q p d e : 0 <= e -> solid r -> robot_size D L r ->
  (forall i y, len y <= D + L -> len (vsub (tapply (frame r p i) y) (tapply (frame r q i) y)) <= e) ->
  clear_by (d + 2 * e) r scene q -> clear_by d r scene p.
Proof.
  intros He (SB & SL & SBs & STl) (ZL & ZB & ZT) M [C1 C2].
  assert (RF : forall q i, rigid (frame r q i)). { intros. apply frame_rigid; auto. }
  assert (KL : forall i l x, nth_error (r_links r) i = Some l -> in_coll (l_geom l) (Some (frame r p i)) x -> exists x', in_coll (l_geom l) (Some (frame r q i)) x' /\ len (vsub x x') <= e).
  { intros i l x El. pose proof (nth_error_In _ _ El) as Il. unfold TaskProofs.rigid_links in SL. rewrite Forall_forall in SL, ZL. apply (coll_move D L); auto. }
  assert (KT : forall tl tip x, r_tool r = Some (tl, tip) -> in_coll tl (Some (frame r p (ndof r - 1))) x -> exists x', in_coll tl (Some (frame r q (ndof r - 1))) x' /\ len (vsub x x') <= e).
  { intros tl tip x El. apply (coll_move D L); auto; [eapply ZT; eauto|eapply STl; eauto]. }
  split.
  - intros x y Hx Hy. assert (G : exists x', in_robot r q x' /\ len (vsub x x') <= e).
    { destruct Hx as [(b & Eb & Hb)|[(i & l & El & Hl)|(tl & tip & Et & Ht)]].
      - exists x. split; [left; eauto|]. rewrite len_self. auto.
      - destruct (KL i l x El Hl) as (x' & A & B). exists x'. split; auto. right. left. exists i, l. auto.
      - destruct (KT tl tip x Et Ht) as (x' & A & B). exists x'. split; auto. right. right. exists tl, tip. auto. }
    destruct G as (x' & G1 & G2). apply (far_near d e x y x' y); auto. rewrite len_self. auto.
  - intros Sf. destruct (C2 Sf) as [S1 S2]. split.
    + intros i j li lj Ei Ej Em x y Hx Hy. destruct (KL i li x Ei Hx) as (x' & A & B). destruct (KL j lj y Ej Hy) as (y' & A' & B'). exact (far_near d e x y x' y' (S1 i j li lj Ei Ej Em x' y' A A') B B').
    + intros tl tip i l Et Ei El x y Hx Hy. destruct (KL i l x El Hx) as (x' & A & B). destruct (KT tl tip y Et Hy) as (y' & A' & B'). exact (far_near d e x y x' y' (S2 tl tip i l Et Ei El x' y' A A') B B').
Qed.

(** ** A row near a solution *)
(** how far a joint can be from that of the solution, whole turns aside *)
Definition turn_err (u m1 m3 w m5 : R) : R := 12.5 * (wdir u m1 m3 w / m5).
Section Row.
Context (m1 m3 w m5 : R) (M1 : 0.01 <= m1 <= 1) (M3 : 0.01 <= m3 <= 1) (W : 0.01 <= w <= 1) (M5 : 0.01 <= m5 <= 1).
Lemma wdir_small : 0 < wdir u64 m1 m3 w / m5 <= 0.024.
Proof.
  pose proof u64_pos as U0. pose proof u64_le as U1. assert (0 < u64 / m1) by (apply Rdiv_lt_0_compat; lra). assert (W0 : 0 < m3 * w) by (apply Rmult_lt_0_compat; lra). assert (0 < u64 / (m3 * w)) by (apply Rdiv_lt_0_compat; lra).
  assert (u64 / m1 <= u64 * 100) by (unfold Rdiv; apply Rmult_le_compat_l; [lra|]; replace 100 with (/ 0.01) by lra; apply Rinv_le_contravar; lra).
  assert (u64 / (m3 * w) <= u64 * 10000) by (unfold Rdiv; apply Rmult_le_compat_l; [lra|]; replace 10000 with (/ 0.0001) by lra; apply Rinv_le_contravar; [lra|]; assert (0.01 * 0.01 <= m3 * w) by (apply Rmult_le_compat; lra); lra).
  assert (0 < wdir u64 m1 m3 w <= 2.4e-4) by (unfold wdir; lra). split; [apply Rdiv_lt_0_compat; lra|].
  apply Rle_trans with (wdir u64 m1 m3 w * 100); [|lra]. unfold Rdiv. apply Rmult_le_compat_l; [lra|]. replace 100 with (/ 0.01) by lra. apply Rinv_le_contravar; lra.
Qed.
Lemma near_turn p q : near_row u64 m1 m3 w m5 p q -> exists p', Forall2 cong p p' /\ Forall2 (fun x y => Rabs (x - y) <= turn_err u64 m1 m3 w m5) p' q.
Proof.
  intros (p1 & p2 & p3 & p4 & p5 & p6 & q1 & q2 & q3 & q4 & q5 & q6 & -> & -> & N1 & N2 & N3 & N4 & N5 & N6). pose proof wdir_small as WS. pose proof u64_pos as U0.
  assert (K : forall e a b, anear e a b -> e <= 7.3 * (wdir u64 m1 m3 w / m5) -> exists a', cong a a' /\ Rabs (a' - b) <= turn_err u64 m1 m3 w m5).
  { intros e a b H He. destruct (anear_turn e a b H) as (n & B); [lra|]. exists (a - 2 * IZR n * PI). split; [exists n; ring|]. unfold turn_err. lra. }
  assert (I5 : 1 <= / m5) by (apply inv_ge1; lra). assert (W0 : 0 < m3 * w) by (apply Rmult_lt_0_compat; lra).
  assert (A1 : 0 < u64 / m1) by (apply Rdiv_lt_0_compat; lra). assert (A2 : 0 < u64 / (m3 * w)) by (apply Rdiv_lt_0_compat; lra).
  assert (A3 : u64 / m3 <= u64 / (m3 * w)). { unfold Rdiv. apply Rmult_le_compat_l; [lra|]. apply Rinv_le_contravar; auto. assert (m3 * w <= m3 * 1) by (apply Rmult_le_compat_l; lra). lra. }
  assert (WD : wdir u64 m1 m3 w <= wdir u64 m1 m3 w / m5). { unfold Rdiv. assert (0 <= wdir u64 m1 m3 w) by (unfold wdir; lra). nra. }
  assert (WE : 1.9e6 * (u64 / m1) + 1.97e8 * (u64 / (m3 * w)) = wdir u64 m1 m3 w) by reflexivity.
  destruct (K _ _ _ N1 ltac:(lra)) as (a1 & B1 & C1). destruct (K _ _ _ N2 ltac:(lra)) as (a2 & B2 & C2). destruct (K _ _ _ N3 ltac:(lra)) as (a3 & B3 & C3).
  destruct (K _ _ _ N4 ltac:(lra)) as (a4 & B4 & C4). destruct (K _ _ _ N5 ltac:(lra)) as (a5 & B5 & C5). destruct (K _ _ _ N6 ltac:(lra)) as (a6 & B6 & C6).
  exists [a1; a2; a3; a4; a5; a6]. split; repeat (apply Forall2_cons; [assumption|]); apply Forall2_nil.
Qed.
End Row.

Section Double.
Context (k : kuka) (KS : kuka_std k) (So : solid (k_rob k)) (RSz : robot_size 10 10 (k_rob k)).
Context (prim : shape -> mat3 -> vec3 -> shape -> mat3 -> vec3 -> bool) (tol : R) (TW : test_within prim tol) (T0 : 0 <= tol).
Context (scene scene' : coll) (RS : rigid_coll scene) (SN : coll_near u64 eta64 scene scene') (SSz : coll_size 10 10 scene).
Context (m1 m3 w m5 : R) (M1 : 0.01 <= m1 <= 1) (M3 : 0.01 <= m3 <= 1) (W : 0.01 <= w <= 1) (M5 : 0.01 <= m5 <= 1).
Context (D L : R) (HD : 0 <= D + L) (RDL : robot_size D L (k_rob k)).
Notation rob := (k_rob k).
(** how far a point of the robot can be from where it is at the solution *)
Definition sway : R := turn_err u64 m1 m3 w m5 * (kuka_size 0.18 0.6 0.62 0.115 + 6 * (D + L)).
(** joint values reaching T, away from the singularities, clear by the margin *)
Definition good_sol (T : mat4) (q : list R) : Prop := snd (fk rob q) = Ok T /\ regular m1 m3 w m5 q /\ clear_by (3e-11 + tol + 2 * sway) rob scene q.
Lemma kuka_revolute : rev_only rob.
Proof.
  destruct KS as [KO _ _ _]. destruct (ko_rob _ _ _ _ _ KO) as [_ LL]. unfold rev_only. revert LL. generalize (r_links rob). intros ls LL.
  destruct ls as [|l1 [|l2 [|l3 [|l4 [|l5 [|l6 [|]]]]]]]; try discriminate LL. cbn in LL. injection LL. intros J6 _ J5 _ J4 _ J3 _ J2 _ J1 _. repeat (apply Forall_cons; [assumption|]). apply Forall_nil.
Qed.
Lemma turn_pos : 0 <= turn_err u64 m1 m3 w m5.
Proof. unfold turn_err. pose proof (wdir_small m1 m3 w m5 M1 M3 W M5). lra. Qed.
Lemma row_frame p q i x : near_row u64 m1 m3 w m5 p q -> len x <= D + L -> len (vsub (tapply (frame rob p i) x) (tapply (frame rob q i) x)) <= sway.
Proof.
  intros N Hx. destruct (near_turn m1 m3 w m5 M1 M3 W M5 p q N) as (p' & C & F). rewrite (frame_turn rob p p' i kuka_revolute C).
  assert (Lp : length p' = 6%nat). { destruct N as (p1 & p2 & p3 & p4 & p5 & p6 & q1 & q2 & q3 & q4 & q5 & q6 & -> & _). pose proof (Forall2_length C) as E. cbn in E. auto. }
  destruct KS as [KO KB _ _]. pose proof turn_pos as TP.
  eapply Rle_trans; [apply frame_move; auto; eapply Forall2_length; eauto|]. eapply Rle_trans; [apply move_firstn, len_nonneg|].
  rewrite (move_like _ (r_links (Kuka 0.18 0.6 0.62 0.115))) by apply (ko_rob _ _ _ _ _ KO). eapply Rle_trans; [apply move_le; eauto using len_nonneg|]. apply Rmult_le_compat_l; auto.
  clear - Lp Hx. destruct p' as [|q1 [|q2 [|q3 [|q4 [|q5 [|q6 [|]]]]]]]; try discriminate Lp.
  unfold Kuka, robot_init, lr, new_link. cbn [r_links move_bound span map l_dh l_jt da dd].
  repeat match goal with |- context [Rabs (?x - (?x - 1))] => replace (Rabs (x - (x - 1))) with 1 by (replace (x - (x - 1)) with 1 by ring; rewrite Rabs_R1; auto) end. rewrite Rabs_R0. unfold kuka_size. lra.
Qed.
Lemma sway_pos : 0 <= sway.
Proof. unfold sway. apply Rmult_le_pos; [apply turn_pos|]. unfold kuka_size. pose proof (Rabs_pos 0.18). pose proof (Rabs_pos 0.6). pose proof (Rabs_pos 0.62). pose proof (Rabs_pos 0.115). lra. Qed.
Lemma row_clear p q : near_row u64 m1 m3 w m5 p q -> clear_by (3e-11 + tol + 2 * sway) rob scene q -> clear_by (3e-11 + tol) rob scene p.
Proof. intros N. apply (clear_move D L); auto using sway_pos. intros i y Hy. apply row_frame; auto. Qed.
Lemma call_all k' T T' q : same_kuka k k' -> rigid T -> len (vsub (pos T) (pos (r_tfb rob))) <= 3 -> tnear u64 2110 51 T T' ->
  snd (fk rob q) = Ok T -> regular m1 m3 w m5 q -> exists qs p, snd (fkuka_call double_ik k' T') = Ok (Some qs) /\ In p qs /\ near_row u64 m1 m3 w m5 p q.
Proof.
  intros (NK & _) RT LT TN EF RG. pose proof u64_pos as U0. pose proof eta64_pos as E0. pose proof u64_le as U1. pose proof eta64_le as E1. pose proof eta64_sq as E2.
  destruct (kuka_all double_ik u64 eta64 (5 * u64) (10 * eta64) double_ik_ok ltac:(lra) ltac:(lra) ltac:(lra) ltac:(lra) ltac:(lra) 2110 51 ltac:(lra) ltac:(lra) m1 m3 w m5 M1 M3 W M5 k k' T T' q KS NK RT LT TN EF RG) as (sols & p & ES & HI & N).
  unfold fkuka_call. destruct (fkuka_ik double_ik k' T') as [k2 r]. cbn [snd] in *. subst r. cbn [bind read]. exists sols, p. auto.
Qed.
Lemma frames_all : forall Ts Ts', Forall2 (tnear u64 2110 51) Ts Ts' -> Forall (pose_ok k) Ts -> forall k' acc, same_kuka k k' ->
  exists l, snd (fsolve_frames double_ik prim scene' Ts' k' acc) = Ok (acc ++ l) /\
  forall T q, In T Ts -> good_sol T q -> exists p, In p l /\ near_row u64 m1 m3 w m5 p q.
Proof.
  induction 1 as [|T T' Ts Ts' TN F2 IH]; intros P k' acc I1; cbn [fsolve_frames].
  - exists []. rewrite app_nil_r. split; auto. intros T q [].
  - inversion P as [|? ? [RT LT] P']; subst. destruct (call_e k KS k' T T' I1 RT LT TN) as [I2 (r & Er & Hr)]. pose proof (fun q => call_all k' T T' q I1 RT LT TN) as CA.
    destruct (fkuka_call double_ik k' T') as [k2 rr]. cbn [fst snd] in *. subst rr. destruct r as [qs|].
    + destruct Hr as [NE FQ]. destruct (sols_e k KS So RSz prim tol TW T0 scene scene' RS SN SSz qs k2 acc I2) as (l1 & C1 & C2 & C3 & C4). { eapply Forall_impl; [|exact FQ]. intros q [(q1 & q2 & q3 & q4 & q5 & q6 & F & -> & _) _]. reflexivity. }
      destruct (fcheck_sols double_ik prim scene' qs k2 acc) as [k3 acc3]. cbn [fst snd] in *. subst acc3.
      destruct (IH P' k3 (acc ++ l1) C2) as (l2 & D1 & D2). exists (l1 ++ l2). rewrite app_assoc. split; auto.
      intros T2 q [<-|H2] G.
      * destruct G as (G1 & G2 & G3). destruct (CA q G1 G2) as (qs' & p & E & J1 & J2). injection E as <-. exists p. split; auto. apply in_app_iff. left. apply C4; auto. eapply row_clear; eauto.
      * destruct (D2 T2 q H2 G) as (p & J1 & J2). exists p. split; auto. apply in_app_iff. auto.
    + destruct (IH P' k2 acc I2) as (l & D1 & D2). exists l. split; auto.
      intros T2 q [<-|H2] G; [|eauto]. destruct G as (G1 & G2 & _). destruct (CA q G1 G2) as (qs' & p & E & _). discriminate.
Qed.
(** what a column holds: rows that are kept, and one near every good solution of a sample *)
Definition full (p : eulerpt) (l : list (list R)) : Prop :=
  Forall (kept k tol scene p) l /\ forall Ts T q, euler_samples p = Ok Ts -> In T Ts -> good_sol T q -> exists q', In q' l /\ near_row u64 m1 m3 w m5 q' q.
Lemma columns_all : forall path k', Forall (pt_fine k) path -> same_kuka k k' ->
  exists data, snd (fkuka_columns double_ik prim f32 scene' path k') = Ok (map (entry_of f32) data) /\ Forall2 full path data.
Proof.
  induction path as [|p path IH]; intros k' P I1; cbn [fkuka_columns]; [exists []; auto|]. inversion P as [|? ? (P1 & P2 & P3) P']; subst.
  pose proof u64_pos as U0. pose proof eta64_pos as E0. pose proof u64_le as U1. pose proof eta64_le as E1. pose proof eta64_sq as E2.
  assert (Hu : 0 < u64 <= 1e-13) by lra. assert (He : 0 <= eta64 <= u64 ^ 2) by lra.
  destruct (feuler_e double_ik u64 eta64 (5 * u64) (10 * eta64) double_ik_ok Hu He ltac:(lra) ltac:(lra) p P1) as (Ts & Ts' & ET & ET' & TN). rewrite ET'.
  destruct (pt_allowed (fun _ => v0) 0 0 (PEuler p) P2) as (Ts2 & E3 & AL). cbn [pt_samples] in E3. rewrite ET in E3. injection E3 as <-.
  assert (PO : Forall (pose_ok k) Ts) by (apply Forall_forall; intros T HT; split; [apply (AL T HT)|apply P3, AL, HT]).
  destruct (frames_e k KS So RSz prim tol TW T0 scene scene' RS SN SSz Ts Ts' TN PO k' [] I1) as (l & D1 & D2 & D3 & _).
  destruct (frames_all Ts Ts' TN PO k' [] I1) as (l' & D1' & D4). rewrite D1 in D1'. cbn [app] in D1'. injection D1' as <-.
  destruct (fsolve_frames double_ik prim scene' Ts' k' []) as [k2 qs]. cbn [fst snd app] in *. subst qs.
  assert (FK : Forall (kept k tol scene p) l) by (apply Forall_forall; intros q Hq; destruct (D3 q Hq) as (T & J1 & J2); exists T; split; [apply AL; auto|auto]).
  rewrite (pack_total f32 6 l). 2: { eapply Forall_impl; [|exact FK]. intros q (T & _ & (q1 & q2 & q3 & q4 & q5 & q6 & F & -> & _) & _). reflexivity. }
  destruct (IH k2 P' D2) as (data & C2 & C3). destruct (fkuka_columns double_ik prim f32 scene' path k2) as [k3 Q]. cbn [fst snd] in *. subst Q.
  exists (l :: data). split; [reflexivity|]. constructor; auto. split; auto. intros Ts3 T q ET3 HT G. rewrite ET in ET3. injection ET3 as <-. eauto.
Qed.
(** a plan is found when every point has a sample with a good solution *)
Definition pt_good (p : eulerpt) : Prop := exists Ts T q, euler_samples p = Ok Ts /\ In T Ts /\ good_sol T q.
Lemma plan_all path ow k' : Forall (pt_fine k) path -> Forall pt_good path -> path <> [] -> same_kuka k k' -> forall pq,
  exists data rows, let cost := walk_cost (K := RCost) (jcost (K := RCost) rsq (eff_weights 1 6 ow)) in
  snd (fkuka_columns double_ik prim f32 scene' path k') = Ok (arrays F32 6 (map (map (map f32)) data)) /\ Forall2 full path data /\
  snd (fkuka_plan double_ik prim f32 (K := RCost) rsq pq scene' path "bfs" ow k') = Ok (GspOk rows (cost rows)) /\
  Forall2 (fun col row => In row (map (map f32) col)) data rows /\ forall rows', Forall2 (fun col row => In row (map (map f32) col)) data rows' -> cle (cost rows) (cost rows').
Proof.
  intros P Ez Hp I1 pq. destruct (columns_all path k' P I1) as (data & E & F2). exists data.
  assert (EA : map (entry_of f32) data = arrays F32 6 (map (map (map f32)) data) /\ uniform 6 (map (map (map f32)) data) /\ Forall (fun col => col <> []) (map (map (map f32)) data)).
  { clear E. revert Ez. clear Hp P. induction F2 as [|p l path data [FK NE] F2 IH]; intros Ez; [repeat split; constructor|]. inversion Ez as [|? ? Ez1 Ez2]; subst. destruct (IH Ez2) as (I2 & I3 & I4).
    assert (L6 : Forall (fun q => length q = 6%nat) l) by (eapply Forall_impl; [|exact FK]; intros q (T & _ & (q1 & q2 & q3 & q4 & q5 & q6 & F & -> & _) & _); reflexivity).
    assert (NL : l <> []) by (destruct Ez1 as (Ts & T & q & H1 & H2 & H3); destruct (NE _ _ _ H1 H2 H3) as (q' & J & _); destruct l; [destruct J|discriminate]).
    cbn [map]. split; [|split; constructor; auto].
    - unfold arrays in *. cbn [map]. rewrite I2. f_equal. unfold entry_of. destruct l as [|q l]; [congruence|]. inversion L6 as [|? ? L1 _]; subst. rewrite L1. reflexivity.
    - apply Forall_map. eapply Forall_impl; [|exact L6]. intros q Hq. rewrite map_length. exact Hq.
    - intros Z. apply map_eq_nil in Z. congruence. }
  destruct EA as (EA & EU & EN). rewrite EA in E. assert (Hd : map (map (map f32)) data <> []) by (intros Z; apply map_eq_nil in Z; subst data; inversion F2; subst; congruence).
  unfold fkuka_plan. destruct (fkuka_columns double_ik prim f32 scene' path k') as [k2 Q]. cbn [fst snd] in *. subst Q. cbn [bind].
  destruct (gsp_bfs_spec (K := RCost) 1 rsq pq f32 F32 6 (map (map (map f32)) data) ow EU Hd EN) as [[_ Z]|(js & p & H1 & H2 & _ & H3)].
  - exfalso. cbn [seen] in Z. assert (PP : exists js p, picks (map (map (map f32)) data) js p).
    { clear - EN. induction EN as [|[|x c] dd Hc _ (js & p & IH)]; [exists [], []; exact I|congruence|]. exists (0%nat :: js), (x :: p). cbn. auto. }
    destruct PP as (js & p & PP). specialize (Z js p PP). rewrite rsq_finite in Z. discriminate.
  - exists p. cbn zeta. cbn [seen] in H2, H3. split; [reflexivity|]. split; [exact F2|]. split; [exact H1|]. split; [apply picks_In in H2; apply Forall2_map_l in H2; exact H2|].
    intros rows' H'. assert (H4 : Forall2 (fun col row => In row col) (map (map (map f32)) data) rows') by (clear - H'; induction H'; cbn [map]; constructor; auto).
    apply In_picks in H4. destruct H4 as (js' & H4). apply (H3 js' rows' H4).
Qed.
End Double.
