(** * KukaOnRail in double precision: fk, ik, fk. *)
From Coq Require Import Reals Lra Lia Psatz List Bool Arith ZArith.
From Verif Require Import PyBase Mat Util UtilProofs Geometry GeometryProofs Robot RobotProofs RobotForms Ik IkProofs KukaProofs PumaProofs RailProofs Motion FloatFk FloatFkProofs FloatIk FloatIkProofs FloatIkArm FloatIkWrist FloatIkKuka FloatIkDouble Resources ResourcesProofs TaskProofs FloatRail FloatRailProofs.
Import ListNotations.
Local Open Scope R_scope.

(** ** A coarser arithmetic *)
Lemma rd_mono u u' eta x x' : u <= u' -> rd u eta x x' -> rd u' eta x x'.
Proof. unfold rd. intros H K. pose proof (Rabs_pos x). assert (u * Rabs x <= u' * Rabs x) by (apply Rmult_le_compat_r; lra). lra. Qed.
Lemma link_mono u u' eta l l' : u <= u' -> link_near u eta l l' -> link_near u' eta l l'.
Proof. intros H (C & J & a & d & al & th). split; [exact C|]. split; [exact J|]. split; [eapply rd_mono; eauto|]. split; [eapply rd_mono; eauto|]. split; lra. Qed.
Lemma frame_mono u u' eta T T' : u <= u' -> frame_near u eta T T' -> frame_near u' eta T T'.
Proof. intros H K. unfold frame_near in *. pose proof (fun x x' => rd_mono u u' eta x x' H) as M. intuition. Qed.
Lemma links_mono u u' eta ls ls' : u <= u' -> Forall2 (link_near u eta) ls ls' -> Forall2 (link_near u' eta) ls ls'.
Proof. intros H K. induction K; constructor; auto. eapply link_mono; eauto. Qed.
Lemma robot_mono u u' eta r r' : u <= u' -> robot_near u eta r r' -> robot_near u' eta r r'.
Proof.
  intros H [L B T]. split; [eapply links_mono; eauto|eapply frame_mono; eauto|]. destruct (r_tool r) as [[? ?]|], (r_tool r') as [[? ?]|]; auto. eapply frame_mono; eauto.
Qed.
Lemma rail_mono u u' eta rl rl' : u <= u' -> rail_near u eta rl rl' -> rail_near u' eta rl rl'.
Proof. intros H (a & b & c & d). split; [eapply robot_mono; eauto|]. split; [eapply links_mono; eauto|]. split; [exact c|eapply robot_mono; eauto]. Qed.
Lemma arith_mono A u u' eta g h : u <= u' -> arith_ok A u eta g h -> arith_ok A u' eta g h.
Proof.
  intros H [a b c d e f]. split; auto; intros x; [|eapply Rle_trans; [apply b|lra]|eapply Rle_trans; [apply c|lra]].
  eapply Rle_trans; [apply a|]. pose proof (Rabs_pos x). assert (u * Rabs x <= u' * Rabs x) by (apply Rmult_le_compat_r; lra). lra.
Qed.
Lemma ik_mono A u u' eta g h : u <= u' -> ik_ok A u eta g h -> ik_ok A u' eta g h.
Proof.
  intros H [a b c d e f i j k l]. split; auto.
  - eapply arith_mono; eauto.
  - intros x. eapply Rle_trans; [apply c|]. pose proof (pow2_ge_0 x). assert (2 * u * x ^ 2 <= 2 * u' * x ^ 2) by (apply Rmult_le_compat_r; lra). lra.
  - intros x Hx. eapply Rle_trans; [apply f; auto|]. pose proof (sqrt_pos x). assert (u * sqrt x <= u' * sqrt x) by (apply Rmult_le_compat_r; lra). lra.
  - intros y x. destruct (i y x) as (t & X & Y & Z). exists t. split; [exact X|]. split; [exact Y|lra].
  - lra.
Qed.

(** ** fk *)
Lemma rail_span r q0 q1 q2 q3 q4 q5 q6 : like r (KukaOnRail 0.18 0.6 0.62 0.115) -> span (r_links r) [q0; q1; q2; q3; q4; q5; q6] = 1.515 + Rabs q0.
Proof.
  intros [_ LL]. rewrite (like_span _ _ _ LL). cbn [span KukaOnRail robot_init r_links lr lp new_link l_jt l_dh da dd]. rewrite ?Rabs_R0, (abs_ge 0.18), (abs_ge 0.6), (abs_ge 0.62), (abs_ge 0.115) by lra. lra.
Qed.
Lemma ffk_rail u eta g h r r' q0 q1 q2 q3 q4 q5 q6 : arith_ok double u eta g h -> 0 < u <= 1e-13 -> 0 <= eta <= u / 1000 -> 0 <= g <= 5 * u -> 0 <= h <= 10 * eta ->
  like r (KukaOnRail 0.18 0.6 0.62 0.115) -> rigid (r_tfb r) -> len (pos (r_tfb r)) <= 2 -> small_tool r -> robot_near u eta r r' -> Rabs q0 <= 4 -> let q := [q0; q1; q2; q3; q4; q5; q6] in
  exists T T', snd (fk r q) = Ok T /\ snd (ffk double r' q) = Ok T' /\ rigid T /\ tnear u 2900 9000 T T' /\ len (vsub (pos T) (pos (tmul (r_tfb r) (rail_form q0)))) <= 3.
Proof.
  intros OK Hu He Hg Hh LK RB LB ST NR H0 q. pose proof (small_rigid _ ST) as RTl. pose proof (rail_form_rigid q0) as RR.
  assert (LL : map dhjt (r_links r) = map dhjt (r_links (KukaOnRail 0.18 0.6 0.62 0.115))) by apply LK.
  assert (JO : joints_ok r) by (apply (like_joints_ok r (KukaOnRail 0.18 0.6 0.62 0.115)); auto; repeat constructor; discriminate).
  assert (ND : ndof r = 7%nat) by (unfold ndof; rewrite <- (map_length dhjt), LL; reflexivity).
  assert (JN : joints_near u eta (r_links r) q q).
  { revert LL. generalize (r_links r). intros ls E. destruct ls as [|l0 [|l1 [|l2 [|l3 [|l4 [|l5 [|l6 [|]]]]]]]]; try discriminate E. cbn in E. injection E. intros J6 _ J5 _ J4 _ J3 _ J2 _ J1 _ J0 _.
    assert (Z : forall x, Rabs (x - x) <= 4 * u) by (intros; rewrite Rminus_eq_0, Rabs_R0; lra).
    assert (Z0 : rd u eta q0 q0) by (unfold rd; rewrite Rminus_eq_0, Rabs_R0; pose proof (Rabs_pos q0); assert (0 <= u * Rabs q0) by (apply Rmult_le_pos; lra); lra).
    repeat constructor; unfold joint_near; [rewrite J0; exact Z0|rewrite J1|rewrite J2|rewrite J3|rewrite J4|rewrite J5|rewrite J6]; apply Z. }
  pose proof (rail_span r q0 q1 q2 q3 q4 q5 q6 LK) as SP. fold q in SP. set (S := 1.515 + Rabs q0) in *. assert (S0 : 0 <= S <= 5.515) by (unfold S; pose proof (Rabs_pos q0); lra).
  assert (TO : tool_ok r). { unfold tool_ok, small_tool in *. destruct (r_tool r) as [[cc tip]|]; auto. destruct ST as [[RM B W] L]. destruct (rot_cols _ RM) as (c0 & c1 & c2). rewrite B, W. repeat split; lra. }
  set (E := rot_bound u eta g h 7). assert (EB : 0 <= E <= 1258 * u) by (unfold E, rot_bound, kap; cbn [INR]; lra).
  set (F := pos_bound u eta g h 7 S 2).
  assert (FB : 0 <= F <= 7700 * u).
  { unfold F, pos_bound. fold E. cbn [INR].
    assert (G1 : 0 <= g * (2 + 32 * u) <= 5 * u * 2.1) by (split; [apply Rmult_le_pos; lra|apply Rmult_le_compat; lra]).
    assert (G2 : 0 <= (E + 32 * u + g * (2 + 32 * u)) * S <= 1301 * u * 5.515) by (split; [apply Rmult_le_pos; lra|apply Rmult_le_compat; lra]).
    assert (G3 : 0 <= g * (12 * eta + (2 + 3 / 2 * S + 1)) <= 5 * u * 11.3) by (split; [apply Rmult_le_pos; lra|apply Rmult_le_compat; lra]). lra. }
  destruct (ffk_close double u eta g h OK ltac:(lra) ltac:(lra) ltac:(lra) ltac:(lra) ltac:(lra) r r' q q 2 (proj1 LK) JO (FloatIkDouble.rigid_sane _ _ RB LB) TO NR JN) as [(T & T' & F1 & F2 & F3) _]; rewrite ?ND, ?SP; fold E; fold F; [lra|lra|].
  rewrite ND, SP in F3. fold E in F3. fold F in F3. exists T, T'. split; [exact F1|]. split; [exact F2|].
  assert (RT : rigid T) by (eapply fk_rigid; [apply LK|exact RB|exact RTl|exact F1]). split; [exact RT|]. split.
  - assert (CL : close (2900 * u) (9000 * u) T T').
    { unfold small_tool in ST. destruct (r_tool r) as [[cc tip]|]; revert F3; apply close_le; try lra.
      destruct ST as [_ LT]. pose proof (len_nonneg (pos tip)) as L0. set (L := len (pos tip)) in *. assert (E * L <= 1258 * u * (1 / 2)) by (apply Rmult_le_compat; lra). assert (0 <= u * L <= u * (1 / 2)) by (split; [apply Rmult_le_pos; lra|apply Rmult_le_compat_l; lra]).
      assert (g * (2 * L + 4 * (u * L + eta) + (2 + 3 / 2 * S) + F) <= 5 * u * 12) by (apply Rmult_le_compat; lra). lra. }
    destruct CL as ((c00 & c01 & c02 & c10 & c11 & c12 & c20 & c21 & c22) & CP & CB & CW). destruct RT as [_ B W]. unfold tnear, mnear, vnear. rewrite CB, CW. tauto.
  - unfold q in F1. rewrite (rail_fk_mount 0.18 0.6 0.62 0.115) in F1 by auto. injection F1 as <-. destruct (kuka_form_centre 0.18 0.6 0.62 0.115 q1 q2 q3 q4 q5 q6) as (CF & _ & RF). cbv zeta in *. set (X := kuka_form _ _ _ _ _ _ _ _ _ _) in *.
    rewrite (pos_tapply (mount r _)), tapply_rail by auto. set (w := match r_tool r with Some _ => _ | None => _ end).
    assert (LW : len w <= 1 / 2). { unfold w, small_tool in *. destruct (r_tool r) as [[cc tip]|]; [rewrite <- pos_tapply; apply ST|]. unfold len, norm2, vdot, v0. cbn [vx vy vz]. replace (0 * 0 + 0 * 0 + 0 * 0) with 0 by ring. rewrite sqrt_0. lra. }
    rewrite pos_tmul, len_tapply by auto. rewrite (pos_tapply (rail_form q0)), len_tapply by auto. replace (vsub (tapply X w) v0) with (tapply X w) by (generalize (tapply X w); intros; vring).
    rewrite (tapply_centre 0.115 X), CF. eapply Rle_trans; [apply len_add|]. rewrite len_rot by apply RF.
    assert (L2 : len (vadd w (V3 0 0 0.115)) <= 0.615). { pose proof (len_add w (V3 0 0 0.115)) as Z. replace (len (V3 0 0 0.115)) with 0.115 in Z; [lra|]. unfold len, norm2, vdot. cbn [vx vy vz]. replace (0 * 0 + 0 * 0 + 0.115 * 0.115) with (0.115 ^ 2) by lra. rewrite sqrt_pow2; lra. }
    pose proof (kuka_centre_len q1 q2 q3). lra.
Qed.

(** ** tests/test_robot.py:363-399: fk, ik, fk *)
Lemma double_coarse : ik_ok double_ik (10 * u64) eta64 (5 * u64) (10 * eta64).
Proof. pose proof u64_pos. apply (ik_mono _ u64); [lra|]. apply double_ik_ok. Qed.
Lemma tnear_coarse p q T T' : tnear u64 p q T T' -> tnear (10 * u64) (p / 10) (q / 10) T T'.
Proof. unfold tnear. replace (p / 10 * (10 * u64)) with (p * u64) by field. replace (q / 10 * (10 * u64)) with (q * u64) by field. auto. Qed.
Lemma rail_roundtrip rl rl' q0 q1 q2 q3 q4 q5 q6 : rail_std rl -> rail_near u64 eta64 rl rl' -> Rabs q0 <= 4 -> let (rob1, T1) := ffk double (rl_rob rl') [q0; q1; q2; q3; q4; q5; q6] in
  exists T1' sols, T1 = Ok T1' /\ snd (frail_ik double_ik (Rl rob1 (rl_kuka rl')) T1' q0) = Ok (IkOk (Own sols)) /\ (length sols = 4 \/ length sols = 8)%nat /\
  rail_near (10 * u64) eta64 rl (fst (frail_ik double_ik (Rl rob1 (rl_kuka rl')) T1' q0)) /\
  forall p0 p1 p2 p3 p4 p5 p6, In [p0; p1; p2; p3; p4; p5; p6] sols -> p0 = q0 /\
    (7e-2 <= Rabs (sin p5) -> 1e-3 <= Rabs (cos p3) -> forall rl3, rail_near (10 * u64) eta64 rl rl3 -> exists T2', snd (ffk double (rl_rob rl3) [p0; p1; p2; p3; p4; p5; p6]) = Ok T2' /\ close 1.5e-7 1.5e-7 T1' T2').
Proof.
  intros RS RN H0. pose proof u64_pos as U0. pose proof eta64_pos as E0. pose proof u64_le as U1. pose proof eta64_le as E1. pose proof eta64_sq as E2.
  assert (Hu : 0 < 10 * u64 <= 1e-13) by lra. assert (He : 0 <= eta64 <= (10 * u64) ^ 2) by (replace ((10 * u64) ^ 2) with (100 * u64 ^ 2) by ring; pose proof (pow2_ge_0 u64); lra).
  pose proof RS as [RO RB RL RT0]. pose proof (ro_rob _ _ _ _ _ RO) as LK. pose proof RN as (NR & NK & NT & NA). set (q := [q0; q1; q2; q3; q4; q5; q6]).
  destruct (ffk_rail u64 eta64 (5 * u64) (10 * eta64) (rl_rob rl) (rl_rob rl') q0 q1 q2 q3 q4 q5 q6 double_ok ltac:(lra) ltac:(lra) ltac:(lra) ltac:(lra) LK RB RL RT0 NR H0) as (T & T1' & F1 & F2 & RT & TN & LT). fold q in F1, F2.
  pose proof (ffk_near double_ik u64 eta64 _ _ q NR) as NR1. cbn [double_ik ar] in NR1. destruct (ffk double (rl_rob rl') q) as [rob1 T1]. cbn [fst snd] in *. subst T1. set (rl1 := Rl rob1 (rl_kuka rl')).
  assert (RN1 : rail_near (10 * u64) eta64 rl rl1) by (apply (rail_mono u64); [lra|]; split; [exact NR1|]; split; [exact NK|]; split; [exact NT|exact NA]).
  destruct (frail_e double_ik (10 * u64) eta64 (5 * u64) (10 * eta64) double_coarse Hu He ltac:(lra) ltac:(lra) (2900 / 10) (9000 / 10) ltac:(lra) ltac:(lra) rl rl1 q0 T T1' RS RN1 RT H0 LT (tnear_coarse _ _ _ _ TN)) as [NK2 [[_ HF]|(sols & HS & HL & HQ)]].
  { exfalso. exact (HF q1 q2 q3 q4 q5 q6 F1). }
  exists T1', sols. split; [reflexivity|]. split; [exact HS|]. split; [exact HL|]. split; [exact NK2|]. intros p0 p1 p2 p3 p4 p5 p6 Hin.
  destruct (HQ _ Hin) as (r1 & r2 & r3 & r4 & r5 & r6 & F & Er & FF & _ & _ & HP). injection Er as E00 <- <- <- <- <- <-. split; [exact E00|]. subst p0. intros S5 C3 rl3 (NR3 & _).
  destruct (ffk_rail (10 * u64) eta64 (5 * u64) (10 * eta64) (rl_rob rl) (rl_rob rl3) q0 p1 p2 p3 p4 p5 p6 (io_ar _ _ _ _ _ double_coarse) Hu ltac:(lra) ltac:(lra) ltac:(lra) LK RB RL RT0 NR3 H0) as (F' & T2' & G1 & G2 & _ & TN2 & _). rewrite FF in G1. injection G1 as <-.
  exists T2'. split; [exact G2|]. destruct (HP 7e-2 ltac:(lra)) as [HR HX]. set (rr := 21300 * (2900 / 10 + 75) * (10 * u64 / 7e-2)) in *.
  assert (RH : rr <= 1.4e-7) by (unfold rr, Rdiv; lra).
  assert (PP : centre_err (10 * u64) p3 <= 1e-8) by (unfold centre_err; destruct (Rle_dec 1e-3 (Rabs (cos p3))); lra).
  pose proof (unit_entries _ _ _ HR) as ((h00 & h01 & h02) & (h10 & h11 & h12) & (h20 & h21 & h22)). destruct (len_comp (vsub (pos F) (pos T))) as (x0 & x1 & x2). unfold vsub in x0, x1, x2. cbn [vx vy vz] in x0, x1, x2.
  destruct TN as (((a00 & a01 & a02) & (a10 & a11 & a12) & (a20 & a21 & a22)) & (a0 & a1 & a2) & aB & aW). destruct TN2 as (((b00 & b01 & b02) & (b10 & b11 & b12) & (b20 & b21 & b22)) & (b0 & b1 & b2) & bB & bW).
  assert (Z : forall x x' y y' e f, Rabs (x' - x) <= e * u64 -> Rabs (y - x) <= f -> Rabs (y' - y) <= e * (10 * u64) -> e <= 9000 -> f <= 1.4e-7 -> Rabs (y' - x') <= 1.5e-7).
  { intros x x' y y' e f Hx Hf Hy Be Bf. assert (e * u64 <= 9000 * u64) by (apply Rmult_le_compat_r; lra). apply Rabs_le_inv in Hx. apply Rabs_le_inv in Hf. apply Rabs_le_inv in Hy. apply Rabs_le. lra. }
  split; [|split; [|split; congruence]].
  - repeat split; [exact (Z _ _ _ _ _ _ a00 h00 b00 ltac:(lra) ltac:(lra))|exact (Z _ _ _ _ _ _ a01 h01 b01 ltac:(lra) ltac:(lra))|exact (Z _ _ _ _ _ _ a02 h02 b02 ltac:(lra) ltac:(lra))
      |exact (Z _ _ _ _ _ _ a10 h10 b10 ltac:(lra) ltac:(lra))|exact (Z _ _ _ _ _ _ a11 h11 b11 ltac:(lra) ltac:(lra))|exact (Z _ _ _ _ _ _ a12 h12 b12 ltac:(lra) ltac:(lra))
      |exact (Z _ _ _ _ _ _ a20 h20 b20 ltac:(lra) ltac:(lra))|exact (Z _ _ _ _ _ _ a21 h21 b21 ltac:(lra) ltac:(lra))|exact (Z _ _ _ _ _ _ a22 h22 b22 ltac:(lra) ltac:(lra))].
  - repeat split; [exact (Z _ _ _ _ _ _ a0 (Rle_trans _ _ _ x0 HX) b0 ltac:(lra) ltac:(lra))|exact (Z _ _ _ _ _ _ a1 (Rle_trans _ _ _ x1 HX) b1 ltac:(lra) ltac:(lra))|exact (Z _ _ _ _ _ _ a2 (Rle_trans _ _ _ x2 HX) b2 ltac:(lra) ltac:(lra))].
Qed.

(** ** Test data *)
Definition torch_rail : rail := Rl (set_tool (rl_rob rail0) (Some torch)) (rl_kuka rail0).
Lemma torch_rail_std : rail_std torch_rail /\ rail_near u64 eta64 torch_rail (round_rail torch_rail).
Proof.
  destruct rail0_std as [[[R1 R2 R3] RB RL _] (N1 & N2 & N3 & N4)]. destruct torch_std as [_ _ _ KT]. split; [split; [split; [|exact R2|exact R3]|exact RB|exact RL|exact KT]|].
  - destruct R1 as [G LL]. split; [destruct G; split; auto|exact LL].
  - destruct new_kuka_std as (_ & A1 & A2). apply round_rail_near; [reflexivity| |exact A1|exact A2]. pose proof PI_RGT_0. pose proof PI_4.
    unfold small_angles; cbn [torch_rail set_tool new_rail rl_rob KukaOnRail robot_init r_links]; repeat (apply Forall_cons; [split; apply Rabs_le; cbn [lr lp new_link l_dh dalpha dtheta]; lra|]); apply Forall_nil.
Qed.
(** the carriage at 1 m *)
Lemma carriage_case : exists rob1 T1 sols, ffk double (rl_rob (round_rail rail0)) [1; 0; 0; 0; PI / 2; PI / 2; 0] = (rob1, Ok T1) /\
  snd (frail_ik double_ik (Rl rob1 (rl_kuka (round_rail rail0))) T1 1) = Ok (IkOk (Own sols)) /\ (4 <= length sols)%nat.
Proof.
  destruct rail0_std as [RS RN]. pose proof (rail_roundtrip rail0 (round_rail rail0) 1 0 0 0 (PI / 2) (PI / 2) 0 RS RN ltac:(rewrite Rabs_R1; lra)) as H.
  destruct (ffk double (rl_rob (round_rail rail0)) [1; 0; 0; 0; PI / 2; PI / 2; 0]) as [rob1 T1]. destruct H as (T1' & sols & -> & HS & HL & _). exists rob1, T1', sols. split; [reflexivity|]. split; [exact HS|lia].
Qed.
(** a pose 2.5 m beside the carriage *)
Lemma beside_far : snd (frail_ik double_ik (round_rail rail0) (M4 mid (V3 2.5 0 0) v0 1) 0) = Ok IkFail.
Proof.
  destruct rail0_std as [RS RN]. pose proof u64_pos as U0. pose proof eta64_pos as E0. pose proof u64_le as U1. pose proof eta64_le as E1. pose proof eta64_sq as E2.
  assert (RT : rigid (M4 mid (V3 2.5 0 0) v0 1)) by (split; [apply mid_rotation|reflexivity|reflexivity]).
  assert (L25 : len (V3 2.5 0 0) = 2.5) by (unfold len, norm2, vdot; cbn [vx vy vz]; replace (2.5 * 2.5 + 0 * 0 + 0 * 0) with (2.5 ^ 2) by lra; apply sqrt_pow2; lra).
  assert (Z : Rabs 0 <= 2 * u64) by (rewrite Rabs_R0; lra). assert (Z3 : Rabs 0 <= 3 * u64) by (rewrite Rabs_R0; lra).
  apply (frail_far double_ik u64 eta64 (5 * u64) (10 * eta64) double_ik_ok ltac:(lra) ltac:(lra) ltac:(lra) ltac:(lra) 2 3 ltac:(lra) ltac:(lra) rail0 (round_rail rail0) 0 (M4 mid (V3 2.5 0 0) v0 1)); auto.
  - rewrite Rabs_R0. lra.
  - cbn [new_rail rl_rob KukaOnRail robot_init r_tfb]. rewrite tmul_1_l. unfold rail_form. cbn [pos]. replace (vsub (V3 2.5 0 0) (V3 0 0 0)) with (V3 2.5 0 0) by (unfold vsub; cbn [vx vy vz]; f_equal; ring). lra.
  - unfold tnear, mnear, vnear. cbn [rot pos brow bww]. rewrite !Rminus_eq_0. repeat split; auto.
  - assert (E : vx (centre 0.115 (from_carriage rail0 0 (M4 mid (V3 2.5 0 0) v0 1))) = 2.5).
    { unfold from_carriage, unmount. cbn [new_rail rl_rob KukaOnRail robot_init r_tfb r_tool]. replace (tf_inverse eye4) with eye4. 2:{ unfold tf_inverse, eye4, mtr, mopp, mapply. cbn. unfold v0, mid. apply mat4_eq; [apply mat3_eq|apply vec3_eq|apply vec3_eq|]; cbn; ring. }
      rewrite tmul_1_l.
      assert (I : tf_inverse (rail_form 0) = M4 (M3 1 0 0 0 0 1 0 (-1) 0) (V3 0 0 0) v0 1).
      { unfold tf_inverse, rail_form. cbv zeta. unfold mtr. cbn [rot pos m00 m01 m02 m10 m11 m12 m20 m21 m22]. f_equal. unfold mapply, mopp. cbn [vx vy vz m00 m01 m02 m10 m11 m12 m20 m21 m22]. f_equal; lra. }
      rewrite I, tmul_blocks by reflexivity. cbn [rot pos]. unfold centre. cbn [rot pos vx vsub vscale vadd mapply mmul mid col2 m00 m01 m02 m10 m11 m12 m20 m21 m22 vy vz]. lra. }
    destruct (len_comp (centre 0.115 (from_carriage rail0 0 (M4 mid (V3 2.5 0 0) v0 1)))) as (C & _). rewrite E in C. rewrite (abs_ge 2.5) in C by lra. lra.
Qed.
