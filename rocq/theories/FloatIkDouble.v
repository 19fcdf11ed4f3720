(** * Kuka.ik in double precision, and forward kinematics after it. *)
From Coq Require Import Reals Lra Lia Psatz List Bool Arith ZArith.
From Flocq Require Import Core.
From Verif Require Import PyBase Mat Util UtilProofs Geometry GeometryProofs Robot RobotProofs RobotForms Ik IkProofs KukaProofs PumaProofs Motion Resources ResourcesProofs TaskProofs Mount FloatFk FloatFkProofs FloatIk FloatIkProofs FloatIkArm FloatIkWrist FloatIkKuka.
Import ListNotations.
Local Open Scope R_scope.

(** sums from the left, every operation rounded; square root and angle correctly rounded *)
Definition double_ik : arith_ik := Ai double (fun x => rnd64 (x * x)) (fun x => rnd64 (sqrt x)) (fun y x => rnd64 (atan2 y x))
  (fun a0 a1 a2 b0 b1 b2 => rnd64 (rnd64 (rnd64 (a0 * b0) + rnd64 (a1 * b1)) + rnd64 (a2 * b2))) (rnd64 PI).
Lemma eta64_sq : eta64 <= u64 ^ 2.
Proof. unfold eta64, u64. replace (bpow radix2 (-53) ^ 2) with (bpow radix2 (-106)) by (change (-106)%Z with (-53 + -53)%Z; rewrite bpow_plus; ring). apply bpow_le. lia. Qed.
Lemma rnd64_pos x : 0 <= x -> 0 <= rnd64 x.
Proof. intros H. unfold rnd64. apply round_ge_generic; auto; [apply FLT_exp_valid; red; lia|apply valid_rnd_N|apply generic_format_0]. Qed.
Lemma PI_le : PI <= 3.15.
Proof.
  assert (C : cos 1.575 < 0).
  { destruct (pre_cos_bound 1.575 1) as [_ CU]; try lra. eapply Rle_lt_trans; [exact CU|]. unfold cos_approx, cos_term. cbn [sum_f_R0 pow Nat.mul Nat.add].
    replace (INR (fact 0)) with 1 by reflexivity. replace (INR (fact 2)) with 2 by (cbn; lra). replace (INR (fact 4)) with 24 by (cbn; lra). replace (INR (fact 6)) with 720 by (rewrite INR_IZR_INZ; reflexivity). replace (INR (fact 8)) with 40320 by (rewrite INR_IZR_INZ; reflexivity). lra. }
  destruct (Rle_dec PI 3.15); auto. assert (0 <= cos 1.575) by (apply cos_ge_0; lra). lra.
Qed.
Lemma double_ik_ok : ik_ok double_ik u64 eta64 (5 * u64) (10 * eta64).
Proof.
  pose proof u64_pos as U0. pose proof eta64_pos as E0. pose proof u64_le as U1. pose proof eta64_le as E1. pose proof PI_le. pose proof PI_RGT_0.
  assert (AB : forall y x, Rabs (atan2 y x) <= 3.15) by (intros; pose proof (atan2_bound y x); apply Rabs_le; lra).
  constructor; cbn [double_ik ar fsq fsqrt fatan2 fdot3 fpi].
  - exact double_ok.
  - exact rnd64_pos.
  - intros x. replace (x ^ 2) with (x * x) by ring. pose proof (rnd64_err (x * x)) as Z. rewrite (Rabs_right (x * x)) in Z by nra. assert (0 <= u64 * (x * x)) by (apply Rmult_le_pos; nra). lra.
  - intros x. apply rnd64_pos. nra.
  - cbn [double rnd]. replace (-1 * -1) with 1 by ring. rewrite Rmult_1_r, rnd64_1, Rminus_eq_0, rnd64_0. auto.
  - intros x Hx. pose proof (rnd64_err (sqrt x)) as Z. rewrite (Rabs_right (sqrt x)) in Z by (apply Rle_ge, sqrt_pos). exact Z.
  - intros y x. exists (atan2 y x). destruct (polar x y) as [P1 P2]. split; [rewrite Rmult_comm; auto|]. split; [rewrite Rmult_comm; auto|]. apply rnd64_angle. pose proof (AB y x). lra.
  - intros y x. pose proof (AB y x). pose proof (rnd64_angle (atan2 y x) ltac:(lra)) as Z. pose proof (abs_tri _ _ _ Z). lra.
  - intros a0 a1 a2 b0 b1 b2. pose proof (sum_err (a0 * b0) (a1 * b1) (a2 * b2) 0) as Z. rewrite rnd64_0, !Rplus_0_r, Rabs_R0 in Z.
    replace (rnd64 (rnd64 (rnd64 (rnd64 (a0 * b0) + rnd64 (a1 * b1)) + rnd64 (a2 * b2)))) with (rnd64 (rnd64 (rnd64 (a0 * b0) + rnd64 (a1 * b1)) + rnd64 (a2 * b2))) in Z; [lra|].
    unfold rnd64. symmetry. apply round_generic; [apply valid_rnd_N|]. apply generic_format_round; [apply FLT_exp_valid; red; lia|apply valid_rnd_N].
  - apply rnd64_angle. rewrite Rabs_right; lra.
Qed.

(** ** Forward kinematics of the same robot *)
Lemma row_len a b c : a ^ 2 + b ^ 2 + c ^ 2 = 1 -> len (V3 a b c) = 1.
Proof. intros H. unfold len, norm2, vdot. cbn [vx vy vz]. replace (a * a + b * b + c * c) with (a ^ 2 + b ^ 2 + c ^ 2) by ring. rewrite H. apply sqrt_1. Qed.
Lemma rot_cols M : rotation M -> len (col0 M) = 1 /\ len (col1 M) = 1 /\ len (col2 M) = 1.
Proof.
  intros H. assert (K : forall v, norm2 v = 1 -> len (mapply M v) = 1) by (intros v Hv; rewrite len_rot by auto; unfold len; rewrite Hv; apply sqrt_1).
  replace (col0 M) with (mapply M (V3 1 0 0)) by (generalize M; intros; vring). replace (col1 M) with (mapply M (V3 0 1 0)) by (generalize M; intros; vring). replace (col2 M) with (mapply M (V3 0 0 1)) by (generalize M; intros; vring).
  repeat split; apply K; unfold norm2, vdot; cbn; ring.
Qed.
Lemma rigid_sane T b : rigid T -> len (pos T) <= b -> sane b T.
Proof.
  intros [RM B W] L. destruct (rot_cols _ (rotation_tr _ RM)) as (a & c & d). unfold sane. split; [|split; [apply vle_len; auto|auto]].
  assert (E : len (row0 (rot T)) = 1 /\ len (row1 (rot T)) = 1 /\ len (row2 (rot T)) = 1) by (repeat split; assumption). lra.
Qed.
Lemma kuka_span r q1 q2 q3 q4 q5 q6 : like r (Kuka 0.18 0.6 0.62 0.115) -> span (r_links r) [q1; q2; q3; q4; q5; q6] = 1.515.
Proof.
  intros [_ LL]. rewrite (like_span _ _ _ LL). cbn [span Kuka robot_init r_links lr new_link l_jt l_dh da dd]. rewrite ?Rabs_R0, (abs_ge 0.18), (abs_ge 0.6), (abs_ge 0.62), (abs_ge 0.115) by lra. lra.
Qed.
Lemma ffk_std r r' q1 q2 q3 q4 q5 q6 : like r (Kuka 0.18 0.6 0.62 0.115) -> rigid (r_tfb r) -> len (pos (r_tfb r)) <= 2 -> small_tool r -> robot_near u64 eta64 r r' -> let q := [q1; q2; q3; q4; q5; q6] in
  exists T T', snd (fk r q) = Ok T /\ snd (ffk double r' q) = Ok T' /\ rigid T /\ tnear u64 2300 5000 T T' /\ len (vsub (pos T) (pos (r_tfb r))) <= 3.
Proof.
  intros LK RB LB ST NR q. pose proof u64_pos as U0. pose proof eta64_pos as E0. pose proof u64_le as U1. pose proof eta64_le as E1. pose proof (small_rigid _ ST) as RTl.
  assert (LL : map dhjt (r_links r) = map dhjt (r_links (Kuka 0.18 0.6 0.62 0.115))) by apply LK.
  assert (JO : joints_ok r) by (apply (like_joints_ok r (Kuka 0.18 0.6 0.62 0.115)); auto; repeat constructor; discriminate).
  assert (ND : ndof r = 6%nat) by (unfold ndof; rewrite <- (map_length dhjt), LL; reflexivity).
  assert (JN : joints_near u64 eta64 (r_links r) q q).
  { revert LL. generalize (r_links r). intros ls E. destruct ls as [|l1 [|l2 [|l3 [|l4 [|l5 [|l6 [|]]]]]]]; try discriminate E. cbn in E. injection E. intros J6 _ J5 _ J4 _ J3 _ J2 _ J1 _.
    assert (Z : forall x, Rabs (x - x) <= 4 * u64) by (intros; rewrite Rminus_eq_0, Rabs_R0; lra). repeat constructor; unfold joint_near; [rewrite J1|rewrite J2|rewrite J3|rewrite J4|rewrite J5|rewrite J6]; apply Z. }
  pose proof (kuka_span r q1 q2 q3 q4 q5 q6 LK) as SP. fold q in SP.
  assert (TO : tool_ok r). { unfold tool_ok, small_tool in *. destruct (r_tool r) as [[cc tip]|]; auto. destruct ST as [[RM B W] L]. destruct (rot_cols _ RM) as (c0 & c1 & c2). rewrite B, W. repeat split; lra. }
  assert (UU : u64 * u64 <= u64 / 1000) by nra. assert (UE : u64 * eta64 <= u64 / 1000000) by nra. assert (UE0 : 0 <= u64 * eta64) by nra. assert (UU0 : 0 <= u64 * u64) by nra.
  set (E := rot_bound u64 eta64 (5 * u64) (10 * eta64) 6). assert (EB : 0 <= E <= 1079 * u64) by (unfold E, rot_bound, kap; cbn [INR]; lra).
  assert (EU : 0 <= E * u64 <= 1079 * (u64 * u64)) by (split; nra).
  set (F := pos_bound u64 eta64 (5 * u64) (10 * eta64) 6 1.515 2). assert (FB : 0 <= F <= 2000 * u64). { unfold F, pos_bound. fold E. cbn [INR]. lra. }
  destruct (ffk_close double u64 eta64 (5 * u64) (10 * eta64) double_ok ltac:(lra) ltac:(lra) ltac:(lra) ltac:(lra) ltac:(lra) r r' q q 2 (proj1 LK) JO (rigid_sane _ _ RB LB) TO NR JN) as [(T & T' & F1 & F2 & F3) _]; rewrite ?ND, ?SP; fold E; fold F; [lra|lra|].
  rewrite ND, SP in F3. fold E in F3. fold F in F3. exists T, T'. split; [exact F1|]. split; [exact F2|].
  assert (RT : rigid T) by (eapply fk_rigid; [apply LK|exact RB|exact RTl|exact F1]). split; [exact RT|]. split.
  - assert (CL : close (2300 * u64) (5000 * u64) T T').
    { unfold small_tool in ST. destruct (r_tool r) as [[cc tip]|]; revert F3; apply close_le; try lra.
      destruct ST as [_ LT]. pose proof (len_nonneg (pos tip)) as L0. set (L := len (pos tip)) in *. assert (E * L <= E * (1 / 2)) by (apply Rmult_le_compat_l; lra). assert (0 <= u64 * L <= u64 * (1 / 2)) by (split; [apply Rmult_le_pos; lra|apply Rmult_le_compat_l; lra]).
      assert (5 * u64 * (2 * L + 4 * (u64 * L + eta64) + (2 + 3 / 2 * 1.515) + F) <= 5 * u64 * 6) by (apply Rmult_le_compat_l; lra). lra. }
    destruct CL as ((c00 & c01 & c02 & c10 & c11 & c12 & c20 & c21 & c22) & CP & CB & CW). destruct RT as [_ B W]. unfold tnear, mnear, vnear. rewrite CB, CW. tauto.
  - unfold q in F1. rewrite (kuka_fk_mount 0.18 0.6 0.62 0.115) in F1 by auto. injection F1 as <-. destruct (kuka_form_centre 0.18 0.6 0.62 0.115 q1 q2 q3 q4 q5 q6) as (CF & _ & RF). cbv zeta in *. set (X := kuka_form _ _ _ _ _ _ _ _ _ _) in *.
    rewrite (pos_tapply (mount r X)), tapply_mount by auto. set (w := match r_tool r with Some _ => _ | None => _ end).
    assert (LW : len w <= 1 / 2). { unfold w, small_tool in *. destruct (r_tool r) as [[cc tip]|]; [rewrite <- pos_tapply; apply ST|]. unfold len, norm2, vdot, v0. cbn [vx vy vz]. replace (0 * 0 + 0 * 0 + 0 * 0) with 0 by ring. rewrite sqrt_0. lra. }
    rewrite (pos_tapply (r_tfb r)), len_tapply by auto. replace (vsub (tapply X w) v0) with (tapply X w) by (generalize (tapply X w); intros; vring).
    rewrite (tapply_centre 0.115 X), CF. eapply Rle_trans; [apply len_add|]. rewrite len_rot by apply RF.
    assert (L2 : len (vadd w (V3 0 0 0.115)) <= 0.615). { pose proof (len_add w (V3 0 0 0.115)) as Z. replace (len (V3 0 0 0.115)) with 0.115 in Z; [lra|]. unfold len, norm2, vdot. cbn [vx vy vz]. replace (0 * 0 + 0 * 0 + 0.115 * 0.115) with (0.115 ^ 2) by lra. rewrite sqrt_pow2; lra. }
    assert (L3 : len (kuka_centre 0.18 0.6 0.62 q1 q2 q3) <= 1.4); [|lra].
    replace (kuka_centre 0.18 0.6 0.62 q1 q2 q3) with (vadd (vadd (vscale 0.18 (V3 (cos q1) (sin q1) 0)) (vscale 0.6 (V3 (cos q1 * cos q2) (sin q1 * cos q2) (sin q2)))) (vscale 0.62 (V3 (cos q1 * sin (q2 + q3)) (sin q1 * sin (q2 + q3)) (- cos (q2 + q3)))))
      by (unfold kuka_centre, vadd, vscale; cbn [vx vy vz]; f_equal; lra).
    assert (LS : forall a v, 0 <= a -> norm2 v = 1 -> len (vscale a v) = a). { intros a v Ha Hv. unfold len. replace (norm2 (vscale a v)) with (a ^ 2 * norm2 v) by vring. rewrite Hv, Rmult_1_r. apply sqrt_pow2. auto. }
    pose proof (sin2_cos2 q1) as T1. pose proof (sin2_cos2 q2) as T2. pose proof (sin2_cos2 (q2 + q3)) as T3. unfold Rsqr in *.
    eapply Rle_trans; [apply len_add|]. eapply Rle_trans; [apply Rplus_le_compat_r, len_add|]. rewrite !LS; try lra; unfold norm2, vdot; cbn [vx vy vz].
    all: match goal with |- ?a = 1 => first [replace a with (sin q1 * sin q1 + cos q1 * cos q1) by ring; exact T1
      |replace a with ((sin q1 * sin q1 + cos q1 * cos q1) * (sin (q2 + q3) * sin (q2 + q3)) + cos (q2 + q3) * cos (q2 + q3)) by ring; rewrite T1; lra
      |replace a with ((sin q1 * sin q1 + cos q1 * cos q1) * (cos q2 * cos q2) + sin q2 * sin q2) by ring; rewrite T1; lra] end.
Qed.

(** ** tests/test_robot.py:307-323: fk, ik, fk *)
Lemma unit_entries M N e : (forall v, len (vsub (mapply N v) (mapply M v)) <= e * len v) -> mnear e M N.
Proof.
  intros H. assert (K : forall v, norm2 v = 1 -> vnear e (mapply M v) (mapply N v)).
  { intros v Hv. specialize (H v). replace (len v) with 1 in H by (unfold len; rewrite Hv, sqrt_1; auto). rewrite Rmult_1_r in H. destruct (vle_len _ _ H) as (a & b & c). unfold vnear, vsub in *. auto. }
  pose proof (K (V3 1 0 0)) as K0. pose proof (K (V3 0 1 0)) as K1. pose proof (K (V3 0 0 1)) as K2. unfold vnear, mapply, norm2, vdot in K0, K1, K2. cbn [vx vy vz] in *.
  specialize (K0 ltac:(ring)). specialize (K1 ltac:(ring)). specialize (K2 ltac:(ring)). rewrite !Rmult_0_r, !Rmult_1_r, !Rplus_0_r, ?Rplus_0_l in *. unfold mnear. rewrite ?Rplus_0_l in *. tauto.
Qed.
Lemma roundtrip k k' q1 q2 q3 q4 q5 q6 : kuka_std k -> kuka_near u64 eta64 k k' -> let (rob1, T1) := ffk double (k_rob k') [q1; q2; q3; q4; q5; q6] in
  exists T1' sols, T1 = Ok T1' /\ snd (fkuka_ik double_ik (Kk rob1 (k_arm k') (k_wrist k')) T1') = Ok (IkOk (Own sols)) /\ (length sols = 4 \/ length sols = 8)%nat /\
  let k2 := fst (fkuka_ik double_ik (Kk rob1 (k_arm k') (k_wrist k')) T1') in kuka_near u64 eta64 k k2 /\
  forall p1 p2 p3 p4 p5 p6, In [p1; p2; p3; p4; p5; p6] sols -> 2e-2 <= Rabs (sin p5) -> 1e-3 <= Rabs (cos p3) ->
    forall k3, kuka_near u64 eta64 k k3 -> exists T2', snd (ffk double (k_rob k3) [p1; p2; p3; p4; p5; p6]) = Ok T2' /\ close 1.5e-7 1.5e-7 T1' T2'.
Proof.
  intros KS NK. pose proof u64_pos as U0. pose proof eta64_pos as E0. pose proof u64_le as U1. pose proof eta64_le as E1. pose proof eta64_sq as E2.
  assert (Hu : 0 < u64 <= 1e-13) by lra. assert (He : 0 <= eta64 <= u64 ^ 2) by lra.
  pose proof KS as [KO KB KL KT]. pose proof (ko_rob _ _ _ _ _ KO) as LK. destruct NK as [NR NA]. set (q := [q1; q2; q3; q4; q5; q6]).
  destruct (ffk_std (k_rob k) (k_rob k') q1 q2 q3 q4 q5 q6 LK KB KL KT NR) as (T & T1' & F1 & F2 & RT & TN & LT). fold q in F1, F2. pose proof (ffk_near double_ik u64 eta64 _ _ q NR) as NR1. cbn [double_ik ar] in NR1.
  destruct (ffk double (k_rob k') q) as [rob1 T1]. cbn [fst snd] in *. subst T1. set (k1 := Kk rob1 (k_arm k') (k_wrist k')).
  assert (NK1 : kuka_near u64 eta64 k k1) by (split; auto).
  destruct (fkuka_e double_ik u64 eta64 (5 * u64) (10 * eta64) double_ik_ok Hu He ltac:(lra) ltac:(lra) 2300 5000 ltac:(lra) ltac:(lra) k k1 T T1' KS NK1 RT LT TN) as [NK2 [[_ HF]|(sols & HS & HL & HQ)]].
  { exfalso. exact (HF q1 q2 q3 q4 q5 q6 F1). }
  exists T1', sols. split; [reflexivity|]. split; [exact HS|]. split; [exact HL|]. split; [exact NK2|]. intros p1 p2 p3 p4 p5 p6 Hin S5 C3 k3 [NR3 _].
  destruct (HQ _ Hin) as (r1 & r2 & r3 & r4 & r5 & r6 & F & Er & FF & _ & _ & HP). injection Er as <- <- <- <- <- <-.
  destruct (ffk_std (k_rob k) (k_rob k3) p1 p2 p3 p4 p5 p6 LK KB KL KT NR3) as (F' & T2' & G1 & G2 & _ & TN2 & _). rewrite FF in G1. injection G1 as <-.
  exists T2'. split; [exact G2|]. destruct (HP 2e-2 ltac:(lra)) as [HR HX].
  assert (RH : rho u64 2300 2e-2 <= 1.1e-7). { unfold rho. unfold Rdiv. lra. }
  assert (PP : centre_err u64 p3 <= 1e-9) by (unfold centre_err; destruct (Rle_dec 1e-3 (Rabs (cos p3))); lra).
  pose proof (unit_entries _ _ _ HR) as ((h00 & h01 & h02) & (h10 & h11 & h12) & (h20 & h21 & h22)). destruct (len_comp (vsub (pos F) (pos T))) as (x0 & x1 & x2). unfold vsub in x0, x1, x2. cbn [vx vy vz] in x0, x1, x2. 
  destruct TN as (((a00 & a01 & a02) & (a10 & a11 & a12) & (a20 & a21 & a22)) & (a0 & a1 & a2) & aB & aW). destruct TN2 as (((b00 & b01 & b02) & (b10 & b11 & b12) & (b20 & b21 & b22)) & (b0 & b1 & b2) & bB & bW).
  assert (Z : forall x x' y y' e f, Rabs (x' - x) <= e * u64 -> Rabs (y - x) <= f -> Rabs (y' - y) <= e * u64 -> e <= 5000 -> f <= 1.2e-7 -> Rabs (y' - x') <= 1.5e-7).
  { intros x x' y y' e f Hx Hf Hy Be Bf. assert (e * u64 <= 5000 * u64) by (apply Rmult_le_compat_r; lra). apply Rabs_le_inv in Hx. apply Rabs_le_inv in Hf. apply Rabs_le_inv in Hy. apply Rabs_le. lra. }
  set (rr := rho u64 2300 2e-2) in *.
  split; [|split; [|split; congruence]].
  - repeat split; [exact (Z _ _ _ _ _ _ a00 h00 b00 ltac:(lra) ltac:(lra))|exact (Z _ _ _ _ _ _ a01 h01 b01 ltac:(lra) ltac:(lra))|exact (Z _ _ _ _ _ _ a02 h02 b02 ltac:(lra) ltac:(lra))
      |exact (Z _ _ _ _ _ _ a10 h10 b10 ltac:(lra) ltac:(lra))|exact (Z _ _ _ _ _ _ a11 h11 b11 ltac:(lra) ltac:(lra))|exact (Z _ _ _ _ _ _ a12 h12 b12 ltac:(lra) ltac:(lra))
      |exact (Z _ _ _ _ _ _ a20 h20 b20 ltac:(lra) ltac:(lra))|exact (Z _ _ _ _ _ _ a21 h21 b21 ltac:(lra) ltac:(lra))|exact (Z _ _ _ _ _ _ a22 h22 b22 ltac:(lra) ltac:(lra))].
  - repeat split; [exact (Z _ _ _ _ _ _ a0 (Rle_trans _ _ _ x0 HX) b0 ltac:(lra) ltac:(lra))|exact (Z _ _ _ _ _ _ a1 (Rle_trans _ _ _ x1 HX) b1 ltac:(lra) ltac:(lra))|exact (Z _ _ _ _ _ _ a2 (Rle_trans _ _ _ x2 HX) b2 ltac:(lra) ltac:(lra))].
Qed.

(** ** Test data: a robot with its standard dimensions rounded to doubles, and a pose whose approach axis is square to the plane of the arm *)
Definition round_kuka (k : kuka) : kuka := Kk (round_robot (k_rob k)) (round_robot (k_arm k)) (k_wrist k).
Definition small_angles (r : robot) : Prop := Forall (fun l => Rabs (dalpha (l_dh l)) <= 3.9 /\ Rabs (dtheta (l_dh l)) <= 3.9) (r_links r).
Lemma round_kuka_near k : small_angles (k_rob k) -> small_angles (k_arm k) -> kuka_near u64 eta64 k (round_kuka k).
Proof. intros. split; apply round_robot_near; auto. Qed.
Lemma new_kuka_std : kuka_std (new_kuka 0.18 0.6 0.62 0.115) /\ small_angles (k_rob (new_kuka 0.18 0.6 0.62 0.115)) /\ small_angles (k_arm (new_kuka 0.18 0.6 0.62 0.115)).
Proof.
  split; [split; [apply new_kuka_ok|apply rigid_eye| |exact I]|].
  - cbn. unfold len, norm2, vdot, eye4, v0. cbn. replace (0 * 0 + 0 * 0 + 0 * 0) with 0 by ring. rewrite sqrt_0. lra.
  - pose proof PI_RGT_0. pose proof PI_4. split; unfold small_angles; cbn [new_kuka k_rob k_arm Kuka Arm2 robot_init r_links]; repeat (apply Forall_cons; [split; apply Rabs_le; cbn [lr new_link l_dh dalpha dtheta]; lra|]); apply Forall_nil.
Qed.
Definition with_torch (k : kuka) : kuka := Kk (set_tool (k_rob k) (Some torch)) (k_arm k) (k_wrist k).
Lemma torch_std : kuka_std (with_torch (new_kuka 0.18 0.6 0.62 0.115)).
Proof.
  destruct new_kuka_std as [[[[G LL] KA B0 T0] KB KL _] _]. split; [split; [split; [destruct G; split; auto|exact LL]|exact KA|exact B0|exact T0]|exact KB|exact KL|]. unfold small_tool. cbn [with_torch k_rob set_tool r_tool torch]. split; [apply torch_rigid|].
  rewrite tip_place. unfold in_plane, len. destruct (abs_1 angle2) as [a b]. apply Rabs_le_inv in a. apply Rabs_le_inv in b. set (x := 0.25 + 0.06 * cos angle2). set (y := 0.15 + 0.11 * sin angle2).
  unfold norm2, vdot. cbn [vx vy vz]. pose proof (sin2_cos2 angle1) as T1. unfold Rsqr in T1.
  replace ((sin angle1 * x + cos angle1 * y) * (sin angle1 * x + cos angle1 * y) + 0 * 0 + (cos angle1 * x - sin angle1 * y) * (cos angle1 * x - sin angle1 * y)) with ((sin angle1 * sin angle1 + cos angle1 * cos angle1) * (x * x + y * y)) by ring.
  rewrite T1, <- (sqrt_pow2 (1 / 2)) by lra. apply sqrt_le_1_alt. assert (0.19 <= x <= 0.31) by (unfold x; lra). assert (0.04 <= y <= 0.26) by (unfold y; lra). nra.
Qed.
Lemma sq_range a b x : 0 <= a -> a <= x <= b -> a * a <= x ^ 2 <= b * b.
Proof. intros. split; nra. Qed.
Lemma sq_inv m n x : 0 <= x -> m <= x ^ 2 <= n -> 0.779 ^ 2 <= m -> n <= 0.781 ^ 2 -> 0.779 <= x <= 0.781.
Proof. intros H0 H1 H2 H3. split; apply Rsqr_incr_0_var; unfold Rsqr; try lra. Qed.
(** the approach axis square to the plane of the arm *)
Definition side_joints : list R := [0; 0; 0; PI / 2; PI / 2; 0].
Lemma side_case : let k := new_kuka 0.18 0.6 0.62 0.115 in exists T sols, snd (fk (k_rob k) side_joints) = Ok T /\ snd (fkuka_ik double_ik (round_kuka k) (round_frame T)) = Ok (IkOk (Own sols)) /\ (4 <= length sols)%nat /\
  forall q, In q sols -> exists F, snd (fk (k_rob k) q) = Ok F /\ (forall v, len (vsub (mapply (rot F) v) (mapply (rot T) v)) <= 1e-9 * len v) /\ len (vsub (pos F) (pos T)) <= 2e-9.
Proof.
  intros k. destruct new_kuka_std as (KS & A1 & A2). fold k in KS, A1, A2. pose proof (round_kuka_near k A1 A2) as KN.
  pose proof u64_pos as U0. pose proof eta64_pos as E0. pose proof u64_le as U1. pose proof eta64_le as E1. pose proof eta64_sq as E2.
  assert (Hu : 0 < u64 <= 1e-13) by lra. assert (He : 0 <= eta64 <= u64 ^ 2) by lra.
  pose proof KS as [KO KB KL KT]. pose proof (ko_rob _ _ _ _ _ KO) as LK. destruct KN as [NR NA].
  destruct (ffk_std (k_rob k) (k_rob (round_kuka k)) 0 0 0 (PI / 2) (PI / 2) 0 LK KB KL KT NR) as (T & _ & F1 & _ & RT & _ & LT). fold side_joints in F1.
  assert (FN : frame_near u64 eta64 T (round_frame T)) by (unfold frame_near, round_frame, rd; cbn [rot pos brow bww vx vy vz m00 m01 m02 m10 m11 m12 m20 m21 m22]; repeat split; apply rnd64_err).
  assert (LT3 : len (pos T) <= 3) by (cbn [k new_kuka k_rob Kuka robot_init r_tfb eye4 pos] in LT; replace (vsub (pos T) v0) with (pos T) in LT by (generalize (pos T); intros; vring); exact LT).
  pose proof (frame_tnear u64 eta64 Hu He _ _ _ RT FN (vle_len _ _ LT3)) as TN.
  destruct (fkuka_e double_ik u64 eta64 (5 * u64) (10 * eta64) double_ik_ok Hu He ltac:(lra) ltac:(lra) 2 (3 + 1) ltac:(lra) ltac:(lra) k (round_kuka k) T (round_frame T) KS (conj NR NA) RT LT TN) as [_ [[_ HF]|(sols & HS & HL & HQ)]].
  { exfalso. exact (HF _ _ _ _ _ _ F1). }
  exists T, sols. split; [exact F1|]. split; [exact HS|]. split; [lia|]. intros q Hq. destruct (HQ q Hq) as (q1 & q2 & q3 & q4 & q5 & q6 & F & -> & FF & HC & H5 & HP).
  set (X := unmount (k_rob k) T) in *. assert (EX : X = kuka_form 0.18 0.6 0.62 0.115 0 0 0 (PI / 2) (PI / 2) 0).
  { unfold X. unfold side_joints in F1. rewrite (kuka_fk_mount 0.18 0.6 0.62 0.115) in F1 by auto. injection F1 as <-. apply unmount_mount; auto. }
  destruct (kuka_form_centre 0.18 0.6 0.62 0.115 0 0 0 (PI / 2) (PI / 2) 0) as (CF & RF & _). cbv zeta in CF, RF. rewrite <- EX in CF, RF.
  assert (CX : centre 0.115 X = V3 0.78 0 (-0.62)) by (rewrite CF; unfold kuka_centre; rewrite Rplus_0_r, cos_0, sin_0; f_equal; lra).
  assert (C2 : col2 (rot X) = V3 0 (-1) 0).
  { rewrite RF, zyz_form. unfold arm2_rot, mmul, col2. cbn [m00 m01 m02 m10 m11 m12 m20 m21 m22]. rewrite Rplus_0_r, cos_0, sin_0, cos_PI2, sin_PI2. f_equal; ring. }
  rewrite CX in HC. rewrite C2 in H5.
  assert (CE : centre_err u64 q3 <= 4.1e-5) by (unfold centre_err; destruct (Rle_dec _ _); lra).
  destruct (vle_len _ _ (Rle_trans _ _ _ HC CE)) as (X0 & X1 & X2). unfold vsub, kuka_centre in X0, X1, X2. cbn [vx vy vz] in X0, X1, X2.
  unfold vdot, arm2_rot, col2 in H5. cbn [vx vy vz m02 m12 m22] in H5.
  set (r := 0.18 + 0.6 * cos q2 + 0.62 * sin (q2 + q3)) in *. set (z := 0.6 * sin q2 - 0.62 * cos (q2 + q3)) in *.
  apply Rabs_le_inv in X0. apply Rabs_le_inv in X1. apply Rabs_le_inv in X2.
  pose proof (sin2_cos2 q1) as T1. pose proof (sin2_cos2 q2) as T2. pose proof (sin2_cos2 (q2 + q3)) as T3. pose proof (sin2_cos2 q5) as T5. pose proof (sin2_cos2 q3) as T33. unfold Rsqr in *.
  assert (R2 : r ^ 2 = (cos q1 * r) ^ 2 + (sin q1 * r) ^ 2) by (replace ((cos q1 * r) ^ 2 + (sin q1 * r) ^ 2) with ((sin q1 * sin q1 + cos q1 * cos q1) * r ^ 2) by ring; rewrite T1; ring).
  assert (RA : 0.6083 <= r ^ 2 <= 0.6086) by (rewrite R2; split; nra).
  assert (S1 : (sin q1) ^ 2 <= 1e-8) by (assert ((sin q1 * r) ^ 2 <= 4.1e-5 ^ 2) by nra; assert (0.6083 * (sin q1) ^ 2 <= (sin q1 * r) ^ 2) by (replace ((sin q1 * r) ^ 2) with (r ^ 2 * (sin q1) ^ 2) by ring; apply Rmult_le_compat_r; [apply pow2_ge_0|lra]); lra).
  assert (S23 : (sin (q2 + q3)) ^ 2 <= 1) by nra.
  assert (C5 : (cos q5) ^ 2 <= 0.1).
  { assert (D : Rabs (cos q5) <= 0.01 + 0.01); [|rewrite <- (pow2_abs (cos q5)); pose proof (Rabs_pos (cos q5)); nra].
    apply (abs_le_add _ _ _ _ H5) || eapply Rle_trans; [apply (abs_le_add _ (cos q1 * sin (q2 + q3) * 0 + sin q1 * sin (q2 + q3) * -1 + - cos (q2 + q3) * 0) 0.01 0.01); [lra|]|lra].
    replace (cos q1 * sin (q2 + q3) * 0 + sin q1 * sin (q2 + q3) * -1 + - cos (q2 + q3) * 0) with (- (sin q1 * sin (q2 + q3))) by ring. rewrite Rabs_Ropp.
    eapply Rle_trans; [apply (abs_mul_le _ _ 0.001 1); [|apply abs_1]|lra]. apply Rsqr_incr_0_var; [|lra]. unfold Rsqr. rewrite <- Rabs_mult, Rabs_right; nra. }
  assert (S5 : 0.9 <= Rabs (sin q5)). { apply Rsqr_incr_0_var; [|apply Rabs_pos]. unfold Rsqr. rewrite <- Rabs_mult, Rabs_right; nra. }
  assert (SQ : (r - 0.18) ^ 2 + z ^ 2 = 0.7444 + 0.744 * sin q3).
  { unfold r, z. replace (sin q3) with (sin (q2 + q3) * cos q2 - cos (q2 + q3) * sin q2) by (replace q3 with ((q2 + q3) - q2) at 3 by ring; rewrite sin_minus; ring).
    transitivity (0.36 * (sin q2 * sin q2 + cos q2 * cos q2) + 0.3844 * (sin (q2 + q3) * sin (q2 + q3) + cos (q2 + q3) * cos (q2 + q3)) + 0.744 * (sin (q2 + q3) * cos q2 - cos (q2 + q3) * sin q2)); [lra|rewrite T2, T3; lra]. }
  assert (C3 : 1e-3 <= Rabs (cos q3)).
  { assert (RR : (0.779 <= r <= 0.781) \/ (-0.781 <= r <= -0.779)) by (destruct (Rle_lt_dec 0 r); [left; apply (sq_inv 0.6083 0.6086)|right; assert (0.779 <= - r <= 0.781) by (apply (sq_inv 0.6083 0.6086); lra)]; lra).
    assert (S3 : -0.1 <= sin q3 <= 0.8). { pose proof (sq_range 0.6199 0.6201 (- z) ltac:(lra) ltac:(lra)) as ZZ. destruct RR; [pose proof (sq_range 0.599 0.601 (r - 0.18) ltac:(lra) ltac:(lra))|pose proof (sq_range 0.959 0.961 (- (r - 0.18)) ltac:(lra) ltac:(lra))]; lra. }
    apply Rsqr_incr_0_var; [|apply Rabs_pos]. unfold Rsqr. rewrite <- Rabs_mult, Rabs_right; nra. }
  exists F. split; [exact FF|]. destruct (HP 0.9 ltac:(lra)) as [HR HX].
  assert (RH : rho u64 2 0.9 <= 1e-9) by (unfold rho, Rdiv; lra).
  split; [intros v; eapply Rle_trans; [apply HR|apply Rmult_le_compat_r; [apply len_nonneg|exact RH]]|]. unfold centre_err in HX. destruct (Rle_dec 1e-3 (Rabs (cos q3))); [lra|contradiction].
Qed.
