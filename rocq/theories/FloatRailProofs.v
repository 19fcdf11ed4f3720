(** * KukaOnRail.ik in floating point: the pose reached. *)
From Coq Require Import Reals Lra Lia Psatz List Bool Arith ZArith.
From Verif Require Import PyBase Mat Util UtilProofs Geometry GeometryProofs Robot RobotProofs RobotForms Ik IkProofs KukaProofs PumaProofs RailProofs Motion FloatFk FloatFkProofs FloatIk FloatIkProofs FloatIkArm FloatIkWrist FloatIkKuka FloatIkDouble FloatRail.
Import ListNotations.
Local Open Scope R_scope.

Section Core.
Context (A : arith_ik) (u eta g h : R) (OK : ik_ok A u eta g h).
Context (Hu : 0 < u <= 1e-13) (He : 0 <= eta <= u ^ 2) (Hg : 0 <= g <= 8 * u) (Hh : 0 <= h <= u).
Local Notation rn := (rnd (ar A)).
Local Notation tnear := (tnear u).

(** ** Kuka.ik once its target is known *)
Lemma core_e kp kq (Hkp : 2 <= kp <= 2300) (Hkq : 3 <= kq <= 5000) k k' T' X Tw : kuka_ok 0.18 0.6 0.62 0.115 k -> robot_near u eta (k_arm k) (k_arm k') -> rigid X -> len (pos X) <= 3.5 ->
  fkuka_target A (k_rob k') T' = Ok Tw -> mnear (kt kp * u) (rot X) (rot Tw) -> vnear (kf kp kq * u) (centre 0.115 X) (pos Tw) ->
  k_rob (fst (fkuka_ik A k' T')) = k_rob k' /\ robot_near u eta (k_arm k) (k_arm (fst (fkuka_ik A k' T'))) /\
  ((snd (fkuka_ik A k' T') = Ok IkFail /\ forall q1 q2 q3 q4 q5 q6, kuka_form 0.18 0.6 0.62 0.115 q1 q2 q3 q4 q5 q6 <> X) \/
   exists sols, snd (fkuka_ik A k' T') = Ok (IkOk (Own sols)) /\ (length sols = 4 \/ length sols = 8)%nat /\
     forall q, In q sols -> exists q1 q2 q3 q4 q5 q6, q = [q1; q2; q3; q4; q5; q6] /\ let F := kuka_form 0.18 0.6 0.62 0.115 q1 q2 q3 q4 q5 q6 in
       len (vsub (centre 0.115 F) (centre 0.115 X)) <= centre_err u q3 /\ Rabs (cos q5 - vdot (col2 (arm2_rot q1 (q2 + q3))) (col2 (rot X))) <= 400 * (kp + 120) * u /\
       forall s, 54000 * (kp + 120) * u <= s <= Rabs (sin q5) -> forall x, len (vsub (mapply (rot F) x) (mapply (rot X) x)) <= rho u kp s * len x).
Proof.
  intros KO NA RX LX ET NRot NPos. assert (IA : arm_is (k_arm k)) by (destruct KO; split; auto).
  destruct (link_a_e u eta Hu He _ _ IA NA) as (a1 & a2 & a3 & E1 & E2 & E3 & D1 & D2 & D3).
  assert (BC : vle 4 (pos Tw)).
  { assert (LC : len (centre 0.115 X) <= 3.7). { unfold centre. pose proof (len_vsub3 (vsub (pos X) (vscale 0.115 (col2 (rot X)))) (pos X) (V3 0 0 0)) as Z.
      replace (vsub (vsub (pos X) (vscale 0.115 (col2 (rot X)))) (V3 0 0 0)) with (vsub (pos X) (vscale 0.115 (col2 (rot X)))) in Z by (generalize (pos X) (rot X); intros; vring).
      replace (vsub (pos X) (V3 0 0 0)) with (pos X) in Z by (generalize (pos X); intros; vring).
      replace (vsub (vsub (pos X) (vscale 0.115 (col2 (rot X)))) (pos X)) with (mapply (rot X) (V3 0 0 (-0.115))) in Z by (generalize (pos X) (rot X); intros; apply vec3_eq; cbn; lra).
      rewrite len_rot in Z by apply RX. replace (len (V3 0 0 (-0.115))) with 0.115 in Z; [lra|]. unfold len, norm2, vdot. cbn [vx vy vz]. replace (0 * 0 + 0 * 0 + -0.115 * -0.115) with (0.115 ^ 2) by lra. rewrite sqrt_pow2; lra. }
    destruct (vle_len _ _ LC) as (c0 & c1 & c2), NPos as (n0 & n1 & n2). assert (Z : forall x y, Rabs y <= 3.7 -> Rabs (x - y) <= kf kp kq * u -> Rabs x <= 4) by (intros x y Hy Hx; pose proof (abs_tri _ _ _ Hx); assert (kf kp kq * u <= 1.9e5 * u) by (unfold kf; apply Rmult_le_compat_r; lra); lra).
    split; [|split]; [exact (Z _ _ c0 n0)|exact (Z _ _ c1 n1)|exact (Z _ _ c2 n2)]. }
  destruct BC as (B0 & B1 & B2). unfold fkuka_ik. rewrite ET.
  destruct (farm2_e A u eta g h OK Hu He a1 a2 a3 D1 D2 D3 (k_arm k') Tw E1 E2 E3 B0 B1 B2) as [[EA FA]|(qs & EA & LQ & FQ)]; rewrite EA.
  - cbn [fst snd]. split; [reflexivity|]. split; [exact NA|]. left. split; [reflexivity|]. intros q1 q2 q3 q4 q5 q6 EX.
    destruct (kuka_form_centre 0.18 0.6 0.62 0.115 q1 q2 q3 q4 q5 q6) as (CF & _). cbv zeta in CF. rewrite EX in CF. revert FA. eapply reach_e; eauto.
  - destruct (loop_e A u eta g h OK Hu He Hg Hh Tw (k_arm k) IA qs (k_arm k') (k_wrist k') NA FQ) as (arm2 & w2 & sols & EL & N2 & L2 & FS). rewrite EL. cbn [fst snd bind k_rob k_arm]. split; [reflexivity|]. split; [exact N2|]. right.
    exists sols. split; [destruct sols as [|x sols]; [cbn in L2; lia|reflexivity]|]. split; [lia|]. intros q Hq. rewrite Forall_forall in FS. eapply pose_e; eauto.
Qed.

(** ** The frame of the carriage *)
Lemma carriage_e l l' q : dhjt l = (DH 0 (PI / 2) 0 0, JP) -> link_near u eta l l' -> Rabs q <= 4 -> exists T1, snd (flink_transform (ar A) l' q) = Ok T1 /\ tnear 26 65 (rail_form q) T1.
Proof.
  intros D N Hq. unfold dhjt in D. injection D as D1 D2.
  assert (EU : eta <= u * 1e-13) by (destruct He as [_ He']; replace (u ^ 2) with (u * u) in He' by ring; assert (u * u <= u * 1e-13) by (apply Rmult_le_compat_l; lra); lra).
  assert (J : joint_near u eta l q q). { unfold joint_near, rd. rewrite D2, Rminus_diag_eq, Rabs_R0 by reflexivity. pose proof (Rabs_pos q). assert (0 <= u * Rabs q) by (apply Rmult_le_pos; lra). lra. }
  destruct (flink_snd (ar A) u eta g h (io_ar _ _ _ _ _ OK) ltac:(lra) ltac:(lra) l l' q q N J ltac:(rewrite D2; discriminate)) as (Y & EY & BY & WY & (C0 & C1 & C2) & CP).
  exists Y. split; [exact EY|]. unfold lspec, off in *. rewrite D1, D2 in *. cbn [da dalpha dtheta dd] in *. rewrite rail_link in *. rewrite Rabs_R0 in CP.
  assert (PB : 2 * (8 * u * (0 + Rabs q) + 3 * eta) <= 65 * u) by (assert (u * Rabs q <= u * 4) by (apply Rmult_le_compat_l; lra); lra).
  assert (CB : 2 * (12 * u + eta) <= 26 * u) by lra.
  pose proof (vle_len _ _ (Rle_trans _ _ _ C0 CB)) as (c00 & c10 & c20). pose proof (vle_len _ _ (Rle_trans _ _ _ C1 CB)) as (c01 & c11 & c21). pose proof (vle_len _ _ (Rle_trans _ _ _ C2 CB)) as (c02 & c12 & c22).
  pose proof (vle_len _ _ (Rle_trans _ _ _ CP PB)) as (p0 & p1 & p2). unfold vsub, col0, col1, col2 in *. cbn [vx vy vz] in *. unfold FloatIkKuka.tnear, mnear, vnear. repeat split; auto.
Qed.

(** ** The target of the helper *)
Record rail_std (rl : rail) : Prop := { rs_ok : rail_ok 0.18 0.6 0.62 0.115 rl; rs_base : rigid (r_tfb (rl_rob rl)); rs_len : len (pos (r_tfb (rl_rob rl))) <= 2; rs_tool : small_tool (rl_rob rl) }.
(** the base of the helper is written by every call and not constrained *)
Definition rail_near (rl rl' : rail) : Prop := robot_near u eta (rl_rob rl) (rl_rob rl') /\
  Forall2 (link_near u eta) (r_links (k_rob (rl_kuka rl))) (r_links (k_rob (rl_kuka rl'))) /\ r_tool (k_rob (rl_kuka rl')) = None /\ robot_near u eta (k_arm (rl_kuka rl)) (k_arm (rl_kuka rl')).
(** the pose T seen from the carriage, without the tool *)
Definition from_carriage (rl : rail) (q : R) (T : mat4) : mat4 := tmul (tf_inverse (rail_form q)) (unmount (rl_rob rl) T).
Lemma len_carriage q : Rabs q <= 4 -> len (pos (rail_form q)) <= 4.
Proof. intros H. unfold rail_form. cbn [pos]. rewrite len_z. exact H. Qed.
Lemma pos_tmul X Y : rigid X -> rigid Y -> pos (tmul X Y) = tapply X (pos Y).
Proof. intros RX RY. destruct RX, RY. rewrite tmul_blocks by auto. reflexivity. Qed.
Lemma from_len rl q T : rail_std rl -> rigid T -> len (vsub (pos T) (pos (tmul (r_tfb (rl_rob rl)) (rail_form q)))) <= 3 -> rigid (from_carriage rl q T) /\ len (pos (from_carriage rl q T)) <= 3.5.
Proof.
  intros [_ RB _ ST] RT LT. pose proof (rail_form_rigid q) as RR. pose proof (small_rigid _ ST) as SR. unfold from_carriage. split; [apply rigid_tmul; [apply tf_inverse_rigid; auto|apply unmount_rigid; auto]|].
  set (b := r_tfb (rl_rob rl)) in *. set (Y := tmul (tf_inverse b) T). assert (RY : rigid Y) by (apply rigid_tmul; auto; apply tf_inverse_rigid; auto).
  assert (LY : len (pos (tmul (tf_inverse (rail_form q)) Y)) <= 3).
  { rewrite pos_inv_tmul by auto. rewrite <- (len_tapply b) by auto. rewrite <- !pos_tmul by auto. unfold Y. rewrite <- tmul_assoc, tf_inverse_r, tmul_1_l by auto. exact LT. }
  unfold unmount, small_tool in *. fold b. fold Y. destruct (r_tool (rl_rob rl)) as [[c tip]|]; [|lra]. destruct ST as [RP LP]. rewrite <- tmul_assoc.
  pose proof (len_pos_tmul (tmul (tf_inverse (rail_form q)) Y) (tf_inverse tip) ltac:(apply rigid_tmul; auto; apply tf_inverse_rigid; auto) ltac:(apply tf_inverse_rigid; auto)) as Z. rewrite finverse_len in Z by auto. lra.
Qed.
Context (kp kq : R) (Hkp : 2 <= kp <= 700) (Hkq : 3 <= kq <= 1200).
(** the pose without base and tool *)
Definition rail_tw (rl : rail) (T : mat4) : mat4 :=
  let Tw := fmul (ar A) (ftf_inverse A (r_tfb (rl_rob rl))) T in
  match r_tool (rl_rob rl) with Some (_, tf_tt) => fmul (ar A) Tw (ftf_inverse A tf_tt) | None => Tw end.
Lemma tw_e rl rl' q T T' : rail_std rl -> rail_near rl rl' -> rigid T -> Rabs q <= 4 -> len (vsub (pos T) (pos (tmul (r_tfb (rl_rob rl)) (rail_form q)))) <= 3 -> tnear kp kq T T' ->
  tnear (18 * kp + 760) (3 * kq + 13.5 * kp + 1640) (unmount (rl_rob rl) T) (rail_tw rl' T') /\ len (pos (unmount (rl_rob rl) T)) <= 7.5.
Proof.
  intros [RO RB LB ST] [[NL NB NT] _] RT Hq LT FT. set (r := rl_rob rl) in *. set (r' := rl_rob rl') in *. pose proof (rail_form_rigid q) as RR. pose proof (len_carriage q Hq) as LQ.
  assert (IB : tnear 2 172 (tf_inverse (r_tfb r)) (ftf_inverse A (r_tfb r'))).
  { pose proof (vle_len _ _ LB) as VB. pose proof (frame_tnear u eta Hu He _ _ _ RB NB VB) as N. pose proof (finv_e A u eta g h OK Hu Hg Hh _ _ _ _ _ RB N VB ltac:(lra) ltac:(lra)) as K. revert K. apply (tnear_le u eta g h Hu He Hg Hh); lra. }
  assert (RI : rigid (tf_inverse (r_tfb r))) by (apply tf_inverse_rigid; auto). assert (LI : len (pos (tf_inverse (r_tfb r))) <= 2) by (rewrite finverse_len; auto).
  assert (LTB : len (vsub (pos T) (pos (r_tfb r))) <= 7).
  { eapply Rle_trans; [apply (len_vsub3 _ (pos (tmul (r_tfb r) (rail_form q))))|]. assert (len (vsub (pos (tmul (r_tfb r) (rail_form q))) (pos (r_tfb r))) <= 4); [|lra].
    rewrite pos_tmul by auto. unfold tapply. replace (vsub (vadd (mapply (rot (r_tfb r)) (pos (rail_form q))) (pos (r_tfb r))) (pos (r_tfb r))) with (mapply (rot (r_tfb r)) (pos (rail_form q))) by (generalize (mapply (rot (r_tfb r)) (pos (rail_form q))) (pos (r_tfb r)); intros; vring). rewrite len_rot by apply RB. exact LQ. }
  assert (LT9 : len (pos T) <= 9) by (pose proof (len_sub_le _ _ _ LTB); lra).
  assert (W1 : tnear (3 * kp + 109) (3 * kq + 740) (tmul (tf_inverse (r_tfb r)) T) (fmul (ar A) (ftf_inverse A (r_tfb r')) T')).
  { pose proof (vle_len _ _ LT9) as VT. pose proof (fmul_e A u eta g h OK Hu Hg Hh _ _ _ _ _ _ _ _ _ _ RI RT IB FT (vle_len _ _ LI) VT ltac:(lra) ltac:(lra) ltac:(lra) ltac:(lra)) as K. revert K. apply (tnear_le u eta g h Hu He Hg Hh); lra. }
  assert (R1 : rigid (tmul (tf_inverse (r_tfb r)) T)) by (apply rigid_tmul; auto). assert (L1 : len (pos (tmul (tf_inverse (r_tfb r)) T)) <= 7) by (rewrite (pos_inv_tmul _ _ RB RT); exact LTB).
  unfold unmount, rail_tw, small_tool in *. fold r r' in ST |- *. destruct (r_tool r) as [[cc tip]|], (r_tool r') as [[cc' tip']|]; try contradiction.
  - destruct ST as [RP LP]. pose proof (vle_len _ _ LP) as VP. pose proof (frame_tnear u eta Hu He _ _ _ RP NT VP) as N. pose proof (finv_e A u eta g h OK Hu Hg Hh _ _ _ _ _ RP N VP ltac:(lra) ltac:(lra)) as IP.
    assert (RQ : rigid (tf_inverse tip)) by (apply tf_inverse_rigid; auto). assert (LQ' : len (pos (tf_inverse tip)) <= 1 / 2) by (rewrite finverse_len; auto).
    pose proof (fmul_e A u eta g h OK Hu Hg Hh _ _ _ _ _ _ _ _ _ _ R1 RQ W1 IP (vle_len _ _ L1) (vle_len _ _ LQ') ltac:(lra) ltac:(lra) ltac:(lra) ltac:(lra)) as K. split; [revert K; apply (tnear_le u eta g h Hu He Hg Hh); lra|]. pose proof (len_pos_tmul _ _ R1 RQ). lra.
  - split; [revert W1; apply (tnear_le u eta g h Hu He Hg Hh); lra|lra].
Qed.
Lemma rail_target_e rl rl' q T T' T1 : rail_std rl -> rail_near rl rl' -> rigid T -> Rabs q <= 4 -> len (vsub (pos T) (pos (tmul (r_tfb (rl_rob rl)) (rail_form q)))) <= 3 -> tnear kp kq T T' -> tnear 26 65 (rail_form q) T1 ->
  let X := from_carriage rl q T in exists Tw, fkuka_target A (set_tfb (k_rob (rl_kuka rl')) T1) (rail_tw rl' T') = Ok Tw /\
    mnear (kt (3 * kp + 100) * u) (rot X) (rot Tw) /\ vnear (kf (3 * kp + 100) (3 * kq + 1400) * u) (centre 0.115 X) (pos Tw).
Proof.
  intros RS RN RT Hq LT FT NC X. destruct (tw_e rl rl' q T T' RS RN RT Hq LT FT) as [W2 L2]. destruct (from_len rl q T RS RT LT) as [RX LX]. fold X in RX, LX.
  pose proof (rail_form_rigid q) as RR. pose proof (vle_len _ _ (len_carriage q Hq)) as VQ. assert (RU : rigid (unmount (rl_rob rl) T)) by (destruct RS; apply unmount_rigid; auto using small_rigid).
  assert (RI : rigid (tf_inverse (rail_form q))) by (apply tf_inverse_rigid; auto). assert (LI : len (pos (tf_inverse (rail_form q))) <= 4) by (rewrite finverse_len; auto using len_carriage).
  pose proof (finv_e A u eta g h OK Hu Hg Hh _ _ _ _ _ RR NC VQ ltac:(lra) ltac:(lra)) as IC.
  pose proof (fmul_e A u eta g h OK Hu Hg Hh _ _ _ _ _ _ _ _ _ _ RI RU IC W2 (vle_len _ _ LI) (vle_len _ _ L2) ltac:(lra) ltac:(lra) ltac:(lra) ltac:(lra)) as W3.
  assert (W4 : tnear (54 * kp + 2540) (9 * kq + 40.5 * kp + 6880) X (fmul (ar A) (ftf_inverse A T1) (rail_tw rl' T'))) by (revert W3; apply (tnear_le u eta g h Hu He Hg Hh); lra). clear W3.
  unfold fkuka_target. cbn [set_tfb r_tfb r_tool r_links]. destruct RN as (_ & NL & ET & _). rewrite ET. set (Tw := fmul (ar A) (ftf_inverse A T1) (rail_tw rl' T')) in *.
  destruct W4 as (NR & (d0 & d1 & d2) & _).
  assert (I5 : exists l, nth_error (r_links (k_rob (rl_kuka rl'))) 5 = Some l /\ Rabs (dd (l_dh l) - 0.115) <= 2 * u).
  { destruct RS as [[_ KO _] _ _ _]. destruct (ko_rob _ _ _ _ _ KO) as [_ LK]. assert (E : nth_error (map dhjt (r_links (k_rob (rl_kuka rl)))) 5 = nth_error (map dhjt (r_links (Kuka 0.18 0.6 0.62 0.115))) 5) by (rewrite LK; auto).
    rewrite nth_error_map in E. destruct (nth_error (r_links (k_rob (rl_kuka rl))) 5) as [l|] eqn:E5; [|discriminate E]. cbn in E. injection E as E _.
    assert (G : forall n, nth_error (r_links (k_rob (rl_kuka rl))) n = Some l -> exists l', nth_error (r_links (k_rob (rl_kuka rl'))) n = Some l' /\ link_near u eta l l').
    { revert NL. clear. generalize (r_links (k_rob (rl_kuka rl))) (r_links (k_rob (rl_kuka rl'))). intros l1 l2 H. induction H as [|x y xs ys Hxy H IH]; intros [|n] En; cbn in *; try discriminate; [injection En as ->; eauto|auto]. }
    destruct (G 5%nat E5) as (l' & E5' & _ & _ & _ & Hdd & _). exists l'. split; auto. rewrite E in Hdd. cbn [dd] in Hdd. eapply rd_e; eauto. apply abs_const. lra. }
  destruct I5 as (l & E5 & D6). unfold py_index. rewrite E5. cbn [bind]. eexists. split; [reflexivity|]. unfold kt, kf. cbn [rot].
  assert (M1 : (54 * kp + 2540) * u <= (18 * (3 * kp + 100) + 760) * u) by (apply Rmult_le_compat_r; lra). split; [eapply mnear_le; eauto|].
  pose proof (rotation_mle _ (rigid_rot _ RX)) as ((a00 & a01 & a02) & (a10 & a11 & a12) & (a20 & a21 & a22)). destruct NR as ((x00 & x01 & x02) & (x10 & x11 & x12) & (x20 & x21 & x22)). destruct (vle_len _ _ LX) as (b0 & b1 & b2).
  assert (C : forall a b c p a' b' c' p', Rabs (a' - a) <= (54 * kp + 2540) * u -> Rabs (b' - b) <= (54 * kp + 2540) * u -> Rabs (c' - c) <= (54 * kp + 2540) * u -> Rabs a <= 1 -> Rabs b <= 1 -> Rabs c <= 1 -> Rabs (p' - p) <= (9 * kq + 40.5 * kp + 6880) * u -> Rabs p <= 3.5 ->
    Rabs (rn (p' - fdot3 A a' b' c' 0 0 (dd (l_dh l))) - (p - 0.115 * c)) <= (3 * (3 * kq + 1400) + 74 * (3 * kp + 100) + 4000) * u).
  { intros a b c p a' b' c' p' Ha Hb Hc Ba Bb Bc Hp Bp.
    assert (Z0 : Rabs (0 - 0) <= 2 * u) by (rewrite Rminus_0_r, Rabs_R0; lra). assert (Z1 : Rabs 0 <= 0.115) by (rewrite Rabs_R0; lra).
    pose proof (dot3_e A u eta g h OK Hu Hg Hh a b c 0 0 0.115 a' b' c' 0 0 (dd (l_dh l)) (54 * kp + 2540) 2 1 0.115 Ha Hb Hc Z0 Z0 D6 Ba Bb Bc Z1 Z1 ltac:(apply abs_const; lra) ltac:(lra) ltac:(lra)) as K.
    assert (K' : Rabs (fdot3 A a' b' c' 0 0 (dd (l_dh l)) - 0.115 * c) <= (180.7 * kp + 8560) * u) by (replace (0.115 * c) with (a * 0 + b * 0 + c * 0.115) by ring; eapply Rle_trans; [exact K|apply Rmult_le_compat_r; lra]).
    apply (sub_e A u eta g h OK Hu He _ _ _ _ (9 * kq + 40.5 * kp + 6880) (180.7 * kp + 8560) 3.5 0.115); auto; try lra. eapply Rle_trans; [apply (abs_mul_le _ _ 0.115 1); [apply abs_const; lra|auto]|lra]. }
  unfold vnear, centre, vsub, vscale, col2. cbn [vx vy vz pos]. repeat split; eapply C; eauto.
Qed.

(** ** KukaOnRail.ik *)
Lemma mount_rail r q X v : rigid (r_tfb r) -> rigid_tool r -> rigid X -> mapply (rot (mount r (tmul (rail_form q) X))) v =
  mapply (rot (r_tfb r)) (mapply (rot (rail_form q)) (mapply (rot X) (match r_tool r with Some (_, tip) => mapply (rot tip) v | None => v end))).
Proof.
  intros RB RT RX. pose proof (rail_form_rigid q) as RR. rewrite rot_mount by (auto; apply rigid_tmul; auto). f_equal. destruct RR as [R1 R2 R3], RX as [X1 X2 X3]. rewrite tmul_blocks by auto. cbn [rot]. rewrite mapply_mmul. reflexivity.
Qed.
Lemma tapply_rail r q X v : rigid (r_tfb r) -> rigid_tool r -> rigid X -> tapply (mount r (tmul (rail_form q) X)) v =
  tapply (r_tfb r) (tapply (rail_form q) (tapply X (match r_tool r with Some (_, tip) => tapply tip v | None => v end))).
Proof. intros RB RT RX. pose proof (rail_form_rigid q) as RR. rewrite tapply_mount by (auto; apply rigid_tmul; auto). f_equal. apply tapply_tmul; auto. Qed.
Lemma frail_e rl rl' q T T' : rail_std rl -> rail_near rl rl' -> rigid T -> Rabs q <= 4 -> len (vsub (pos T) (pos (tmul (r_tfb (rl_rob rl)) (rail_form q)))) <= 3 -> tnear kp kq T T' ->
  let X := from_carriage rl q T in
  rail_near rl (fst (frail_ik A rl' T' q)) /\
  ((snd (frail_ik A rl' T' q) = Ok IkFail /\ forall q1 q2 q3 q4 q5 q6, snd (fk (rl_rob rl) [q; q1; q2; q3; q4; q5; q6]) <> Ok T) \/
   exists sols, snd (frail_ik A rl' T' q) = Ok (IkOk (Own sols)) /\ (length sols = 4 \/ length sols = 8)%nat /\
     forall row, In row sols -> exists q1 q2 q3 q4 q5 q6 F, row = [q; q1; q2; q3; q4; q5; q6] /\ snd (fk (rl_rob rl) row) = Ok F /\
       len (vsub (kuka_centre 0.18 0.6 0.62 q1 q2 q3) (centre 0.115 X)) <= centre_err u q3 /\
       Rabs (cos q5 - vdot (col2 (arm2_rot q1 (q2 + q3))) (col2 (rot X))) <= 1200 * (kp + 75) * u /\
       forall s, 162000 * (kp + 75) * u <= s <= Rabs (sin q5) ->
         (forall v, len (vsub (mapply (rot F) v) (mapply (rot T) v)) <= 21300 * (kp + 75) * (u / s) * len v) /\ len (vsub (pos F) (pos T)) <= centre_err u q3 + 0.615 * (21300 * (kp + 75) * (u / s))).
Proof.
  intros RS RN RT Hq LT FT X. destruct (from_len rl q T RS RT LT) as [RX LX]. fold X in RX, LX. pose proof RS as [RO RB LB ST]. pose proof (small_rigid _ ST) as SR. pose proof (rail_form_rigid q) as RR.
  pose proof RN as ([NL NB NT] & NK & ET & NA). unfold frail_ik. fold (rail_tw rl' T').
  pose proof (ro_rob _ _ _ _ _ RO) as LK. pose proof LK as [G LL]. destruct (r_links (rl_rob rl)) as [|l ls] eqn:EL; [discriminate LL|]. inversion NL as [|? l' ? ls' Hl Hls EQ1 EQ2]; subst.
  assert (HT : T = mount (rl_rob rl) (tmul (rail_form q) X)).
  { unfold X, from_carriage. rewrite <- tmul_assoc, tf_inverse_r, tmul_1_l by auto. symmetry. apply mount_unmount; auto. }
  assert (HL : dhjt l = (DH 0 (PI / 2) 0 0, JP)) by (apply (f_equal (hd (dhjt l))) in LL; exact LL).
  destruct (carriage_e l l' q HL Hl Hq) as (T1 & E1 & N1).
  assert (NL1 : link_near u eta l (fst (flink_transform (ar A) l' q))).
  { destruct Hl as (C & Jt & Hl). unfold dhjt in HL. injection HL as _ HJ. rewrite HJ in Jt. unfold flink_transform. rewrite Jt. cbn [fst]. split; [|rewrite HJ; split; [exact Jt|exact Hl]]. exact C. }
  destruct (flink_transform (ar A) l' q) as [l1 T1r]. cbn [fst snd] in *. subst T1r.
  destruct (rail_target_e rl rl' q T T' T1 RS RN RT Hq LT FT N1) as (Tw & ETw & NRot & NPos). fold X in NRot, NPos.
  pose proof (core_e (3 * kp + 100) (3 * kq + 1400) ltac:(lra) ltac:(lra) (rl_kuka rl) (Kk (set_tfb (k_rob (rl_kuka rl')) T1) (k_arm (rl_kuka rl')) (k_wrist (rl_kuka rl'))) (rail_tw rl' T') X Tw (ro_kuka _ _ _ _ _ RO) NA RX LX ETw NRot NPos) as (HK & HA & HC).
  destruct (fkuka_ik A _ (rail_tw rl' T')) as [k1 res1]. cbn [fst snd k_rob] in *.
  split.
  { split; [split; cbn [rl_rob set_links r_links r_tfb r_tool]; [rewrite EL; constructor; auto|exact NB|exact NT]|]. cbn [rl_kuka]. rewrite HK. cbn [set_tfb r_links r_tool]. auto. }
  destruct HC as [[-> HF]|(sols & -> & HLn & HS)]; cbn [bind].
  - left. split; [reflexivity|]. intros q1 q2 q3 q4 q5 q6 EF. rewrite (rail_fk_mount 0.18 0.6 0.62 0.115) in EF by exact LK. injection EF as EF.
    apply (HF q1 q2 q3 q4 q5 q6). unfold X, from_carriage. rewrite <- EF, unmount_mount by auto. rewrite <- tmul_assoc, tf_inverse_l, tmul_1_l by auto. reflexivity.
  - right. cbn [read]. eexists. split; [reflexivity|]. split; [rewrite map_length; exact HLn|]. intros row Hr. apply in_map_iff in Hr. destruct Hr as (qi & <- & Hi).
    destruct (HS qi Hi) as (q1 & q2 & q3 & q4 & q5 & q6 & -> & HCn & H5 & HP). exists q1, q2, q3, q4, q5, q6. eexists. split; [reflexivity|]. split; [apply (rail_fk_mount 0.18 0.6 0.62 0.115); exact LK|].
    split; [rewrite <- (proj1 (kuka_form_centre 0.18 0.6 0.62 0.115 q1 q2 q3 q4 q5 q6)); exact HCn|]. split; [eapply Rle_trans; [exact H5|apply Rmult_le_compat_r; lra]|]. intros s Hs.
    assert (Hs' : 54000 * (3 * kp + 100 + 120) * u <= s <= Rabs (sin q5)) by (split; [eapply Rle_trans; [|apply Hs]; apply Rmult_le_compat_r; lra|apply Hs]). specialize (HP s Hs').
    destruct (kuka_form_centre 0.18 0.6 0.62 0.115 q1 q2 q3 q4 q5 q6) as (_ & _ & RF). cbv zeta in RF. set (F := kuka_form _ _ _ _ _ _ _ _ _ _) in *.
    assert (s0 : 0 < s) by (assert (0 <= kp * u) by (apply Rmult_le_pos; lra); lra). assert (US : 0 < u / s) by (apply Rdiv_lt_0_compat; lra). set (rh := 21300 * (kp + 75) * (u / s)). assert (RH : 0 <= rh) by (unfold rh; apply Rmult_le_pos; lra).
    assert (HP' : forall x, len (vsub (mapply (rot F) x) (mapply (rot X) x)) <= rh * len x).
    { intros x. eapply Rle_trans; [apply HP|]. apply Rmult_le_compat_r; [apply len_nonneg|]. unfold rho, rh. apply Rmult_le_compat_r; lra. }
    assert (R1 : rotation (rot (r_tfb (rl_rob rl)))) by apply RB. assert (R2 : rotation (rot (rail_form q))) by apply RR.
    split.
    + intros v. rewrite HT. rewrite !mount_rail, !rot_diff by auto. eapply Rle_trans; [apply HP'|]. apply Rmult_le_compat_l; auto. unfold small_tool in ST. destruct (r_tool (rl_rob rl)) as [[cc tip]|]; [|lra]. destruct ST as [[Rt _ _] _]. rewrite len_rot by auto. lra.
    + rewrite HT. rewrite !pos_tapply, !tapply_rail, !len_tapply by auto. set (w := match r_tool (rl_rob rl) with Some _ => _ | None => _ end).
      assert (LW : len w <= 1 / 2). { unfold w, small_tool in *. destruct (r_tool (rl_rob rl)) as [[cc tip]|]; [rewrite <- pos_tapply; apply ST|]. unfold len, norm2, vdot, v0. cbn [vx vy vz]. replace (0 * 0 + 0 * 0 + 0 * 0) with 0 by ring. rewrite sqrt_0. lra. }
      rewrite (tapply_centre 0.115 F), (tapply_centre 0.115 X). set (x := vadd w (V3 0 0 0.115)).
      replace (vsub (vadd (centre 0.115 F) (mapply (rot F) x)) (vadd (centre 0.115 X) (mapply (rot X) x))) with (vadd (vsub (centre 0.115 F) (centre 0.115 X)) (vsub (mapply (rot F) x) (mapply (rot X) x)))
        by (generalize (mapply (rot F) x) (mapply (rot X) x) (centre 0.115 F) (centre 0.115 X); intros; vring).
      eapply Rle_trans; [apply len_add|]. apply Rplus_le_compat; [exact HCn|]. eapply Rle_trans; [apply HP'|]. rewrite (Rmult_comm 0.615). apply Rmult_le_compat_l; auto.
      unfold x. pose proof (len_add w (V3 0 0 0.115)) as Z. replace (len (V3 0 0 0.115)) with 0.115 in Z; [lra|]. unfold len, norm2, vdot. cbn [vx vy vz]. replace (0 * 0 + 0 * 0 + 0.115 * 0.115) with (0.115 ^ 2) by lra. rewrite sqrt_pow2; lra.
Qed.
End Core.

(** ** Out of reach *)
Lemma kuka_centre_len q1 q2 q3 : len (kuka_centre 0.18 0.6 0.62 q1 q2 q3) <= 1.4.
Proof.
  replace (kuka_centre 0.18 0.6 0.62 q1 q2 q3) with (vadd (vscale 0.18 (V3 (cos q1) (sin q1) 0)) (vadd (vscale 0.6 (V3 (cos q1 * cos q2) (sin q1 * cos q2) (sin q2))) (vscale 0.62 (V3 (cos q1 * sin (q2 + q3)) (sin q1 * sin (q2 + q3)) (- cos (q2 + q3)))))) by (unfold kuka_centre, vadd, vscale; cbn [vx vy vz]; f_equal; lra).
  assert (K : forall a v, 0 <= a -> norm2 v = 1 -> len (vscale a v) = a).
  { intros a v Ha Hv. unfold len. replace (norm2 (vscale a v)) with (a ^ 2 * norm2 v) by (destruct v; unfold norm2, vdot, vscale; cbn; ring). rewrite Hv, Rmult_1_r. apply sqrt_pow2. exact Ha. }
  pose proof (sin2_cos2 q1) as S1. pose proof (sin2_cos2 q2) as S2. pose proof (sin2_cos2 (q2 + q3)) as S3. unfold Rsqr in *. set (t := q2 + q3) in *.
  eapply Rle_trans; [apply len_add|]. rewrite K by (try lra; unfold norm2, vdot; cbn [vx vy vz]; lra).
  assert (len (vadd (vscale 0.6 (V3 (cos q1 * cos q2) (sin q1 * cos q2) (sin q2))) (vscale 0.62 (V3 (cos q1 * sin t) (sin q1 * sin t) (- cos t)))) <= 0.6 + 0.62); [|lra].
  eapply Rle_trans; [apply len_add|]. right. f_equal; apply K; try lra; unfold norm2, vdot; cbn [vx vy vz].
  - replace (cos q1 * cos q2 * (cos q1 * cos q2) + sin q1 * cos q2 * (sin q1 * cos q2) + sin q2 * sin q2) with ((sin q1 * sin q1 + cos q1 * cos q1) * (cos q2 * cos q2) + sin q2 * sin q2) by ring. rewrite S1. lra.
  - replace (cos q1 * sin t * (cos q1 * sin t) + sin q1 * sin t * (sin q1 * sin t) + - cos t * - cos t) with ((sin q1 * sin q1 + cos q1 * cos q1) * (sin t * sin t) + cos t * cos t) by ring. rewrite S1. lra.
Qed.
Lemma frail_far A u eta g h : ik_ok A u eta g h -> 0 < u <= 1e-13 -> 0 <= eta <= u ^ 2 -> 0 <= g <= 8 * u -> 0 <= h <= u -> forall kp kq, 2 <= kp <= 700 -> 3 <= kq <= 1200 ->
  forall rl rl' q T T', rail_std rl -> rail_near u eta rl rl' -> rigid T -> Rabs q <= 4 -> len (vsub (pos T) (pos (tmul (r_tfb (rl_rob rl)) (rail_form q)))) <= 3 -> tnear u kp kq T T' ->
  1.40005 <= len (centre 0.115 (from_carriage rl q T)) -> snd (frail_ik A rl' T' q) = Ok IkFail.
Proof.
  intros OK Hu He Hg Hh kp kq Hp Hq0 rl rl' q T T' RS RN RT Hq LT FT HX.
  destruct (frail_e A u eta g h OK Hu He Hg Hh kp kq Hp Hq0 rl rl' q T T' RS RN RT Hq LT FT) as [_ [[E _]|(sols & E & L & HS)]]; [exact E|]. exfalso.
  destruct sols as [|row sols]; [destruct L; discriminate|]. destruct (HS row (or_introl eq_refl)) as (q1 & q2 & q3 & q4 & q5 & q6 & F & _ & _ & HC & _).
  assert (CE : centre_err u q3 <= 4.1e-5) by (unfold centre_err; destruct (Rle_dec _ _); lra). set (c := centre 0.115 _) in *. set (k := kuka_centre _ _ _ _ _ _) in *.
  pose proof (kuka_centre_len q1 q2 q3) as LK. fold k in LK. pose proof (len_add k (vsub c k)) as Z. replace (vadd k (vsub c k)) with c in Z by (generalize k c; intros; vring).
  replace (len (vsub c k)) with (len (vsub k c)) in Z by (unfold len; f_equal; unfold norm2, vdot, vsub; cbn [vx vy vz]; ring). lra.
Qed.

(** ** Test data *)
Definition round_rail (rl : rail) : rail := Rl (round_robot (rl_rob rl)) (round_kuka (rl_kuka rl)).
Lemma round_rail_near rl : r_tool (k_rob (rl_kuka rl)) = None -> small_angles (rl_rob rl) -> small_angles (k_rob (rl_kuka rl)) -> small_angles (k_arm (rl_kuka rl)) -> rail_near u64 eta64 rl (round_rail rl).
Proof.
  intros T0 A1 A2 A3. pose proof (round_robot_near _ A2) as [N2 _ N2t]. split; [apply round_robot_near; exact A1|]. split; [exact N2|]. split; [|apply round_robot_near; exact A3].
  rewrite T0 in N2t. cbn [round_rail rl_kuka round_kuka k_rob]. destruct (r_tool (round_robot (k_rob (rl_kuka rl)))); [contradiction|reflexivity].
Qed.
Notation rail0 := (new_rail 0.18 0.6 0.62 0.115).
Lemma rail0_std : rail_std rail0 /\ rail_near u64 eta64 rail0 (round_rail rail0).
Proof.
  destruct new_kuka_std as ([_ KB KL _] & A1 & A2). split; [split; [apply new_rail_ok|exact KB|exact KL|exact I]|].
  apply round_rail_near; [reflexivity| |exact A1|exact A2]. pose proof PI_RGT_0. pose proof PI_4.
  unfold small_angles; cbn [new_rail rl_rob KukaOnRail robot_init r_links]; repeat (apply Forall_cons; [split; apply Rabs_le; cbn [lr lp new_link l_dh dalpha dtheta]; lra|]); apply Forall_nil.
Qed.
