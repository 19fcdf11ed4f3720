(** * A full turn about the axis of the tool: counterexample of C148. *)
From Coq Require Import String Reals Lra Lia Psatz List Bool Arith ZArith.
From Verif Require Import PyBase Cost SpecPath GraphCommon CppGraph CppGraphProofs CppSearch CppHeap CppMain CppExamples Mat Util UtilProofs HaltonProofs Geometry GeometryProofs Robot RobotProofs RobotForms Ik IkProofs KukaProofs RailProofs Path PathProofs Planning PlanningProofs PlanningCart Resources ResourcesProofs TaskProofs Pipeline PipelineProofs PipelineExamples Motion LocalIk Margin GridCover Resolution ResolutionExamples.
Import ListNotations.
Local Open Scope R_scope.

(** ** Distances in a finite set *)
Lemma rc_ones_nonneg : forall w a b, Forall (fun x => x = 1) w -> 0 <= rc w a b.
Proof. intros w a b H. revert a b. induction H as [|x w -> _ IH]; intros [|y a] [|z b]; cbn [rc]; try lra. specialize (IH a b). pose proof (Rle_0_sqr (z - y)) as S. unfold Rsqr in S. lra. Qed.
Lemma rc_zero : forall w a b, Forall (fun x => x = 1) w -> length a = length w -> length b = length w -> rc w a b = 0 -> a = b.
Proof.
  intros w a b H. revert a b. induction H as [|x w -> H IH]; intros [|y a] [|z b] L1 L2 E; cbn in L1, L2; try discriminate; auto. cbn [rc] in E.
  pose proof (Rle_0_sqr (z - y)) as S. unfold Rsqr in S. pose proof (rc_ones_nonneg w a b H). f_equal; [|apply IH; try lia; lra]. assert (Z : (z - y) * (z - y) = 0) by lra. apply Rmult_integral in Z. lra.
Qed.
Lemma apart w (P : list (list R)) : Forall (fun x => x = 1) w -> Forall (fun a => length a = length w) P -> exists d, 0 < d /\ forall a b, In a P -> In b P -> a = b \/ d <= rc w a b.
Proof.
  intros W L. assert (K : forall Q, (forall a b, In (a, b) Q -> In a P /\ In b P) -> exists d, 0 < d /\ forall a b, In (a, b) Q -> a = b \/ d <= rc w a b).
  { induction Q as [|[a b] Q IH]; intros H; [exists 1; split; [lra|]; intros ? ? []|]. destruct IH as (d & Hd & IH); [intros; apply H; right; auto|].
    rewrite Forall_forall in L. destruct (H a b (or_introl eq_refl)) as [Ia Ib]. destruct (Req_dec (rc w a b) 0) as [Z|Z].
    - exists d. split; auto. intros a' b' [E|I]; [|auto]. injection E as <- <-. left. apply (rc_zero w); auto.
    - pose proof (rc_ones_nonneg w a b W). exists (Rmin d (rc w a b)). split; [apply Rmin_glb_lt; lra|]. intros a' b' [E|I].
      + injection E as <- <-. right. apply Rmin_r.
      + destruct (IH a' b' I) as [->|Le]; auto. right. eapply Rle_trans; [apply Rmin_l|exact Le]. }
  destruct (K (list_prod P P)) as (d & Hd & Q); [intros a b I; apply in_prod_iff in I; exact I|]. exists d. split; auto. intros a b Ia Ib. apply Q, in_prod; auto.
Qed.

(** ** The target and the solutions for it *)
(** the tool points sideways and is turned by t about its own axis *)
Definition turned (t : R) : eulerpt := EulerPt [Fix 0.78; Fix (-0.115); Fix (-0.62)] [Fix (PI / 2); Fix 0; Fix (t + PI / 2)] [0.78; -0.115; -0.62; PI / 2; 0; t + PI / 2].
Definition tframe (t : R) : mat4 := frame6 0.78 (-0.115) (-0.62) (PI / 2) 0 (t + PI / 2).
Definition turning (t : R) : list R := [0; 0; 0; PI / 2; PI / 2; t].
Definition side : mat3 := M3 1 0 0 0 0 (-1) 0 1 0.
Lemma tframe_rot t : rot (tframe t) = mmul side (rot_z (t + PI / 2)).
Proof. unfold tframe, frame6, rot_xyz. cbn [rot]. rewrite <- mmul_assoc. f_equal. unfold rot_x, rot_y, side. rewrite sin_PI2, cos_PI2, cos_0, sin_0. unfold mmul. cbn [m00 m01 m02 m10 m11 m12 m20 m21 m22]. f_equal; ring. Qed.
Lemma tframe_col2 t : col2 (rot (tframe t)) = V3 0 (-1) 0.
Proof. rewrite tframe_rot. unfold side, rot_z, mmul, col2. cbn [m00 m01 m02 m10 m11 m12 m20 m21 m22]. f_equal; ring. Qed.
Lemma tframe_more t h : rot (tframe (t + h)) = mmul (rot (tframe t)) (rot_z h).
Proof. rewrite !tframe_rot, mmul_assoc, rot_z_add. do 2 f_equal. ring. Qed.
Lemma tframe_centre t : centre 0.115 (tframe t) = V3 0.78 0 (-0.62).
Proof. unfold centre. rewrite tframe_col2. unfold tframe, frame6, vsub, vscale. cbn [pos vx vy vz]. f_equal; lra. Qed.
Lemma turning_form t : kuka_form 0.18 0.6 0.62 0.115 0 0 0 (PI / 2) (PI / 2) t = tframe t.
Proof.
  assert (A : mmul (arm2_rot 0 (0 + 0)) (zyz (PI / 2) (PI / 2) t) = rot (tframe t)).
  { rewrite tframe_rot. unfold arm2_rot, zyz, side, rot_z, rot_y. rewrite Rplus_0_l, cos_0, sin_0, sin_PI2, cos_PI2, cos_plus, sin_plus, cos_PI2, sin_PI2. unfold mmul. cbn [m00 m01 m02 m10 m11 m12 m20 m21 m22]. f_equal; ring. }
  unfold kuka_form. cbv zeta. rewrite A, tframe_col2. unfold tframe, frame6, kuka_centre. cbn [rot]. rewrite !Rplus_0_l, cos_0, sin_0. f_equal. unfold vadd, vscale. cbn [vx vy vz]. f_equal; lra.
Qed.
Lemma col2_mmul A B : col2 (mmul A B) = mapply A (col2 B). Proof. vring. Qed.
Lemma wrist_prefix A B : col2 A = col2 B -> map (firstn 2) (wrist_angles A) = map (firstn 2) (wrist_angles B).
Proof. intros E. unfold wrist_angles. rewrite E. reflexivity. Qed.
Lemma arm_wrist_prefix X Y q : col2 (rot X) = col2 (rot Y) -> map (firstn 5) (arm_wrist X q) = map (firstn 5) (arm_wrist Y q).
Proof.
  intros E. destruct q as [|q1 [|q2 [|q3 [|? ?]]]]; auto. cbn [arm_wrist]. rewrite !map_map. set (p := [q1; q2; q3 + PI / 2]).
  assert (K : forall l : list (list R), map (fun x => firstn 5 (p ++ x)) l = map (app p) (map (firstn 2) l)) by (intros l; rewrite map_map; apply map_ext; reflexivity).
  rewrite !K. f_equal. apply wrist_prefix. rewrite !col2_mmul, E. reflexivity.
Qed.
Notation sols t := (kuka_sols 0.18 0.6 0.62 0.115 (tframe t)).
Lemma sols_prefix t t' : map (firstn 5) (sols t) = map (firstn 5) (sols t').
Proof.
  unfold kuka_sols. rewrite !tframe_centre. induction (arm_sols _ _ _ _) as [|q l IH]; auto. cbn [flat_map]. rewrite !map_app, IH. f_equal. apply arm_wrist_prefix. rewrite !tframe_col2. reflexivity.
Qed.
Lemma sideways q : In q (arm_sols 0.18 0.6 0.62 (V3 0.78 0 (-0.62))) -> exists q1 q2 q3, q = [q1; q2; q3] /\ sin q1 = 0.
Proof.
  assert (N : forall x, 0 < x -> sqrt (x ^ 2 + 0 ^ 2) <> 0) by (intros x Hx E; apply sqrt_eq_0 in E; nra).
  assert (S1 : forall x, 0 < x -> sin (atan2 0 x) = 0) by (intros x Hx; destruct (polar x 0) as [_ P]; apply Rmult_integral in P; destruct P as [P|P]; auto; destruct (N x Hx P)).
  assert (S2 : forall x, 0 < x -> sin (atan2 (Ropp 0) (Ropp x)) = 0) by (intros x Hx; destruct (polar_neg x 0) as [_ P]; apply Rmult_integral in P; destruct P as [P|P]; auto; destruct (N x Hx); lra).
  intros H. unfold arm_sols, branch in H. cbn [vx vy vz] in H. apply in_app_or in H. destruct H as [H|H]; (destruct (elbow _); [|destruct H]); destruct H as [<-|[<-|[]]]; eexists _, _, _; (split; [reflexivity|]); (apply S1 || apply S2); lra.
Qed.
(** what a solution is *)
Lemma sols_inv t s : In s (sols t) -> exists q1 q2 q3 q4 q5 q6, s = [q1; q2; q3; q4; q5; q6] /\ - PI < q6 <= PI /\ sin q5 <> 0 /\ mmul (arm2_rot q1 (q2 + q3)) (zyz q4 q5 q6) = rot (tframe t).
Proof.
  intros H. unfold kuka_sols in H. rewrite tframe_centre in H. apply in_flat_map in H. destruct H as (qa & Ha & H). destruct (sideways qa Ha) as (q1 & q2 & q3 & -> & S1).
  cbn [arm_wrist] in H. apply in_map_iff in H. destruct H as (qw & <- & H). set (M := arm2_rot q1 (q2 + (q3 + PI / 2))) in *. set (A := mmul (mtr M) (rot (tframe t))) in *.
  assert (RM : rotation M) by apply arm2_rot_rotation. assert (RA : rotation A) by (apply rotation_mmul; [apply rotation_tr; auto|apply rot_xyz_rotation]).
  pose proof (wrist_bounds A qw) as B. destruct (wrist_sound A qw RA H) as (q4 & q5 & q6 & -> & N & W).
  assert (N5 : sin q5 <> 0).
  { apply N. pose proof (rotation_col2 A RA) as U. assert (Z : m22 A = 0). { change (m22 A) with (vz (col2 A)). unfold A. rewrite col2_mmul, tframe_col2. unfold M, arm2_rot, mtr, mapply. cbn [m00 m01 m02 m10 m11 m12 m20 m21 m22 vx vy vz]. rewrite S1. ring. }
    rewrite Z in U. lra. }
  exists q1, q2, (q3 + PI / 2), q4, q5, q6. split; [reflexivity|]. split; [apply B; cbn; auto|]. split; auto. rewrite (W N5). unfold A. fold M. rewrite <- mmul_assoc, rotation_inv_r, mmul_1_l by auto. reflexivity.
Qed.
Lemma zyz_turn a b c h : mmul (zyz a b c) (rot_z h) = zyz a b (c + h).
Proof. unfold zyz. rewrite mmul_assoc, rot_z_add. reflexivity. Qed.
Lemma zyz_cong q4 q5 a b : sin q5 <> 0 -> zyz q4 q5 a = zyz q4 q5 b -> cong a b.
Proof.
  intros N E. destruct (zyz_entries q4 q5 a) as (_ & _ & _ & A1 & A2). destruct (zyz_entries q4 q5 b) as (_ & _ & _ & B1 & B2). cbv zeta in *. rewrite E in A1, A2. rewrite B1 in A1. rewrite B2 in A2.
  apply cong_intro; apply (Rmult_eq_reg_l (sin q5)); auto; lra.
Qed.
Lemma mmul_cancel M A B : rotation M -> mmul M A = mmul M B -> A = B.
Proof. intros R E. rewrite <- (mmul_1_l A), <- (mmul_1_l B), <- (rot_orth M R), !mmul_assoc, E. reflexivity. Qed.

(** ** One step and the whole turn *)
Definition ones : list R := [1; 1; 1; 1; 1; 1].
Lemma step : exists d, 0 < d /\ forall t h x y, 0 < h < PI -> In x (sols t) -> In y (sols (t + h)) -> d <= rc ones x y \/ nth 5 y 0 = nth 5 x 0 + h.
Proof.
  destruct (apart [1; 1; 1; 1; 1] (map (firstn 5) (sols 0))) as (d & Hd & K).
  { repeat constructor. }
  { rewrite Forall_forall. intros a Ha. apply in_map_iff in Ha. destruct Ha as (s & <- & I). destruct (sols_inv _ _ I) as (? & ? & ? & ? & ? & ? & -> & _). reflexivity. }
  exists (Rmin d (PI * PI)). pose proof PI_RGT_0 as HP. split; [apply Rmin_glb_lt; auto; nra|]. intros t h x y Hh Ix Iy.
  assert (Px : In (firstn 5 x) (map (firstn 5) (sols 0))) by (rewrite (sols_prefix 0 t); apply in_map; auto). assert (Py : In (firstn 5 y) (map (firstn 5) (sols 0))) by (rewrite (sols_prefix 0 (t + h)); apply in_map; auto).
  destruct (sols_inv _ _ Ix) as (x1 & x2 & x3 & x4 & x5 & x6 & -> & B & N & E). destruct (sols_inv _ _ Iy) as (y1 & y2 & y3 & y4 & y5 & y6 & -> & B' & N' & E').
  pose proof (K _ _ Px Py) as Q. cbn [firstn nth] in *. unfold ones. destruct Q as [Q|Q].
  - injection Q as <- <- <- <- <-. rewrite tframe_more, <- E, mmul_assoc in E'. apply mmul_cancel in E'; [|apply arm2_rot_rotation]. rewrite zyz_turn in E'.
    assert (C : cong y6 (x6 + h)) by (apply (zyz_cong x4 x5); auto). destruct C as (k & C). destruct (Z.eq_dec k 0) as [->|Nk]; [right; lra|]. left.
    eapply Rle_trans; [apply Rmin_r|]. cbn [rc]. replace (y6 - x6) with (h + 2 * IZR k * PI) by lra.
    assert (G : PI * PI <= (h + 2 * IZR k * PI) * (h + 2 * IZR k * PI)).
    { assert (D : (k <= -1 \/ 1 <= k)%Z) by lia. destruct D as [D|D]; apply IZR_le in D; [|nra]. assert (h + 2 * IZR k * PI <= - PI) by nra. nra. }
    pose proof (Rle_0_sqr (x1 - x1)). lra.
  - left. eapply Rle_trans; [apply Rmin_l|]. eapply Rle_trans; [exact Q|]. cbn [rc]. pose proof (Rle_0_sqr (y6 - x6)) as S. unfold Rsqr in S. lra.
Qed.
(** angles t, t+h, .., t+n*h *)
Fixpoint turns (h : R) (n : nat) (t : R) : list R := t :: match n with O => [] | S m => turns h m (t + h) end.
Lemma walk d h : (forall t x y, In x (sols t) -> In y (sols (t + h)) -> d <= rc ones x y \/ nth 5 y 0 = nth 5 x 0 + h) ->
  forall n t x rows, Forall2 (fun t row => In row (sols t)) (turns h n t) (x :: rows) -> d <= wc ones x rows \/ - PI < nth 5 x 0 + INR n * h <= PI.
Proof.
  intros St. assert (W : Forall (fun x => x = 1) ones) by (repeat constructor). assert (NN : forall rows x, 0 <= wc ones x rows) by (induction rows as [|y rows IH]; intros x; cbn [wc]; [lra|pose proof (rc_ones_nonneg ones x y W); specialize (IH y); lra]).
  induction n as [|n IH]; intros t x rows F; cbn [turns] in F; inversion F as [|? ? ? ? Fx Fr]; subst.
  - right. destruct (sols_inv _ _ Fx) as (? & ? & ? & ? & ? & q6 & -> & B & _). cbn [nth INR]. lra.
  - destruct rows as [|y rows]; [destruct n; inversion Fr|]. assert (Fy : In y (sols (t + h))) by (destruct n; inversion Fr; auto). cbn [wc].
    pose proof (NN rows y). pose proof (rc_ones_nonneg ones x y W). destruct (St t x y Fx Fy) as [L|E]; [left; lra|]. destruct (IH _ _ _ Fr) as [L|L]; [left; lra|]. right. rewrite S_INR. lra.
Qed.
Lemma turning_cost h : forall n t, wc ones (turning t) (map turning (tl (turns h n t))) = INR n * (h * h).
Proof.
  induction n as [|n IH]; intros t; cbn [turns tl map wc]; [cbn; lra|]. replace (turns h n (t + h)) with ((t + h) :: tl (turns h n (t + h))) by (destruct n; reflexivity). cbn [map wc]. rewrite IH, S_INR. unfold turning, ones. cbn [rc]. lra.
Qed.
Lemma turned_new t : exists p, new_eulerpt [Fix 0.78; Fix (-0.115); Fix (-0.62)] [Fix (PI / 2); Fix 0; Fix (t + PI / 2)] = Ok p /\ p = turned t.
Proof. eexists. split; [reflexivity|]. reflexivity. Qed.
Lemma turned_ok t n : pt_ok n (PEuler (turned t)) /\ gridded (PEuler (turned t)).
Proof. split; [|exact I]. split; [destruct (turned_new t) as (p & E & ->); eauto|]. cbn. repeat constructor. Qed.
Lemma turned_samples t ypr fuel n : pt_samples ypr fuel n (PEuler (turned t)) = Ok [tframe t].
Proof. reflexivity. Qed.
Lemma turning_serves t : serves 0.18 0.6 0.62 bare (Coll [] []) (PEuler (turned t)) (turning t).
Proof.
  exists (tframe t), 0, 0, 0, (PI / 2), (PI / 2), t. split; auto. split.
  - split; [split; cbn; auto; apply rot_xyz_rotation|]. exists 0.78, (-0.115), (-0.62), (PI / 2), 0, (t + PI / 2). split; auto. cbn. repeat constructor.
  - split; [rewrite <- turning_form; apply kuka_fk|]. split; [apply sqrt_lt_R0; unfold kuka_centre; cbn [vx vy]; rewrite Rplus_0_l, sin_0, cos_0; lra|].
    rewrite sin_0, Rabs_R0, sin_PI2. unfold tol. split; [lra|]. split; [lra|]. apply bare_clear. reflexivity.
Qed.
Lemma turned_reachable ypr fuel n t : reachable 0.18 0.6 0.62 bare (Coll [] []) (pt_samples ypr fuel n) (PEuler (turned t)).
Proof.
  destruct (turning_serves t) as (T & q1 & q2 & q3 & q4 & q5 & q6 & _). exists [tframe t], (tframe t), 0, 0, 0, (PI / 2), (PI / 2), t. split; [apply turned_samples|]. split; [left; auto|].
  split; [rewrite <- turning_form; apply kuka_fk|]. split; [apply sqrt_lt_R0; unfold kuka_centre; cbn [vx vy]; rewrite Rplus_0_l, sin_0, cos_0; lra|].
  rewrite sin_0, Rabs_R0, sin_PI2. unfold tol. split; [lra|]. split; [lra|]. apply bare_clear. reflexivity.
Qed.
Lemma turned_candidate prim ypr fuel n t q : candidate prim bare (Coll [] []) (pt_samples ypr fuel n) (PEuler (turned t)) q -> In q (sols t).
Proof.
  intros (Ts & T & E & I & H). rewrite turned_samples in E. injection E as <-. destruct I as [<-|[]]. rewrite (kuka_free_spec prim 0.18 0.6 0.62 0.115 default_ne bare (new_kuka_ok _ _ _ _)) in H.
  unfold kikp, free in H. rewrite bare_unmount in H. destruct (kuka_sols _ _ _ _ _); [destruct H|]. apply filter_In in H. apply H.
Qed.
Lemma full_turn : exists d, 0 < d /\ forall e, 0 < e -> exists path qs c0, let cost := walk_cost (K := RCost) (jcost (K := RCost) rsq (eff_weights 1 6 None)) in
  path <> [] /\ Forall gridded path /\ (forall n, Forall (pt_ok n) path) /\ Forall2 (serves 0.18 0.6 0.62 bare (Coll [] [])) path qs /\ cost qs = Some c0 /\ c0 < e /\
  forall prim pq ypr fuel n, exact_prim prim -> let plan method := snd (kuka_plan prim (fun x => x) (K := RCost) rsq pq (pt_samples ypr fuel n) (Coll [] []) path method None bare) in
  (exists rows c, plan "bfs"%string = Ok (@GspOk RCost R rows (Some c)) /\ d <= c) /\
  (pq_ok pq -> exists rows c, plan "dijkstra"%string = Ok (@GspOk RCost R rows (Some c)) /\ d <= c).
Proof.
  destruct step as (d & Hd & St). exists d. split; auto. intros e He. pose proof PI_RGT_0 as HP.
  destruct (archimed_cor1 (e / (4 * (PI * PI)))) as (N & HN & HN0); [apply Rdiv_lt_0_compat; nra|]. set (n := S (S N)). set (h := 2 * PI / INR n).
  assert (Hn : 0 < INR N) by (apply lt_0_INR; auto). assert (En : INR n = INR N + 2) by (unfold n; rewrite !S_INR; lra). assert (Hh : INR n * h = 2 * PI) by (unfold h; field; lra).
  assert (Bh : 0 < h < PI). { split; [apply (Rmult_lt_reg_l (INR n)); lra|]. apply (Rmult_lt_reg_l (INR n)); [lra|]. rewrite Hh, En. nra. }
  exists (map (fun t => PEuler (turned t)) (turns h n 0)), (map turning (turns h n 0)), (INR n * (h * h)). cbv zeta. set (path := map (fun t => PEuler (turned t)) (turns h n 0)).
  assert (Q : path <> []) by discriminate. split; auto.
  split; [apply Forall_forall; intros tp I; apply in_map_iff in I; destruct I as (t & <- & _); apply (turned_ok t 0)|].
  split; [intros k; apply Forall_forall; intros tp I; apply in_map_iff in I; destruct I as (t & <- & _); apply (turned_ok t k)|].
  split; [clear; unfold path; induction (turns h n 0) as [|t l IH]; cbn [map]; constructor; auto; apply turning_serves|].
  split. { change (turns h n 0) with (0 :: tl (turns h n 0)). cbn [map walk_cost]. change (@czero RCost) with (Some 0). change (eff_weights 1 6 None) with ones. rewrite wc_spec, turning_cost. f_equal. lra. }
  split.
  { replace (INR n * (h * h)) with (4 * (PI * PI) * / INR n) by (unfold h; clearbody n; field; lra). apply Rlt_trans with (4 * (PI * PI) * / INR N).
    - apply Rmult_lt_compat_l; [nra|]. apply Rinv_lt_contravar; [apply Rmult_lt_0_compat; lra|lra].
    - apply (Rmult_lt_compat_l (4 * (PI * PI))) in HN; [|nra]. replace (4 * (PI * PI) * (e / (4 * (PI * PI)))) with e in HN by (field; lra). exact HN. }
  intros prim pq ypr fuel m X.
  assert (Rch : Forall (reachable 0.18 0.6 0.62 bare (Coll [] []) (pt_samples ypr fuel m)) path) by (apply Forall_forall; intros tp I; apply in_map_iff in I; destruct I as (t & <- & _); apply turned_reachable).
  assert (L : forall rows, Forall2 (fun tp row => exists q, candidate prim bare (Coll [] []) (pt_samples ypr fuel m) tp q /\ row = map (fun x : R => x) q) path rows ->
    exists c, walk_cost (K := RCost) (jcost (K := RCost) rsq (eff_weights 1 6 None)) rows = Some c /\ d <= c).
  { intros rows F. assert (F' : Forall2 (fun t row => In row (sols t)) (turns h n 0) rows).
    { unfold path in F. clear - F. revert rows F. induction (turns h n 0) as [|t l IH]; intros rows F; inversion F as [|? ? ? ? (q & C & ->) F2]; subst; constructor; auto. rewrite map_id. eapply turned_candidate; eauto. }
    destruct rows as [|x rows]; [inversion F'|]. cbn [walk_cost]. change (@czero RCost) with (Some 0). change (eff_weights 1 6 None) with ones. rewrite wc_spec. eexists. split; [reflexivity|].
    assert (B : - PI < nth 5 x 0 <= PI). { cbn [turns n] in F'. inversion F' as [|? ? ? ? Fx _]; subst. destruct (sols_inv _ _ Fx) as (? & ? & ? & ? & ? & ? & -> & B & _). exact B. }
    destruct (walk d h (fun t x y => St t h x y Bh) n 0 x rows F') as [G|G]; lra. }
  split.
  - destruct (kuka_plan_complete prim (fun x => x) 0.18 0.6 0.62 0.115 default_ne bare (new_kuka_ok _ _ _ _) (Coll [] []) (pt_samples ypr fuel m) path None X bare_solid (Forall_nil _) Q Rch pq) as (rows & E & F & _).
    destruct (L rows F) as (c & Ec & Lc). exists rows, c. split; auto. cbv zeta in E. rewrite E, Ec. reflexivity.
  - intros Hq. destruct (kuka_plan_complete_dijkstra prim (fun x => x) 0.18 0.6 0.62 0.115 default_ne bare (new_kuka_ok _ _ _ _) (Coll [] []) (pt_samples ypr fuel m) path None X bare_solid (Forall_nil _) Q Rch pq Hq) as (rows & E & F).
    destruct (L rows F) as (c & Ec & Lc). exists rows, c. split; auto. cbv zeta in E. rewrite E, Ec. reflexivity.
Qed.
