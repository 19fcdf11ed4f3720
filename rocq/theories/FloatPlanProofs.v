(** * A planning task in floating point: proofs of C153. *)
From Coq Require Import String Reals Lra Lia Psatz List Bool Arith ZArith Permutation.
From Flocq Require Import Core.
From Verif Require Import PyBase Cost SpecPath GraphCommon CppGraph CppGraphProofs CppSearch CppMain CppExamples Mat Util UtilProofs Geometry GeometryProofs Robot RobotProofs RobotForms Ik IkProofs KukaProofs Path PathProofs Planning PlanningProofs PlanningCart Pipeline PipelineProofs Motion MotionKuka.
From Verif Require Import FloatFk FloatFkProofs FloatColl FloatCollProofs FloatIk FloatIkProofs FloatIkArm FloatIkWrist FloatIkKuka FloatIkDouble FloatPlan.
Import ListNotations.
Local Open Scope R_scope.

(** ** Sampling *)
(** two numbers at most e apart *)
Definition apart_by (e : R) (x x' : R) : Prop := Rabs (x' - x) <= e.
(** the bounds and fixed values of a point, at most 5 in size, at most 1e13 samples *)
Definition num_small (v : num) : Prop := match v with Fix x => Rabs x <= 5 | Tol t => Rabs (t_lower t) <= 5 /\ Rabs (t_upper t) <= 5 /\ (0 <= t_samples t <= 10000000000000)%Z end.

Lemma Forall2_map_map {X Y Z} (P : Y -> Z -> Prop) (f : X -> Y) (g : X -> Z) l : (forall x, In x l -> P (f x) (g x)) -> Forall2 P (map f l) (map g l).
Proof. induction l as [|x l IH]; intros H; constructor; [apply H; left; auto|apply IH; intros; apply H; right; auto]. Qed.
Lemma choices_rel {X} (P : X -> X -> Prop) r r' : Forall2 (Forall2 P) r r' -> Forall2 (Forall2 P) (choices r) (choices r').
Proof.
  induction 1 as [|a a' r r' Ha Hr IH]; cbn [choices]; [constructor; constructor|].
  induction Ha as [|x x' a a' Hx Ha IH2]; cbn [flat_map]; [constructor|]. apply Forall2_app; [|exact IH2]. clear - IH Hx. induction IH; cbn [map]; constructor; auto.
Qed.
Lemma swap_rel {X} (P : X -> X -> Prop) l l' : Forall2 P l l' -> Forall2 P (swap01 l) (swap01 l').
Proof. intros H. destruct H as [|a a' l l' Ha H]; [constructor|]. destruct H as [|b b' l l' Hb H]; cbn [swap01]; repeat constructor; auto. Qed.
Lemma grid_rel {X} (P : X -> X -> Prop) r r' : r <> [] -> Forall2 (Forall2 P) r r' -> Forall2 (Forall2 P) (create_grid r) (create_grid r').
Proof.
  intros N H. assert (N' : r' <> []) by (destruct H; congruence). rewrite !create_grid_order by auto.
  pose proof (choices_rel P _ _ (swap_rel (Forall2 P) _ _ H)) as C. clear - C. induction C; cbn [map]; constructor; auto using swap_rel.
Qed.

Section Err.
Context (A : arith_ik) (u eta g h : R) (OK : ik_ok A u eta g h).
Context (Hu : 0 < u <= 1e-13) (He : 0 <= eta <= u ^ 2) (Hg : 0 <= g <= 8 * u) (Hh : 0 <= h <= u).
Local Notation rn := (rnd (ar A)).

Lemma scaled w w' : Rabs (w' - w) <= 22.3 * u -> Rabs w <= 10 -> Rabs (rn w' - w) <= 32.6 * u.
Proof.
  intros H W. pose proof (ok_rnd _ _ _ _ _ (io_ar _ _ _ _ _ OK) w') as Hr. pose proof (eta_k u eta Hu He) as K. pose proof (abs_le_add _ _ _ _ H W) as B.
  assert (u * Rabs w' <= u * 10.1) by (apply Rmult_le_compat_l; lra). replace (rn w' - w) with ((rn w' - w') + (w' - w)) by ring. eapply Rle_trans; [apply Rabs_triang|lra].
Qed.
Lemma flinspace_e lo hi n : Rabs lo <= 5 -> Rabs hi <= 5 -> INR n <= 1e13 -> Forall2 (apart_by (51 * u)) (linspace lo hi n) (flinspace A lo hi n).
Proof.
  intros L H N. pose proof (ok_rnd _ _ _ _ _ (io_ar _ _ _ _ _ OK)) as Hr. pose proof (eta_k u eta Hu He) as K. pose proof (eta_u u eta Hu He) as K1.
  set (D := hi - lo). assert (BD : Rabs D <= 10) by (unfold D; eapply Rle_trans; [apply Rabs_triang|rewrite Rabs_Ropp; lra]).
  assert (ED : Rabs (rn D - D) <= 11 * u) by (eapply Rle_trans; [apply (rn_e A u eta g h OK Hu He D 10); auto|lra]). set (D' := rn D) in *.
  assert (BD' : Rabs D' <= 10.1) by (pose proof (abs_le_add _ _ _ _ ED BD); lra).
  destruct n as [|[|m]]; cbn [linspace flinspace]; [constructor| |].
  - constructor; [|constructor]. unfold apart_by. fold D D'. rewrite Rmult_0_l. specialize (Hr 0). rewrite Rabs_R0, Rmult_0_r, Rplus_0_l, Rminus_0_r in Hr.
    replace lo with (0 + lo) at 2 by ring. assert (Z := add_e A u eta g h OK Hu He 0 lo (rn 0) lo 1 0 0 5 51). apply Z; try lra; [rewrite Rminus_0_r; lra|apply exact_e|rewrite Rabs_R0; lra].
  - apply Forall2_app; [|constructor; [|constructor]; unfold apart_by; rewrite Rminus_eq_0, Rabs_R0; lra]. fold D D'. set (M := INR (S m)).
    assert (M1 : 1 <= M) by (unfold M; rewrite S_INR; pose proof (pos_INR m); lra). assert (M2 : M <= 1e13) by (unfold M; rewrite !S_INR in *; lra).
    assert (I0 : 0 < / M <= 1) by (split; [apply Rinv_0_lt_compat; lra|rewrite <- Rinv_1; apply Rinv_le_contravar; lra]). assert (MI : M * / M = 1) by (apply Rinv_r; lra).
    apply Forall2_map_map. intros k Hk. apply in_seq in Hk. unfold apart_by. assert (Kk : 0 <= INR k <= M) by (split; [apply pos_INR|unfold M; apply le_INR; lia]).
    assert (Bw : Rabs (INR k * (D / M)) <= 10).
    { replace (INR k * (D / M)) with ((INR k * / M) * D) by (unfold Rdiv; ring). replace 10 with (1 * 10) by lra. apply abs_mul_le; auto. rewrite Rabs_right by (apply Rle_ge, Rmult_le_pos; lra). apply Rle_trans with (M * / M); [apply Rmult_le_compat_r|]; lra. }
    rewrite (Rplus_comm lo). assert (Q : Rabs ((if Req_EM_T (rn (D' / M)) 0 then rn (rn (INR k / M) * D') else rn (INR k * rn (D' / M))) - INR k * (D / M)) <= 32.6 * u).
    { destruct (Req_EM_T _ 0) as [_|_]; apply scaled; auto.
      - set (t := INR k / M). assert (T0 : Rabs t <= 1) by (unfold t, Rdiv; rewrite Rabs_right by (apply Rle_ge, Rmult_le_pos; lra); apply Rle_trans with (M * / M); [apply Rmult_le_compat_r|]; lra).
        pose proof (Hr t) as Ht. assert (u * Rabs t <= u * 1) by (apply Rmult_le_compat_l; lra). assert (Et : Rabs (rn t - t) <= 1.001 * u) by lra.
        replace (INR k * (D / M)) with (t * D) by (unfold t, Rdiv; ring). replace (rn t * D' - t * D) with ((rn t - t) * D' + t * (D' - D)) by ring. eapply Rle_trans; [apply Rabs_triang|].
        pose proof (abs_mul_le _ _ _ _ Et BD'). pose proof (abs_mul_le _ _ _ _ T0 ED). lra.
      - rewrite <- Rmult_minus_distr_l. rewrite Rabs_mult, (Rabs_right (INR k)) by lra. apply Rle_trans with (M * Rabs (rn (D' / M) - D / M)); [apply Rmult_le_compat_r; [apply Rabs_pos|lra]|].
        assert (E1 : Rabs (D' / M - D / M) <= 11 * u * / M) by (unfold Rdiv; rewrite <- Rmult_minus_distr_r, Rabs_mult, (Rabs_right (/ M)) by lra; apply Rmult_le_compat_r; lra).
        pose proof (Hr (D' / M)) as E2. assert (E3 : u * Rabs (D' / M) <= u * (10.1 * / M)) by (apply Rmult_le_compat_l; [lra|]; unfold Rdiv; rewrite Rabs_mult, (Rabs_right (/ M)) by lra; apply Rmult_le_compat_r; lra).
        assert (E4 : Rabs (rn (D' / M) - D / M) <= 21.1 * u * / M + eta) by (replace (rn (D' / M) - D / M) with ((rn (D' / M) - D' / M) + (D' / M - D / M)) by ring; eapply Rle_trans; [apply Rabs_triang|lra]).
        apply Rle_trans with (M * (21.1 * u * / M + eta)); [apply Rmult_le_compat_l; lra|]. replace (M * (21.1 * u * / M + eta)) with (21.1 * u * (M * / M) + M * eta) by ring. rewrite MI.
        assert (M * eta <= 1e13 * u ^ 2) by (apply Rmult_le_compat; lra). assert (1e13 * u ^ 2 <= 1 * u) by (replace (1e13 * u ^ 2) with (1e13 * u * u) by ring; apply Rmult_le_compat_r; lra). lra. }
    apply (add_e A u eta g h OK Hu He _ _ _ _ 32.6 0 10 5); auto; try lra. apply exact_e.
Qed.
Lemma fdiscretise_e v : num_small v -> exists l l', discretise_num v = Ok l /\ fdiscretise_num A v = Ok l' /\ Forall2 (apart_by (51 * u)) l l'.
Proof.
  destruct v as [x|t]; cbn [num_small discretise_num fdiscretise_num].
  - intros _. exists [x], [x]. split; auto. split; auto. constructor; [|constructor]. unfold apart_by. rewrite Rminus_eq_0, Rabs_R0. lra.
  - intros (B1 & B2 & S1 & S2). unfold tol_discretise, ftol_discretise. destruct (Z.ltb_spec (t_samples t) 0); [lia|]. do 2 eexists. split; [reflexivity|]. split; [reflexivity|].
    apply flinspace_e; auto. rewrite INR_IZR_INZ, Z2Nat.id by lia. apply IZR_le in S2. lra.
Qed.
Lemma frots_e a a' : apart_by (51 * u) a a' -> mnear (52 * u) (rot_x a) (frot_x A a') /\ mnear (52 * u) (rot_y a) (frot_y A a') /\ mnear (52 * u) (rot_z a) (frot_z A a').
Proof.
  intros H. pose proof (sin_e A u eta g h OK _ _ _ H) as S1. pose proof (cos_e A u eta g h OK _ _ _ H) as C1. replace (51 + 1) with 52 in S1, C1 by lra.
  pose proof (opp_e u _ _ _ S1) as N. assert (Z0 : Rabs (0 - 0) <= 52 * u) by (rewrite Rminus_eq_0, Rabs_R0; lra). assert (Z1 : Rabs (1 - 1) <= 52 * u) by (rewrite Rminus_eq_0, Rabs_R0; lra).
  repeat split; cbn [frot_x frot_y frot_z rot_x rot_y rot_z m00 m01 m02 m10 m11 m12 m20 m21 m22]; auto.
Qed.
(** a rounded row of the grid gives a frame close to that of the exact row *)
Lemma fframe_e p p' : length p = 6%nat -> Forall2 (apart_by (51 * u)) p p' -> exists T T', frame_of_row p = Ok T /\ fframe_of_row A p' = Ok T' /\ tnear u 2110 51 T T'.
Proof.
  intros L H. destruct p as [|x [|y [|z [|a [|b [|c [|]]]]]]]; try discriminate L. apply Forall2_6 in H. destruct H as (x' & y' & z' & a' & b' & c' & -> & Hx & Hy & Hz & Ha & Hb & Hc).
  cbn [frame_of_row fframe_of_row]. do 2 eexists. split; [reflexivity|]. split; [reflexivity|]. split; [|split; [|split; reflexivity]].
  - cbn [rot]. unfold rot_xyz. destruct (frots_e _ _ Ha) as (X & _ & _), (frots_e _ _ Hb) as (_ & Y & _), (frots_e _ _ Hc) as (_ & _ & Z).
    pose proof (fmul3_e A u eta g h OK Hu Hg Hh _ _ _ _ 52 52 (rot_y_rotation b) (rot_z_rotation c) Y Z ltac:(lra) ltac:(lra)) as YZ.
    pose proof (fmul3_e A u eta g h OK Hu Hg Hh _ _ _ _ 52 _ (rot_x_rotation a) (rotation_mmul _ _ (rot_y_rotation b) (rot_z_rotation c)) X YZ ltac:(lra) ltac:(lra)) as XYZ.
    eapply mnear_le; [|exact XYZ]. apply Rmult_le_compat_r; lra.
  - cbn [pos]. split; [|split]; auto.
Qed.
Lemma mapM_rel {X Y Z} (f : X -> res Y) (f' : X -> res Z) (P : Y -> Z -> Prop) l : (forall x, In x l -> exists y z, f x = Ok y /\ f' x = Ok z /\ P y z) -> exists ys zs, mapM f l = Ok ys /\ mapM f' l = Ok zs /\ Forall2 P ys zs.
Proof.
  induction l as [|x l IH]; intros H; [exists [], []; repeat split; constructor|]. destruct (H x) as (y & z & E1 & E2 & Pz); [left; auto|]. destruct IH as (ys & zs & F1 & F2 & F); [intros; apply H; right; auto|].
  exists (y :: ys), (z :: zs). cbn [mapM]. rewrite E1, E2. cbn [bind]. rewrite F1, F2. repeat split. constructor; auto.
Qed.
Lemma mapM_rel2 {X X' Y Z} (f : X -> res Y) (f' : X' -> res Z) (Q : X -> X' -> Prop) (P : Y -> Z -> Prop) l l' : Forall2 Q l l' -> (forall x x', In x l -> Q x x' -> exists y z, f x = Ok y /\ f' x' = Ok z /\ P y z) ->
  exists ys zs, mapM f l = Ok ys /\ mapM f' l' = Ok zs /\ Forall2 P ys zs.
Proof.
  induction 1 as [|x x' l l' Hx Hl IH]; intros H; [exists [], []; repeat split; constructor|]. destruct (H x x') as (y & z & E1 & E2 & Pz); [left; auto|auto|]. destruct IH as (ys & zs & F1 & F2 & F); [intros; eapply H; eauto; right; auto|].
  exists (y :: ys), (z :: zs). cbn [mapM]. rewrite E1, E2. cbn [bind]. rewrite F1, F2. repeat split. constructor; auto.
Qed.
(** the point of the path: three coordinates, three angles *)
Definition pt_small (p : eulerpt) : Prop := (3 <= length (e_pos p))%nat /\ (3 <= length (e_rpy p))%nat /\ Forall num_small (firstn 3 (e_pos p)) /\ Forall num_small (firstn 3 (e_rpy p)).
Lemma mapM_length {X Y} (f : X -> res Y) l ys : mapM f l = Ok ys -> length ys = length l.
Proof. intros H. apply TaskProofs.mapM_Forall2 in H. symmetry. eapply Forall2_length; eauto. Qed.
Lemma feuler_e p : pt_small p -> exists Ts Ts', euler_samples p = Ok Ts /\ feuler_samples A p = Ok Ts' /\ Forall2 (tnear u 2110 51) Ts Ts'.
Proof.
  intros (L1 & L2 & S1 & S2). rewrite Forall_forall in S1, S2. unfold euler_samples, feuler_samples.
  destruct (mapM_rel discretise_num (fdiscretise_num A) (Forall2 (apart_by (51 * u))) (firstn 3 (e_pos p))) as (r1 & r1' & E1 & E1' & R1); [intros; apply fdiscretise_e; auto|].
  destruct (mapM_rel discretise_num (fdiscretise_num A) (Forall2 (apart_by (51 * u))) (firstn 3 (e_rpy p))) as (r2 & r2' & E2 & E2' & R2); [intros; apply fdiscretise_e; auto|].
  rewrite E1, E1'. cbn [bind]. rewrite E2, E2'. cbn [bind]. pose proof (Forall2_app R1 R2) as RR.
  assert (LR : length (r1 ++ r2) = 6%nat) by (rewrite app_length, (mapM_length _ _ _ E1), (mapM_length _ _ _ E2), !firstn_length; lia).
  assert (N : r1 ++ r2 <> []) by (intros Z; rewrite Z in LR; discriminate).
  apply (mapM_rel2 _ _ _ _ _ _ (grid_rel _ _ _ N RR)). intros x x' Hx HQ. apply fframe_e; auto. apply create_grid_In in Hx; auto. apply Forall2_length in Hx. lia.
Qed.
End Err.

(** ** The size of the angles *)
Section Range.
Context (A : arith_ik) (u eta g h : R) (OK : ik_ok A u eta g h).
Context (Hu : 0 < u <= 1e-13) (He : 0 <= eta <= u ^ 2).
Local Notation rn := (rnd (ar A)).
Definition small (b : R) (q : list R) : Prop := Forall (fun x => Rabs x <= b) q.
Lemma q3_range num den a1 x y q1 a b : farm2_q3 A num den a1 x y q1 = Ok (Some (a, b)) -> Rabs a <= 3.2 /\ Rabs b <= 3.2.
Proof.
  unfold farm2_q3. intros H. apply bind_Ok in H. destruct H as (c3 & _ & H). destruct (felbow A (rn c3)); [|discriminate]. injection H as <- <-. split; apply (io_range _ _ _ _ _ OK).
Qed.
Lemma arm_range r T qs : farm2_ik A r T = Ok (IkOk qs) -> Forall (fun q => length q = 3%nat /\ small 3.2 q) qs.
Proof.
  unfold farm2_ik. intros H. do 3 (apply bind_Ok in H; destruct H as (? & _ & H)). apply bind_Ok in H. destruct H as (o1 & E1 & H). apply bind_Ok in H. destruct H as (o2 & E2 & H). cbv zeta in H.
  pose proof (io_range _ _ _ _ _ OK) as RG.
  assert (K : forall a b c, Rabs c <= 3.2 -> Rabs a <= 3.2 -> Rabs b <= 3.2 -> length [a; b; c] = 3%nat /\ small 3.2 [a; b; c]) by (intros; split; [reflexivity|]; repeat (apply Forall_cons; [assumption|]); apply Forall_nil).
  destruct o1 as [[a b]|], o2 as [[c d]|]; try discriminate H; injection H as <-; try (apply q3_range in E1; destruct E1 as [E1 E1']); try (apply q3_range in E2; destruct E2 as [E2 E2']); cbn [app];
    repeat (apply Forall_cons; [apply K; auto|]); apply Forall_nil.
Qed.
Lemma angles_range M : Forall (small 3.2) (fwrist_angles A M).
Proof. pose proof (io_range _ _ _ _ _ OK) as RG. unfold fwrist_angles. repeat (apply Forall_cons; [repeat (apply Forall_cons; [apply RG|]); apply Forall_nil|]). apply Forall_nil. Qed.
Lemma small_le b b' q : b <= b' -> small b q -> small b' q.
Proof. intros H. apply Forall_impl. intros x Hx. lra. Qed.
Lemma loop_range Tw : forall qs arm w arm2 w2 sols, Forall (fun q => length q = 3%nat /\ small 3.2 q) qs -> fkuka_loop A Tw arm w qs = (arm2, w2, Ok sols) -> Forall (small 4.8) sols.
Proof.
  induction qs as [|q qs IH]; intros arm w arm2 w2 sols HQ H; cbn [fkuka_loop] in H; [injection H as _ _ <-; constructor|]. inversion HQ as [|? ? [L S1] HQ']; subst.
  destruct q as [|q1 [|q2 [|q3 [|]]]]; try discriminate L. cbn [nth_error upd] in H. destruct (ffk (ar A) arm _) as [arm1 [F| |]]; try discriminate H. unfold fwrist_ik in H.
  revert H. match goal with |- context [fwrist_angles A ?M] => generalize (fwrist_angles A M) (angles_range M) end. intros W HW H.
  destruct (fkuka_loop A Tw arm1 _ qs) as [[arm3 w3] rest] eqn:E. injection H as _ _ H. apply bind_Ok in H. destruct H as (rest' & -> & H). injection H as <-.
  apply Forall_app. split; [|eapply IH; eauto]. cbn [read w_qsol]. apply Forall_map. eapply Forall_impl; [|exact HW]. intros qw Hw.
  inversion S1 as [|? ? B1 S2]; subst. inversion S2 as [|? ? B2 S3]; subst. inversion S3 as [|? ? B3 _]; subst. cbn [app].
  apply Forall_cons; [lra|]. apply Forall_cons; [lra|]. apply Forall_cons; [|eapply small_le; [|exact Hw]; lra].
  pose proof (io_pi _ _ _ _ _ OK) as P. pose proof PI_le as P2. pose proof PI_RGT_0 as P0. assert (PB : Rabs PI <= 3.15) by (rewrite Rabs_right; lra). pose proof (abs_le_add _ _ _ _ P PB) as P4.
  assert (BB : Rabs (q3 + fpi A / 2) <= 4.78) by (eapply Rle_trans; [apply Rabs_triang|]; unfold Rdiv; rewrite Rabs_mult, (Rabs_right (/ 2)) by lra; lra).
  pose proof (rn_e A u eta g h OK Hu He _ _ BB) as Rr. pose proof (abs_le_add _ _ _ _ Rr BB). lra.
Qed.
Lemma fkuka_range k T sols : snd (fkuka_ik A k T) = Ok (IkOk (Own sols)) -> Forall (small 4.8) sols.
Proof.
  unfold fkuka_ik. destruct (fkuka_target A (k_rob k) T) as [Tw| |]; try discriminate. destruct (farm2_ik A (k_arm k) Tw) as [[|qs]| |] eqn:E; try discriminate.
  destruct (fkuka_loop A Tw (k_arm k) (k_wrist k) qs) as [[arm w] r] eqn:EL. cbn [snd]. intros H. apply bind_Ok in H. destruct H as (s & -> & H). destruct s as [|x s]; [discriminate|]. injection H as <-.
  eapply loop_range; [|exact EL]. eapply arm_range; eauto.
Qed.
End Range.

(** ** The robot between calls *)
Section Keep.
Context (A : arith) (u eta : R).
Lemma fframes_keep : forall ls q T, Forall clean_link ls -> Forall clean_link (fst (fframes_loop A ls q T)) /\ map reset_link (fst (fframes_loop A ls q T)) = map reset_link ls.
Proof.
  induction ls as [|l ls IH]; intros q T C; cbn [fframes_loop]; [auto|]. destruct q as [|qi q]; [auto|]. inversion C as [|? ? Cl Cs]; subst.
  assert (K : forall T1, clean_T T1 -> clean_link (set_T l T1) /\ reset_link (set_T l T1) = reset_link l) by (intros; split; auto).
  assert (W : forall a al d t, clean_T (fwrite_T A (l_T l) a al d t)) by (intros; destruct Cl as (c1 & c2 & c3); unfold clean_T, fwrite_T; cbn; auto).
  unfold flink_transform. destruct (l_jt l).
  - destruct (IH q (fmul A T (fwrite_T A (l_T l) (da (l_dh l)) (dalpha (l_dh l)) (dd (l_dh l)) qi)) Cs) as [I1 I2]. destruct (fframes_loop _ _ _ _) as [ls1 R1]. cbn [fst map] in *.
    destruct (K _ (W (da (l_dh l)) (dalpha (l_dh l)) (dd (l_dh l)) qi)). split; [constructor; auto|congruence].
  - destruct (IH q (fmul A T (fwrite_T A (l_T l) (da (l_dh l)) (dalpha (l_dh l)) qi (dtheta (l_dh l)))) Cs) as [I1 I2]. destruct (fframes_loop _ _ _ _) as [ls1 R1]. cbn [fst map] in *.
    destruct (K _ (W (da (l_dh l)) (dalpha (l_dh l)) qi (dtheta (l_dh l)))). split; [constructor; auto|congruence].
  - cbn [fst]. split; [constructor; auto|reflexivity].
Qed.
Lemma fprio_loop_In collide gs tfs scene p i : fprio_loop collide gs tfs scene p = Ok (Some i) -> In i p.
Proof.
  induction p as [|j p IH]; cbn [fprio_loop]; [discriminate|]. intros H. apply bind_Ok in H. destruct H as (g & _ & H). apply bind_Ok in H. destruct H as (tf & _ & H).
  destruct (collide g scene (Some tf) None); [injection H as <-; left; auto|right; auto].
Qed.
(** the check changes cached matrices and the order of the links only *)
Lemma frobot_collision_fst prim r q scene : good r -> good (fst (frobot_collision A prim r q scene)) /\ reset (fst (frobot_collision A prim r q scene)) = reset r.
Proof.
  intros G. unfold frobot_collision. cbn zeta. destruct (match r_base r with Some _ => _ | None => _ end); [auto|]. unfold ffk_all_links.
  destruct (fframes_keep (r_links r) q (r_tfb r) (good_clean _ G)) as [C E]. destruct (fframes_loop A (r_links r) q (r_tfb r)) as [ls fs]. cbn [fst] in C, E.
  destruct (set_links_keep r ls G C E) as [G1 E1]. destruct fs as [tfs| |]; cbn [fst]; auto. destruct (fprio_loop _ _ _ _ _) as [[i|]| |] eqn:EP; cbn [fst]; auto.
  apply fprio_loop_In in EP. split.
  - destruct G1 as [C1 P]. split; auto. cbn [r_prio]. unfold ndof, set_prio. cbn. rewrite remove_first_perm by auto. exact P.
  - exact E1.
Qed.
Lemma reset_near r r' r1 : robot_near u eta r r' -> geom_near u eta r r' -> good r1 -> reset r1 = reset r' -> robot_near u eta r r1 /\ geom_near u eta r r1.
Proof.
  intros [N1 N2 N3] [M1 M2 M3 M4' M5] G E. pose proof (f_equal r_links E) as E1. pose proof (f_equal r_base E) as E2. pose proof (f_equal r_tool E) as E3. pose proof (f_equal r_tfb E) as E4. pose proof (f_equal r_mat E) as E5. pose proof (f_equal r_self E) as E6.
  cbn [reset r_links r_base r_tool r_tfb r_mat r_self] in *. split; split; rewrite ?E2, ?E3, ?E4, ?E5, ?E6; auto.
  - eapply near_again; eauto. apply G.
  - apply (f_equal (map l_geom)) in E1. rewrite !geom_reset in E1. clear - M1 E1. revert E1. generalize (r_links r1). induction M1 as [|l l' ls ls' Hl M IH]; intros [|l1 ls1] E; try discriminate; constructor; cbn [map] in E; injection E as E E'; [rewrite E; auto|auto].
Qed.
End Keep.

(** ** The conversion to float32 of angles up to 4.8 *)
Lemma f32_error48 x : Rabs x <= 4.8 -> Rabs (f32 x - x) <= ulp_bound.
Proof.
  intros H. unfold f32, CostFloat.rnd. destruct (Relative.error_N_FLT radix2 (-149) 24 ltac:(lia) (fun z => negb (Z.even z)) x) as (eps & eta & E1 & E2 & _ & E).
  change (round radix2 (FLT_exp (-149) 24) ZnearestE x) with (round radix2 (FLT_exp (-149) 24) (Znearest (fun z => negb (Z.even z))) x). rewrite E.
  replace (x * (1 + eps) + eta - x) with (x * eps + eta) by ring. eapply Rle_trans; [apply Rabs_triang|]. rewrite Rabs_mult.
  assert (B2 : / 2 * bpow radix2 (-149) <= / 1000000000). { apply Rle_trans with (/ 2 * bpow radix2 (-30)); [apply Rmult_le_compat_l; [lra|]; apply bpow_le; lia|cbn; lra]. }
  assert (X : Rabs x * Rabs eps <= 4.8 * / 16777216). { apply Rmult_le_compat; try apply Rabs_pos; [lra|]. eapply Rle_trans; [exact E1|]. change (- (24) + 1)%Z with (-23)%Z. cbn. lra. }
  unfold ulp_bound. lra.
Qed.
Lemma rounded48 q : small 4.8 q -> Forall2 (fun x y => Rabs (x - y) <= ulp_bound) q (map f32 q).
Proof. induction 1; cbn [map]; constructor; auto. rewrite Rabs_minus_sym. apply f32_error48. auto. Qed.

(** ** A planning task in double precision *)
Section Double.
Context (k : kuka) (KS : kuka_std k) (So : solid (k_rob k)) (RSz : robot_size 10 10 (k_rob k)).
Context (prim : shape -> mat3 -> vec3 -> shape -> mat3 -> vec3 -> bool) (tol : R) (TW : test_within prim tol) (T0 : 0 <= tol).
Context (scene scene' : coll) (RS : rigid_coll scene) (SN : coll_near u64 eta64 scene scene') (SSz : coll_size 10 10 scene).
Notation rob := (k_rob k).
(** the two robots differ by rounding only *)
Definition same_kuka (k' : kuka) : Prop := kuka_near u64 eta64 k k' /\ geom_near u64 eta64 rob (k_rob k') /\ good (k_rob k').
(** what C152 says of a row for the pose T *)
Definition solves (T : mat4) (q : list R) : Prop :=
  exists q1 q2 q3 q4 q5 q6 F, q = [q1; q2; q3; q4; q5; q6] /\ snd (fk rob q) = Ok F /\ let X := unmount rob T in
    len (vsub (kuka_centre 0.18 0.6 0.62 q1 q2 q3) (centre 0.115 X)) <= centre_err u64 q3 /\
    Rabs (cos q5 - vdot (col2 (arm2_rot q1 (q2 + q3))) (col2 (rot X))) <= 400 * (2110 + 120) * u64 /\
    forall s, 54000 * (2110 + 120) * u64 <= s <= Rabs (sin q5) ->
      (forall v, len (vsub (mapply (rot F) v) (mapply (rot T) v)) <= rho u64 2110 s * len v) /\ len (vsub (pos F) (pos T)) <= centre_err u64 q3 + 0.615 * rho u64 2110 s.
(** the robot without collision after making every box smaller by the margin *)
Definition safe (q : list R) : Prop := clear (shrink_robot (3e-11 + tol) rob) (shrink_coll (3e-11 + tol) scene) q.

Lemma frame48 q i x : length q = 6%nat -> small 4.8 q -> len (vsub (tapply (frame rob (map f32 q) i) x) (tapply (frame rob q i) x)) <= ulp_bound * (kuka_size 0.18 0.6 0.62 0.115 + 6 * len x).
Proof.
  intros L H. destruct KS as [KO KB _ _]. rewrite len_sym.
  eapply Rle_trans; [apply frame_move; auto; rewrite map_length; auto|]. eapply Rle_trans; [apply move_firstn, len_nonneg|].
  rewrite (move_like _ (r_links (Kuka 0.18 0.6 0.62 0.115))) by apply (ko_rob _ _ _ _ _ KO). apply kuka_move_links; auto using len_nonneg, rounded48.
Qed.
Lemma fk48 q x : length q = 6%nat -> small 4.8 q ->
  exists F F', snd (fk rob q) = Ok F /\ snd (fk rob (map f32 q)) = Ok F' /\ len (vsub (tapply F' x) (tapply F x)) <= ulp_bound * (kuka_size 0.18 0.6 0.62 0.115 + 6 * (tip_len rob + len x)).
Proof.
  intros L H. destruct KS as [KO KB _ _]. pose proof (ko_rob _ _ _ _ _ KO) as Lk. destruct (fk_move rob q (map f32 q) x) as (F & F' & E & E' & M); auto; [apply Lk|eapply like_joints; eauto; apply Kuka_joints|apply solid_tool; auto| |rewrite map_length; auto|].
  { rewrite (like_ndof _ _ Lk), L. cbn. lia. }
  exists F, F'. split; auto. split; auto. rewrite len_sym. eapply Rle_trans; [exact M|]. rewrite (move_like _ (r_links (Kuka 0.18 0.6 0.62 0.115))) by apply Lk. apply kuka_move_links; auto using rounded48.
  assert (0 <= tip_len rob) by (unfold tip_len; destruct (r_tool rob) as [[? ?]|]; [apply len_nonneg|lra]). pose proof (len_nonneg x). lra.
Qed.

Lemma call_e k' T T' : same_kuka k' -> rigid T -> len (vsub (pos T) (pos (r_tfb rob))) <= 3 -> tnear u64 2110 51 T T' ->
  same_kuka (fst (fkuka_call double_ik k' T')) /\ exists r, snd (fkuka_call double_ik k' T') = Ok r /\
  match r with None => forall q1 q2 q3 q4 q5 q6, snd (fk rob [q1; q2; q3; q4; q5; q6]) <> Ok T | Some qs => qs <> [] /\ Forall (fun q => solves T q /\ small 4.8 q) qs end.
Proof.
  intros (NK & GN & G') RT LT TN. pose proof u64_pos as U0. pose proof eta64_pos as E0. pose proof u64_le as U1. pose proof eta64_le as E1. pose proof eta64_sq as E2.
  assert (Hu : 0 < u64 <= 1e-13) by lra. assert (He : 0 <= eta64 <= u64 ^ 2) by lra.
  destruct (fkuka_e double_ik u64 eta64 (5 * u64) (10 * eta64) double_ik_ok Hu He ltac:(lra) ltac:(lra) 2110 51 ltac:(lra) ltac:(lra) k k' T T' KS NK RT LT TN) as [NK2 HS].
  assert (ER : k_rob (fst (fkuka_ik double_ik k' T')) = k_rob k').
  { unfold fkuka_ik. destruct (fkuka_target _ _ _) as [Tw| |]; auto. destruct (farm2_ik _ _ _) as [[|qs]| |]; auto. destruct (fkuka_loop _ _ _ _ _) as [[arm w] r]. reflexivity. }
  unfold fkuka_call. pose proof (fkuka_range double_ik u64 eta64 (5 * u64) (10 * eta64) double_ik_ok Hu He k' T') as RG.
  destruct (fkuka_ik double_ik k' T') as [k2 r]. cbn [fst snd] in *. split; [split; [exact NK2|rewrite ER; auto]|].
  destruct HS as [[-> HF]|(sols & -> & HL & HQ)]; cbn [bind]; eexists; (split; [reflexivity|]); cbn [read]; auto.
  split; [destruct sols; [cbn in HL; lia|discriminate]|]. specialize (RG sols eq_refl). rewrite Forall_forall in RG |- *. intros q Hq. split; [|apply RG; auto].
  destruct (HQ q Hq) as (q1 & q2 & q3 & q4 & q5 & q6 & F & -> & EF & HC & HD & HP). exists q1, q2, q3, q4, q5, q6, F. auto.
Qed.
Lemma check_e k' q : same_kuka k' -> length q = 6%nat -> same_kuka (kuka_put k' (fst (frobot_collision double prim (k_rob k') q scene'))) /\
  exists b, snd (frobot_collision double prim (k_rob k') q scene') = Ok b /\ (b = false -> safe q) /\ (clear_by (3e-11 + tol) rob scene q -> b = false).
Proof.
  intros ((NR & NA) & GN & G') L. destruct KS as [KO KB KL KT]. pose proof (ko_rob _ _ _ _ _ KO) as Lk. pose proof u64_pos as U0. split.
  - destruct (frobot_collision_fst double prim (k_rob k') q scene' G') as [G1 E1]. destruct (reset_near u64 eta64 rob (k_rob k') _ NR GN G1 E1) as [N1 N2].
    split; [split; [exact N1|exact NA]|]. split; [exact N2|exact G1].
  - assert (ND : ndof rob = 6%nat) by (rewrite (like_ndof _ _ Lk); reflexivity).
    apply check_double; auto; try apply Lk; try lia; try lra.
    + eapply like_joints; eauto. apply Kuka_joints.
    + destruct q as [|q1 [|q2 [|q3 [|q4 [|q5 [|q6 [|]]]]]]]; try discriminate L. destruct Lk as [_ LL]. revert LL. generalize (r_links rob). intros ls LL.
      destruct ls as [|l1 [|l2 [|l3 [|l4 [|l5 [|l6 [|]]]]]]]; try discriminate LL. cbn in LL. injection LL. intros J6 _ J5 _ J4 _ J3 _ J2 _ J1 _.
      repeat (apply jn_cons; [unfold joint_near; rewrite ?J1, ?J2, ?J3, ?J4, ?J5, ?J6; rewrite Rminus_eq_0, Rabs_R0; lra|]). apply jn_nil.
    + destruct q as [|q1 [|q2 [|q3 [|q4 [|q5 [|q6 [|]]]]]]]; try discriminate L. rewrite kuka_span by auto. lra.
Qed.
Lemma sols_e : forall qs k' acc, same_kuka k' -> Forall (fun q => length q = 6%nat) qs -> exists l, snd (fcheck_sols double_ik prim scene' qs k' acc) = Ok (acc ++ l) /\ same_kuka (fst (fcheck_sols double_ik prim scene' qs k' acc)) /\
  (forall q, In q l -> In q qs /\ safe q) /\ (forall q, In q qs -> clear_by (3e-11 + tol) rob scene q -> In q l).
Proof.
  induction qs as [|q qs IH]; intros k' acc I1 L; cbn [fcheck_sols].
  - exists []. rewrite app_nil_r. split; auto. split; auto. split; intros q [].
  - inversion L as [|? ? L1 L2]; subst. destruct (check_e k' q I1 L1) as [I2 (b & Eb & B1 & B2)]. cbn [double_ik ar]. destruct (frobot_collision double prim (k_rob k') q scene') as [r c]. cbn [fst snd] in *. subst c. destruct b.
    + destruct (IH (kuka_put k' r) acc I2 L2) as (l & E1 & E2 & E3 & E4). exists l. split; auto. split; auto. split.
      * intros q' H'. destruct (E3 q' H'). split; auto. right; auto.
      * intros q' [<-|H'] C; [specialize (B2 C); discriminate|auto].
    + destruct (IH (kuka_put k' r) (acc ++ [q]) I2 L2) as (l & E1 & E2 & E3 & E4). exists (q :: l). rewrite <- app_assoc in E1. split; auto. split; auto. split.
      * intros q' [<-|H']; [split; [left; auto|auto]|]. destruct (E3 q' H'). split; auto. right; auto.
      * intros q' [<-|H'] C; [left; auto|right; auto].
Qed.
(** some joint values reach T, and every row that can come out for T keeps its distance *)
Definition easy (T : mat4) : Prop :=
  (exists q1 q2 q3 q4 q5 q6, snd (fk rob [q1; q2; q3; q4; q5; q6]) = Ok T) /\ forall q, solves T q -> clear_by (3e-11 + tol) rob scene q.
Definition pose_ok (T : mat4) : Prop := rigid T /\ len (vsub (pos T) (pos (r_tfb rob))) <= 3.
Lemma frames_e : forall Ts Ts', Forall2 (tnear u64 2110 51) Ts Ts' -> Forall pose_ok Ts -> forall k' acc, same_kuka k' ->
  exists l, snd (fsolve_frames double_ik prim scene' Ts' k' acc) = Ok (acc ++ l) /\ same_kuka (fst (fsolve_frames double_ik prim scene' Ts' k' acc)) /\
  (forall q, In q l -> exists T, In T Ts /\ solves T q /\ small 4.8 q /\ safe q) /\ (forall T, In T Ts -> easy T -> l <> []).
Proof.
  induction 1 as [|T T' Ts Ts' TN F2 IH]; intros P k' acc I1; cbn [fsolve_frames].
  - exists []. rewrite app_nil_r. split; auto. split; auto. split; [intros q []|intros T []].
  - inversion P as [|? ? [RT LT] P']; subst. destruct (call_e k' T T' I1 RT LT TN) as [I2 (r & Er & Hr)]. destruct (fkuka_call double_ik k' T') as [k2 rr]. cbn [fst snd] in *. subst rr. destruct r as [qs|].
    + destruct Hr as [NE FQ]. destruct (sols_e qs k2 acc I2) as (l1 & C1 & C2 & C3 & C4). { eapply Forall_impl; [|exact FQ]. intros q [(q1 & q2 & q3 & q4 & q5 & q6 & F & -> & _) _]. reflexivity. }
      destruct (fcheck_sols double_ik prim scene' qs k2 acc) as [k3 acc3]. cbn [fst snd] in *. subst acc3.
      destruct (IH P' k3 (acc ++ l1) C2) as (l2 & D1 & D2 & D3 & D4). exists (l1 ++ l2). rewrite app_assoc. split; auto. split; auto. rewrite Forall_forall in FQ. split.
      * intros q Hq. apply in_app_iff in Hq. destruct Hq as [Hq|Hq].
        -- destruct (C3 q Hq) as [J1 J2]. destruct (FQ q J1). exists T. split; [left; auto|auto].
        -- destruct (D3 q Hq) as (T2 & J1 & J2). exists T2. split; [right; auto|auto].
      * intros T2 [<-|H2] Ez; [|intros Z; apply app_eq_nil in Z; exact (D4 T2 H2 Ez (proj2 Z))]. destruct qs as [|q qs]; [congruence|].
        destruct Ez as [_ Ez]. pose proof (C4 q (or_introl eq_refl) (Ez q (proj1 (FQ q (or_introl eq_refl))))) as J. destruct l1; [destruct J|discriminate].
    + destruct (IH P' k2 acc I2) as (l & D1 & D2 & D3 & D4). exists l. split; auto. split; auto. split.
      * intros q Hq. destruct (D3 q Hq) as (T2 & J1 & J2). exists T2. split; [right; auto|auto].
      * intros T2 [<-|H2] Ez; [|eauto]. destruct Ez as [(q1 & q2 & q3 & q4 & q5 & q6 & Ez) _]. exfalso. exact (Hr _ _ _ _ _ _ Ez).
Qed.
(** a point with ordered tolerances, numbers of ordinary size, all allowed poses within 3 of the base *)
Definition pt_fine (p : eulerpt) : Prop := pt_small p /\ pt_ok 0 (PEuler p) /\ forall T, allowed (PEuler p) T -> len (vsub (pos T) (pos (r_tfb rob))) <= 3.
(** one of the samples of p is easy *)
Definition pt_easy (p : eulerpt) : Prop := exists Ts T, euler_samples p = Ok Ts /\ In T Ts /\ easy T.
Definition kept (p : eulerpt) (q : list R) : Prop := exists T, allowed (PEuler p) T /\ solves T q /\ small 4.8 q /\ safe q.
Lemma columns_e : forall path k', Forall pt_fine path -> same_kuka k' -> same_kuka (fst (fkuka_columns double_ik prim f32 scene' path k')) /\
  exists data, snd (fkuka_columns double_ik prim f32 scene' path k') = Ok (map (entry_of f32) data) /\
  Forall2 (fun p l => Forall (kept p) l /\ (pt_easy p -> l <> [])) path data.
Proof.
  induction path as [|p path IH]; intros k' P I1; cbn [fkuka_columns]; [split; [auto|exists []; auto]|]. inversion P as [|? ? (P1 & P2 & P3) P']; subst.
  pose proof u64_pos as U0. pose proof eta64_pos as E0. pose proof u64_le as U1. pose proof eta64_le as E1. pose proof eta64_sq as E2.
  assert (Hu : 0 < u64 <= 1e-13) by lra. assert (He : 0 <= eta64 <= u64 ^ 2) by lra.
  destruct (feuler_e double_ik u64 eta64 (5 * u64) (10 * eta64) double_ik_ok Hu He ltac:(lra) ltac:(lra) p P1) as (Ts & Ts' & ET & ET' & TN). rewrite ET'.
  destruct (pt_allowed (fun _ => v0) 0 0 (PEuler p) P2) as (Ts2 & E3 & AL). cbn [pt_samples] in E3. rewrite ET in E3. injection E3 as <-.
  assert (PO : Forall pose_ok Ts) by (apply Forall_forall; intros T HT; split; [apply (AL T HT)|apply P3, AL, HT]).
  destruct (frames_e Ts Ts' TN PO k' [] I1) as (l & D1 & D2 & D3 & D4). destruct (fsolve_frames double_ik prim scene' Ts' k' []) as [k2 qs]. cbn [fst snd app] in *. subst qs.
  assert (FK : Forall (kept p) l) by (apply Forall_forall; intros q Hq; destruct (D3 q Hq) as (T & J1 & J2); exists T; split; [apply AL; auto|auto]).
  rewrite (pack_total f32 6 l). 2: { eapply Forall_impl; [|exact FK]. intros q (T & _ & (q1 & q2 & q3 & q4 & q5 & q6 & F & -> & _) & _). reflexivity. }
  destruct (IH k2 P' D2) as (C1 & data & C2 & C3). destruct (fkuka_columns double_ik prim f32 scene' path k2) as [k3 Q]. cbn [fst snd] in *. subst Q. split; [exact C1|].
  exists (l :: data). split; [reflexivity|]. constructor; auto. split; auto. intros (Ts3 & T & ET3 & HT & Ez). rewrite ET in ET3. injection ET3 as <-. eauto.
Qed.

(** the row of the plan: its link points are close to those of a safe configuration *)
Definition near_safe (row q : list R) : Prop :=
  safe q /\ forall i x, len (vsub (tapply (frame rob row i) x) (tapply (frame rob q i) x)) <= ulp_bound * (kuka_size 0.18 0.6 0.62 0.115 + 6 * len x).
(** and its pose close to T, as close as the fifth joint allows *)
Definition close_pose (row q : list R) (T : mat4) : Prop :=
  exists q1 q2 q3 q4 q5 q6 F, q = [q1; q2; q3; q4; q5; q6] /\ row = map f32 q /\ snd (fk rob row) = Ok F /\
    forall s, 54000 * (2110 + 120) * u64 <= s <= Rabs (sin q5) -> forall x, len (vsub (tapply F x) (tapply T x)) <=
      centre_err u64 q3 + rho u64 2110 s * (0.615 + len x) + ulp_bound * (kuka_size 0.18 0.6 0.62 0.115 + 6 * (tip_len rob + len x)).
Lemma kept_row p q : kept p q -> exists T, allowed (PEuler p) T /\ close_pose (map f32 q) q T /\ near_safe (map f32 q) q.
Proof.
  intros (T & AL & SV & SM & SF). exists T. split; auto. destruct SV as (q1 & q2 & q3 & q4 & q5 & q6 & F & -> & EF & _ & _ & HP). split; [|split; auto; intros i x; apply frame48; auto].
  destruct (fk48 [q1; q2; q3; q4; q5; q6] v0 eq_refl SM) as (_ & F2 & _ & EF2 & _).
  exists q1, q2, q3, q4, q5, q6, F2. split; auto. split; auto. split; auto. intros s Hs x. destruct (HP s Hs) as [HR Hp].
  destruct (fk48 [q1; q2; q3; q4; q5; q6] x eq_refl SM) as (G & G' & EG & EG' & M). rewrite EF in EG. injection EG as <-. rewrite EF2 in EG'. injection EG' as <-.
  pose proof (len_vsub3 (tapply F2 x) (tapply F x) (tapply T x)) as Z.
  assert (Y : len (vsub (tapply F x) (tapply T x)) <= len (vsub (mapply (rot F) x) (mapply (rot T) x)) + len (vsub (pos F) (pos T))).
  { eapply Rle_trans; [|apply len_add]. right. f_equal. unfold tapply. generalize (mapply (rot F) x) (mapply (rot T) x) (pos F) (pos T). intros [] [] [] []; apply vec3_eq; cbn; ring. }
  specialize (HR x). lra.
Qed.
Lemma plan_e {K : CostStruct} (sq_acc : K -> R -> R -> R -> K) pq path method ow k' rows c : Forall pt_fine path -> same_kuka k' ->
  snd (fkuka_plan double_ik prim f32 sq_acc pq scene' path method ow k') = Ok (GspOk rows c) ->
  Forall2 (fun p row => exists q T, allowed (PEuler p) T /\ close_pose row q T /\ near_safe row q) path rows.
Proof.
  intros P I1. destruct (columns_e path k' P I1) as (_ & data & E & F2). unfold fkuka_plan. destruct (fkuka_columns double_ik prim f32 scene' path k') as [k2 Q]. cbn [fst snd] in *. subst Q. cbn [bind].
  intros H. apply gsp_rows in H. destruct H as (Q' & E1 & H). apply check_dtype_entries in E1. subst Q'. apply Forall2_map_l in H. pose proof (Forall2_compose _ _ _ _ _ F2 H) as C.
  eapply Forall2_impl'; [|exact C]. cbn. intros p row (l & [E2 _] & E3). apply entry_row in E3. destruct E3 as (q & J1 & ->). rewrite Forall_forall in E2. destruct (kept_row p q (E2 q J1)) as (T & A1 & A2 & A3). exists q, T. auto.
Qed.
Lemma plan_keeps {K : CostStruct} (sq_acc : K -> R -> R -> R -> K) pq path method ow k' : Forall pt_fine path -> same_kuka k' ->
  same_kuka (fst (fkuka_plan double_ik prim f32 sq_acc pq scene' path method ow k')).
Proof. intros P I1. destruct (columns_e path k' P I1) as (C & _). unfold fkuka_plan. destruct (fkuka_columns double_ik prim f32 scene' path k') as [k2 Q]. exact C. Qed.
Lemma plan_found path ow k' : Forall pt_fine path -> Forall pt_easy path -> path <> [] -> same_kuka k' -> forall pq,
  exists data rows, let cost := walk_cost (K := RCost) (jcost (K := RCost) rsq (eff_weights 1 6 ow)) in
  snd (fkuka_columns double_ik prim f32 scene' path k') = Ok (arrays F32 6 data) /\
  snd (fkuka_plan double_ik prim f32 (K := RCost) rsq pq scene' path "bfs" ow k') = Ok (GspOk rows (cost rows)) /\
  Forall2 (fun col row => In row col) data rows /\ forall rows', Forall2 (fun col row => In row col) data rows' -> cle (cost rows) (cost rows').
Proof.
  intros P Ez Hp I1 pq. destruct (columns_e path k' P I1) as (_ & data & E & F2). exists (map (map (map f32)) data).
  assert (EA : map (entry_of f32) data = arrays F32 6 (map (map (map f32)) data) /\ uniform 6 (map (map (map f32)) data) /\ Forall (fun col => col <> []) (map (map (map f32)) data)).
  { clear E. revert Ez. clear Hp P. induction F2 as [|p l path data [FK NE] F2 IH]; intros Ez; [repeat split; constructor|]. inversion Ez as [|? ? Ez1 Ez2]; subst. destruct (IH Ez2) as (I2 & I3 & I4).
    assert (L6 : Forall (fun q => length q = 6%nat) l) by (eapply Forall_impl; [|exact FK]; intros q (T & _ & (q1 & q2 & q3 & q4 & q5 & q6 & F & -> & _) & _); reflexivity).
    specialize (NE Ez1). cbn [map]. split; [|split; constructor; auto].
    - unfold arrays in *. cbn [map]. rewrite I2. f_equal. unfold entry_of. destruct l as [|q l]; [congruence|]. inversion L6 as [|? ? L1 _]; subst. rewrite L1. reflexivity.
    - apply Forall_map. eapply Forall_impl; [|exact L6]. intros q Hq. rewrite map_length. exact Hq.
    - intros Z. apply map_eq_nil in Z. congruence. }
  destruct EA as (EA & EU & EN). rewrite EA in E. assert (Hd : map (map (map f32)) data <> []) by (intros Z; apply map_eq_nil in Z; subst data; inversion F2; subst; congruence).
  unfold fkuka_plan. destruct (fkuka_columns double_ik prim f32 scene' path k') as [k2 Q]. cbn [fst snd] in *. subst Q. cbn [bind]. revert EU EN Hd. generalize (map (map (map f32)) data). clear - T0. intros data EU EN Hd.
  destruct (gsp_bfs_spec (K := RCost) 1 rsq pq f32 F32 6 data ow EU Hd EN) as [[_ Z]|(js & p & H1 & H2 & _ & H3)].
  - exfalso. cbn [seen] in Z. assert (P : exists js p, picks data js p).
    { clear - EN. induction EN as [|[|x c] data Hc _ (js & p & IH)]; [exists [], []; exact I|congruence|]. exists (0%nat :: js), (x :: p). cbn. auto. }
    destruct P as (js & p & P). specialize (Z js p P). rewrite rsq_finite in Z. discriminate.
  - exists p. cbn zeta. cbn [seen] in H2, H3. split; [reflexivity|]. split; [exact H1|]. split; [eapply picks_In; eauto|].
    intros rows' H'. apply In_picks in H'. destruct H' as (js' & H'). apply (H3 js' rows' H').
Qed.
End Double.

(** away from the singularities a robot without tool is off by a micrometre *)
Lemma plan_numbers q3 q5 : 0.01 <= Rabs (sin q5) -> 1e-3 <= Rabs (cos q3) ->
  centre_err u64 q3 + rho u64 2110 (Rabs (sin q5)) * (0.615 + 0) + ulp_bound * (kuka_size 0.18 0.6 0.62 0.115 + 6 * (0 + 0)) <= 1.4e-6 /\ 54000 * (2110 + 120) * u64 <= Rabs (sin q5).
Proof.
  intros S5 C3. pose proof u64_pos as U0. pose proof u64_le as U1. assert (CE : centre_err u64 q3 <= 1e-9) by (unfold centre_err; destruct (Rle_dec _ _); lra).
  assert (RH : rho u64 2110 (Rabs (sin q5)) <= 2e-7).
  { unfold rho. apply Rmult_le_reg_r with (Rabs (sin q5)); [lra|]. unfold Rdiv. rewrite ?Rmult_assoc, ?Rinv_l by lra. lra. }
  split; [|lra]. generalize dependent (rho u64 2110 (Rabs (sin q5))). intros r RH. unfold kuka_size, ulp_bound. rewrite (Rabs_pos_eq 0.18), (Rabs_pos_eq 0.6), (Rabs_pos_eq 0.62), (Rabs_pos_eq 0.115) by lra. lra.
Qed.
