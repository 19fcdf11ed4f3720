(** * Proofs about rotation_table.py. *)
From Coq Require Import String List Arith Bool Lia Reals Lra.
From Verif Require Import PyBase Cost SpecPath GraphCommon Mat Util UtilProofs HaltonProofs Geometry GeometryProofs Robot RobotProofs RobotForms Ik IkProofs KukaProofs RailProofs Path PathProofs Planning PlanningProofs PlanningCart Pipeline PipelineProofs PipelineRail PipelineExamples Examples.
Import ListNotations.
Local Open Scope R_scope.

(** ** The table *)
Lemma table_good : good table_robot.
Proof. split; [repeat constructor|]. reflexivity. Qed.
(** the table turns its top about the x axis of the world *)
Lemma table_fk tb a qs : good tb -> reset tb = reset table_robot -> snd (fk tb (a :: qs)) = Ok (pose_x a 0 0 0).
Proof.
  intros G E. rewrite (fk_reset tb table_robot _ G table_good E), fk_snd by apply table_good. cbn [table_robot r_links r_tfb robot_init fkp new_link l_jt bind tooled r_tool].
  unfold lspec. cbn [new_link l_jt l_dh dd da dalpha dtheta]. rewrite dhm_dhx. unfold dhx. rewrite cos_0, sin_0. f_equal. unfold pose_x, pose_y.
  replace (- PI / 2) with (- (PI / 2)) by lra. rewrite cos_neg, sin_neg, cos_PI2, sin_PI2. generalize (cos a) (sin a). intros c s.
  rewrite tmulb. match goal with |- tmul (M4 ?A ?p _ _) _ = _ => replace A with (M3 0 0 1 s c 0 (- c) s 0); [replace p with v0|] end.
  - unfold v0 at 1. rewrite tmulb. f_equal; [unfold mmul; cbn [m00 m01 m02 m10 m11 m12 m20 m21 m22]; f_equal; ring|unfold vadd, mapply; cbn [vx vy vz m00 m01 m02 m10 m11 m12 m20 m21 m22]; f_equal; ring].
  - unfold vadd, mapply, v0. cbn [vx vy vz m00 m01 m02 m10 m11 m12 m20 m21 m22]. f_equal; ring.
  - unfold mmul. cbn [m00 m01 m02 m10 m11 m12 m20 m21 m22]. f_equal; ring.
Qed.
(** the plate on it *)
Lemma table_top a x : in_coll table_coll (Some (frame table_robot [a] 0)) x <->
  exists u v w, Rabs u <= 0.05 /\ Rabs v <= 0.05 /\ - 0.02 <= w <= 0 /\ x = tapply (pose_x a 0 0 0) (V3 u v w).
Proof.
  assert (E : forall l, tapply (place (Some (frame table_robot [a] 0)) (pose_y (PI / 2) 0.01 0 0)) l = tapply (pose_x a 0 0 0) (V3 (- vx l) (vy l) (- (vz l + 0.01)))).
  { intros l. cbn [place]. unfold frame. cbn [table_robot r_links r_tfb robot_init combine firstn fold_left fst snd]. unfold lspec. cbn [new_link l_jt l_dh dd da dalpha dtheta]. rewrite dhm_dhx, dhx_0.
    unfold pose_x, pose_y, rot_z. rewrite cos_PI2, sin_PI2, !tmulb. unfold tapply, mmul, vadd, mapply. cbn [rot pos vx vy vz m00 m01 m02 m10 m11 m12 m20 m21 m22]. apply vec3_eq; cbn [vx vy vz]; field. }
  split.
  - intros (s & T & (i & Hs & HT) & l & (L1 & L2 & L3) & ->). destruct i as [|i]; [|destruct i; discriminate]. injection Hs as <-. injection HT as <-. rewrite E. cbn [dx dy dz] in *.
    exists (- vx l), (vy l), (- (vz l + 0.01)). apply Rabs_le_inv in L3. rewrite Rabs_Ropp. repeat split; try lra.
  - intros (u & v & w & H1 & H2 & H3 & ->). exists (Shape 0.1 0.1 0.02), (pose_y (PI / 2) 0.01 0 0). split; [exists 0%nat; split; reflexivity|].
    exists (V3 (- u) v (- w - 0.01)). split; [unfold local_in; cbn [vx vy vz dx dy dz]; rewrite Rabs_Ropp; repeat split; try lra; apply Rabs_le; lra|]. rewrite E. cbn [vx vy vz]. f_equal. apply vec3_eq; cbn [vx vy vz]; lra.
Qed.
Lemma table_keep tb q : good tb -> reset tb = reset table_robot -> good (fst (fk tb q)) /\ reset (fst (fk tb q)) = reset table_robot.
Proof. intros G E. destruct (fk_fst tb q G) as [A B]. split; auto. congruence. Qed.
Lemma pose_x_add a b T : tmul (pose_x b 0 0 0) (tmul (pose_x a 0 0 0) T) = tmul (pose_x (a + b) 0 0 0) T.
Proof.
  rewrite <- tmul_assoc. f_equal. unfold pose_x. rewrite tmulb, cos_plus, sin_plus. generalize (cos a) (sin a) (cos b) (sin b). intros.
  f_equal; [unfold mmul; cbn [m00 m01 m02 m10 m11 m12 m20 m21 m22]; f_equal; ring|unfold vadd, mapply; cbn [vx vy vz m00 m01 m02 m10 m11 m12 m20 m21 m22]; f_equal; ring].
Qed.
Lemma pose_x_0 T : tmul (pose_x 0 0 0 0) T = T.
Proof. replace (pose_x 0 0 0 0) with eye4; [apply tmul_1_l|]. unfold pose_x, eye4, mid. rewrite cos_0, sin_0, Ropp_0. reflexivity. Qed.

(** the frames the loop solves for: the angles add up *)
Fixpoint turned (s : R) (angles : list R) (T : mat4) : list mat4 :=
  match angles with
  | [] => []
  | a :: l => tmul (pose_x (s + a) 0 0 0) T :: turned (s + a) l T
  end.
Lemma turned_nth : forall angles s T k, (k < length angles)%nat ->
  nth_error (turned s angles T) k = Some (tmul (pose_x (s + fold_right Rplus 0 (firstn (S k) angles)) 0 0 0) T).
Proof.
  induction angles as [|a l IH]; intros s T k L; cbn [length] in L; [lia|]. destruct k as [|k]; cbn [turned nth_error].
  - cbn. rewrite Rplus_0_r. reflexivity.
  - rewrite IH by lia. change (firstn (S (S k)) (a :: l)) with (a :: firstn (S k) l). cbn [fold_right]. rewrite Rplus_assoc. reflexivity.
Qed.
Definition table_poses (angles : list R) (T : mat4) : list mat4 := turned 0 angles T.

Section Loops.
Context {O : Type} (get : O -> robot) (put : O -> robot -> O).
Context (prim : shape -> mat3 -> vec3 -> shape -> mat3 -> vec3 -> bool) (to32 : R -> R).
Context (scene : coll) (Inv : O -> Prop) (n : nat) (cc : list R -> bool).
Context (Hcc : forall o q, Inv o -> length q = n ->
  Inv (put o (fst (robot_collision prim (get o) q scene))) /\ snd (robot_collision prim (get o) q scene) = Ok (cc q)).
Context (ik : O -> mat4 -> R -> O * res (option (list (list R)))) (ikp : mat4 -> R -> option (list (list R))).
Context (Hik : forall o T g, Inv o -> Inv (fst (ik o T g)) /\ snd (ik o T g) = Ok (ikp T g)).
Context (Hlen : forall T g qs, ikp T g = Some qs -> Forall (fun q => length q = n) qs).
Definition tinv (tb : robot) : Prop := good tb /\ reset tb = reset table_robot.
Definition table_free (qf : list R) (Ts : list mat4) : list (list R) := flat_map (fun T => flat_map (fun g => free cc (ikp T g)) qf) Ts.
Lemma table_turns_spec qf T0 : forall angles s tb o acc, tinv tb -> Inv o ->
  let r := table_turns get put prim ik scene (AFrame (tmul (pose_x s 0 0 0) T0)) (map (fun a => [a]) angles) qf tb o acc in
  tinv (fst (fst r)) /\ Inv (snd (fst r)) /\ snd r = Ok (acc ++ table_free qf (turned s angles T0)).
Proof.
  induction angles as [|a l IH]; intros s tb o acc [G E] J; cbn [map table_turns turned]; cbv zeta.
  - cbn [table_free flat_map fst snd]. rewrite app_nil_r. split; [split; auto|]. split; auto.
  - pose proof (table_fk tb a [] G E) as F. pose proof (table_keep tb [a] G E) as TI. destruct (fk tb [a]) as [tb' F']. cbn [fst snd] in *. subst F'.
    rewrite pose_x_add. pose proof (solve_fixed_spec get put prim scene Inv n cc Hcc ik ikp Hik Hlen (tmul (pose_x (s + a) 0 0 0) T0) qf o acc J) as [J1 E1].
    destruct (solve_fixed get put prim ik scene (AFrame (tmul (pose_x (s + a) 0 0 0) T0)) qf o acc) as [o' r]. cbn [fst snd] in *. subst r.
    destruct (IH (s + a) tb' o' (acc ++ flat_map (fun g => free cc (ikp (tmul (pose_x (s + a) 0 0 0) T0) g)) qf) TI J1) as (A & B & C). rewrite C.
    split; [exact A|]. split; [exact B|]. rewrite <- app_assoc. reflexivity.
Qed.
Lemma table_free_length qf Ts : Forall (fun q => length q = n) (table_free qf Ts).
Proof. apply Forall_flat_map. rewrite Forall_forall. intros T _. apply (fixed_free_length n cc ikp Hlen qf T). Qed.
Lemma table_frames_spec qf angles : forall Ts tb o q_sol, tinv tb -> Inv o ->
  let r := table_frames get put prim ik scene (map AFrame Ts) (map (fun a => [a]) angles) qf tb o q_sol in
  tinv (fst (fst r)) /\ Inv (snd (fst r)) /\ snd r = Ok (match rev Ts with [] => q_sol | T :: _ => Some (table_free qf (table_poses angles T)) end).
Proof.
  induction Ts as [|T Ts IH]; intros tb o q_sol TI J; cbn [map table_frames rev]; cbv zeta; [auto|].
  destruct (table_turns_spec qf T angles 0 tb o [] TI J) as (A & B & C). rewrite pose_x_0 in A, B, C. destruct (table_turns get put prim ik scene (AFrame T) (map (fun a => [a]) angles) qf tb o []) as [[tb' o'] r].
  cbn [fst snd] in *. subst r. cbn [app]. destruct (IH tb' o' (Some (table_free qf (turned 0 angles T))) A B) as (A' & B' & C'). rewrite C'.
  split; auto. split; auto. destruct (rev Ts); reflexivity.
Qed.
Lemma table_columns_spec disc qf angles : forall path D, Forall2 (fun tp Ts => disc tp = Ok (map AFrame Ts) /\ Ts <> []) path D -> forall tb o q_sol, tinv tb -> Inv o ->
  snd (table_columns get put prim to32 ik disc scene path (map (fun a => [a]) angles) qf tb o q_sol) =
    Ok (map (fun Ts => entry_of to32 (table_free qf (table_poses angles (last Ts eye4)))) D).
Proof.
  induction 1 as [|tp Ts path D [E Hne] _ IH]; intros tb o q_sol TI J; cbn [table_columns map]; [auto|]. rewrite E.
  destruct (table_frames_spec qf angles Ts tb o q_sol TI J) as (A & B & C). destruct (table_frames get put prim ik scene (map AFrame Ts) (map (fun a => [a]) angles) qf tb o q_sol) as [[tb' o'] r].
  cbn [fst snd] in *. subst r. assert (L : exists T Ts', rev Ts = T :: Ts' /\ last Ts eye4 = T).
  { destruct (exists_last Hne) as (Ts' & T & ->). rewrite rev_app_distr, last_last. exists T, (rev Ts'). auto. }
  destruct L as (T & Ts' & -> & ->). rewrite (pack_total to32 n _ (table_free_length qf _)).
  pose proof (IH tb' o' (Some (table_free qf (table_poses angles T))) A B) as E2.
  destruct (table_columns get put prim to32 ik disc scene path (map (fun a => [a]) angles) qf tb' o' (Some (table_free qf (table_poses angles T)))) as [[tb'' o''] r]. cbn [snd] in *. subst r. reflexivity.
Qed.
End Loops.

Lemma rail_table_exact prim to32 a1 a2 d4 d6 rl : rail_ok a1 a2 d4 d6 rl -> forall disc scene path qf angles D,
  Forall2 (fun tp Ts => disc tp = Ok (map AFrame Ts) /\ Ts <> []) path D ->
  snd (rail_table prim to32 disc scene path (map (fun a => [a]) angles) qf table_robot rl None) =
    Ok (map (fun Ts => entry_of to32 (flat_map (fun T => flat_map (rail_free prim rl scene T) qf) (table_poses angles (last Ts eye4)))) D).
Proof.
  intros K0 disc scene path qf angles D H. unfold rail_table.
  rewrite (table_columns_spec rl_rob rail_put prim to32 scene (rinv a1 a2 d4 d6 rl) 7 (hit prim (rl_rob rl) scene) (rinv_coll prim a1 a2 d4 d6 rl K0 scene) rail_call (rikp rl) (rinv_ik a1 a2 d4 d6 rl) (rikp_length rl) disc qf angles path D H); [|split; [apply table_good|reflexivity]|split; auto].
  f_equal. apply map_ext. intros Ts. f_equal. unfold table_free. apply flat_map_ext. intros T. apply flat_map_ext. intros g. symmetry. eapply rail_free_spec; eauto.
Qed.

(** ** The table turned twice *)
Definition beside : mat4 := tmul (rail_form 10) ahead.
Ltac blockeq := f_equal; [unfold mmul; cbn [m00 m01 m02 m10 m11 m12 m20 m21 m22]; f_equal; lra|unfold vadd, mapply; cbn [vx vy vz m00 m01 m02 m10 m11 m12 m20 m21 m22]; f_equal; lra].
Lemma beside_eq : beside = M4 (M3 0 0 1 1 0 0 0 1 0) (V3 1.515 0 10) v0 1.
Proof. unfold beside. rewrite ahead_eq. unfold rail_form. rewrite tmulb. blockeq. Qed.
Lemma beneath_eq : tmul (pose_x PI 0 0 0) beside = M4 (M3 0 0 1 (-1) 0 0 0 (-1) 0) (V3 1.515 0 (-10)) v0 1.
Proof. rewrite beside_eq. unfold pose_x. rewrite cos_PI, sin_PI, tmulb. blockeq. Qed.
Lemma rail_inv_eq : tf_inverse (rail_form 10) = M4 (M3 1 0 0 0 0 1 0 (-1) 0) (V3 0 (-10) 0) v0 1.
Proof. unfold tf_inverse, rail_form. cbv zeta. unfold mtr. cbn [rot pos m00 m01 m02 m10 m11 m12 m20 m21 m22]. f_equal. unfold mapply, mopp. cbn [vx vy vz m00 m01 m02 m10 m11 m12 m20 m21 m22]. f_equal; lra. Qed.
Lemma beneath_rel : tmul (tf_inverse (rail_form 10)) (tmul (pose_x PI 0 0 0) beside) = M4 (M3 0 0 1 0 (-1) 0 1 0 0) (V3 1.515 (-20) 0) v0 1.
Proof. rewrite beneath_eq, rail_inv_eq, tmulb. blockeq. Qed.
Lemma beside_rigid : rigid beside.
Proof. apply rigid_tmul; [apply rail_form_rigid|apply frame6_rigid]. Qed.
Lemma bare_rail_clear q : clear (KukaOnRail 0.18 0.6 0.62 0.115) (Coll [] []) q.
Proof.
  split; [intros x _ (s & T & (i & E & _) & _); destruct i; discriminate|]. intros _. split; [|intros; discriminate].
  intros i j li lj x Ei _ _ (s & T & (m & E & _) & _) _. apply nth_error_In in Ei. cbn in Ei. repeat (destruct Ei as [<-|Ei]; [destruct m; discriminate|]). destruct Ei.
Qed.
Notation rail0 := (new_rail 0.18 0.6 0.62 0.115).
Lemma rail0_unmount T : rigid T -> unmount (rl_rob rail0) T = T.
Proof. intros H. assert (E : mount (rl_rob rail0) (unmount (rl_rob rail0) T) = T) by (apply mount_unmount; [apply rigid_eye|exact I]). unfold mount, tooled in E. cbn [new_rail rl_rob KukaOnRail robot_init r_tfb r_tool] in E. rewrite tmul_1_l in E. exact E. Qed.
Lemma beside_free prim : exact_prim prim -> rail_free prim rail0 (Coll [] []) beside 10 <> [].
Proof.
  intros X. rewrite (rail_free_spec prim 0.18 0.6 0.62 0.115 rail0 (new_rail_ok _ _ _ _)). unfold free, rikp. rewrite rail0_unmount by apply beside_rigid.
  unfold beside. rewrite <- tmul_assoc, tf_inverse_l, tmul_1_l by apply rail_form_rigid. destruct ahead_sols as [A N].
  destruct (kuka_sols 0.18 0.6 0.62 0.115 ahead) as [|q l]; [congruence|]. cbn [map filter].
  assert (L : length q = 6%nat). { inversion A; subst. reflexivity. }
  assert (H : hit prim (rl_rob rail0) (Coll [] []) (10 :: q) = false).
  { apply (free_iff_clear prim); auto.
    - apply (ro_rob _ _ _ _ _ (new_rail_ok 0.18 0.6 0.62 0.115)).
    - apply Rail_joints.
    - rewrite (like_ndof _ _ (ro_rob _ _ _ _ _ (new_rail_ok 0.18 0.6 0.62 0.115))). cbn [length]. rewrite L. cbn. lia.
    - split; [apply rigid_eye|]. split; [|split; intros; discriminate]. cbn. repeat constructor.
    - constructor.
    - apply bare_rail_clear. }
  rewrite H. discriminate.
Qed.
Lemma beneath_none prim : rail_free prim rail0 (Coll [] []) (tmul (pose_x PI 0 0 0) beside) 10 = [].
Proof.
  rewrite (rail_free_spec prim 0.18 0.6 0.62 0.115 rail0 (new_rail_ok _ _ _ _)). unfold free, rikp.
  rewrite rail0_unmount by (apply rigid_tmul; [apply pose_x_rigid|apply beside_rigid]).
  set (Y := tmul (tf_inverse (rail_form 10)) (tmul (pose_x PI 0 0 0) beside)).
  assert (C : centre 0.115 Y = V3 1.4 (-20) 0).
  { unfold Y. rewrite beneath_rel. unfold centre. cbn [rot pos]. unfold vadd, vsub, vscale, col2. cbn [vx vy vz m02 m12 m22]. f_equal; lra. }
  assert (S : kuka_sols 0.18 0.6 0.62 0.115 Y = []).
  { unfold kuka_sols. rewrite C. clearbody Y. clear C. unfold arm_sols. cbn [vx vy vz]. set (l := lxy (V3 1.4 (-20) 0)).
    assert (L : l * l = 401.96). { unfold l, lxy. cbn [vx vy]. rewrite sqrt_sqrt by lra. lra. }
    assert (Lp : 0 <= l) by apply sqrt_pos.
    assert (B : forall x, 4 <= Rabs x -> forall a, branch 0.6 0.62 a x 0 = []).
    { intros x Hx a. unfold branch. assert (E : elbow (elbow_cos 0.6 0.62 x 0) = None).
      { apply elbow_None. unfold elbow_cos, tol. assert (x * x = Rabs x * Rabs x) by (rewrite <- Rabs_mult; symmetry; apply Rabs_right; nra).
        eapply Rlt_le_trans; [|apply Rle_abs]. assert (16 <= x * x) by nra. replace (x ^ 2) with (x * x) by ring. replace (0 ^ 2) with 0 by ring. lra. }
      rewrite E. reflexivity. }
    rewrite !B; [reflexivity| |]; [rewrite Rabs_left1|rewrite Rabs_right]; nra. }
  rewrite S. reflexivity.
Qed.
Lemma table_wrong prim to32 : exact_prim prim -> exists disc path angles, disc path = Ok [AFrame beside] /\
  snd (rail_table prim to32 disc (Coll [] []) [path] (map (fun a => [a]) angles) [10] table_robot rail0 None) <>
    Ok [entry_of to32 (flat_map (fun a => rail_free prim rail0 (Coll [] []) (tmul (pose_x a 0 0 0) beside) 10) angles)].
Proof.
  intros X. exists (fun _ => Ok [AFrame beside]), (PFree [] []), [PI; PI]. split; auto.
  rewrite (rail_table_exact prim to32 0.18 0.6 0.62 0.115 rail0 (new_rail_ok _ _ _ _) _ _ _ _ _ [[beside]]) by (repeat constructor; discriminate).
  cbn [map last table_poses turned flat_map app]. rewrite Rplus_0_l, !beneath_none. cbn [app].
  replace (pose_x (PI + PI) 0 0 0) with eye4.
  - rewrite tmul_1_l, !app_nil_r. pose proof (beside_free prim X) as N. destruct (rail_free prim rail0 (Coll [] []) beside 10); [congruence|]. cbn [entry_of]. discriminate.
  - unfold pose_x, eye4, mid. replace (PI + PI) with (2 * PI) by ring. rewrite cos_2PI, sin_2PI, Ropp_0. reflexivity.
Qed.
