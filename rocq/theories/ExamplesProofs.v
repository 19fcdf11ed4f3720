(** * Proofs about samplers.py and small_passage.py. *)
From Coq Require Import String List Arith Bool Lia Reals Lra Psatz.
From Verif Require Import PyBase Cost SpecPath Dp DpProofs Mat Util UtilProofs HaltonProofs Geometry GeometryProofs PathProofs Examples.
Import ListNotations.
Local Open Scope R_scope.

(** ** samplers.py *)
Lemma random_raises u1 u2 u3 : random_quaternion global_Quaternion u1 u2 u3 = Raise NameError.
Proof. reflexivity. Qed.
Lemma near_never q d u1 u2 u3 : random_quaternion_near global_Quaternion q d u1 u2 u3 = if Rle_dec (PI / 4) d then Raise NameError else Ok None.
Proof. unfold random_quaternion_near. destruct (Rge_dec _ _), (Rle_dec _ _); try reflexivity; lra. Qed.
Lemma random_imported u1 u2 u3 : 0 <= u1 <= 1 -> exists q, random_quaternion (Ok Quat) u1 u2 u3 = Ok q /\ qnorm2 q = 1.
Proof.
  intros H. eexists. split; [reflexivity|]. etransitivity; [|exact (quat_unit u1 u2 u3 H)]. unfold qnorm2, quat_of. cbn [qw qx qy qz]. ring.
Qed.

(** ** The angle between two rotations *)
Lemma qdot_self q : qdot q q = qnorm2 q.
Proof. reflexivity. Qed.
Lemma qdot_sym u v : qdot u v = qdot v u.
Proof. unfold qdot. ring. Qed.
(** Lagrange's identity *)
Lemma qdot_cs u v : qdot u v ^ 2 <= qnorm2 u * qnorm2 v.
Proof.
  destruct u as [a b c d], v as [e f g h]. unfold qdot, qnorm2. cbn [qw qx qy qz].
  pose proof (Rle_0_sqr (a * f - b * e)). pose proof (Rle_0_sqr (a * g - c * e)). pose proof (Rle_0_sqr (a * h - d * e)).
  pose proof (Rle_0_sqr (b * g - c * f)). pose proof (Rle_0_sqr (b * h - d * f)). pose proof (Rle_0_sqr (c * h - d * g)). unfold Rsqr in *.
  replace ((a * a + b * b + c * c + d * d) * (e * e + f * f + g * g + h * h)) with
    ((a * e + b * f + c * g + d * h) ^ 2 + ((a * f - b * e) * (a * f - b * e) + (a * g - c * e) * (a * g - c * e) + (a * h - d * e) * (a * h - d * e) +
      (b * g - c * f) * (b * g - c * f) + (b * h - d * f) * (b * h - d * f) + (c * h - d * g) * (c * h - d * g))) by ring. lra.
Qed.
Lemma qdot_le u v : qnorm2 u = 1 -> qnorm2 v = 1 -> Rabs (qdot u v) <= 1.
Proof. intros A B. pose proof (qdot_cs u v) as H. rewrite A, B in H. apply Rabs_le. nra. Qed.
Lemma turn_unit u v : qnorm2 u = 1 -> qnorm2 v = 1 -> turn_cost u v = acos (Rabs (qdot u v)).
Proof. intros A B. unfold turn_cost. rewrite Rmin_left by (apply qdot_le; auto). reflexivity. Qed.
Lemma turn_cos u v : qnorm2 u = 1 -> qnorm2 v = 1 -> cos (turn_cost u v) = Rabs (qdot u v).
Proof. intros A B. rewrite turn_unit by auto. apply cos_acos. pose proof (qdot_le u v A B). pose proof (Rabs_pos (qdot u v)). lra. Qed.
Lemma acos_anti x y : -1 <= x -> y <= 1 -> x <= y -> acos y <= acos x.
Proof.
  intros A B [H|<-]; [|lra]. apply Rnot_lt_le. intros C. pose proof (acos_bound x). pose proof (acos_bound y).
  apply cos_decreasing_1 in C; try lra. rewrite !cos_acos in C by lra. lra.
Qed.
Lemma turn_range u v : 0 <= turn_cost u v <= PI / 2.
Proof.
  unfold turn_cost. set (m := Rmin (Rabs (qdot u v)) 1). assert (0 <= m <= 1). { split; [apply Rmin_glb; [apply Rabs_pos|lra]|apply Rmin_r]. }
  split; [apply acos_bound|]. rewrite <- acos_0. apply acos_anti; lra.
Qed.
Lemma turn_sym u v : turn_cost u v = turn_cost v u.
Proof. unfold turn_cost. rewrite qdot_sym. reflexivity. Qed.
Definition trace3 (A : mat3) : R := m00 A + m11 A + m22 A.
Lemma qrot_unit u : qnorm2 u = 1 -> qrot u = unit_rot u.
Proof. intros H. unfold qrot, qnormalise. rewrite H, sqrt_1. destruct (Req_EM_T 1 0); [lra|]. f_equal. destruct u. cbn. f_equal; field. Qed.
Lemma qnormalise_id u : qnorm2 u = 1 -> qnormalise u = u.
Proof. intros H. unfold qnormalise. rewrite H, sqrt_1. destruct (Req_EM_T 1 0); [lra|]. destruct u. cbn. f_equal; field. Qed.
Lemma trace_dot u v : trace3 (mmul (mtr (unit_rot u)) (unit_rot v)) = 4 * qdot u v ^ 2 - qnorm2 u * qnorm2 v.
Proof.
  destruct u as [a b c d], v as [e f g h]. unfold trace3, mmul, mtr, unit_rot, qdot, qnorm2. cbv zeta. cbn [qw qx qy qz m00 m01 m02 m10 m11 m12 m20 m21 m22]. ring.
Qed.
Lemma turn_angle u v : qnorm2 u = 1 -> qnorm2 v = 1 -> cos (2 * turn_cost u v) = (trace3 (mmul (mtr (qrot u)) (qrot v)) - 1) / 2.
Proof.
  intros A B. rewrite !qrot_unit by auto. rewrite trace_dot, A, B. rewrite cos_2a_cos, turn_cos by auto.
  replace (2 * Rabs (qdot u v) * Rabs (qdot u v)) with (2 * (Rabs (qdot u v)) ^ 2) by ring. rewrite pow2_abs. lra.
Qed.
Definition qscale (k : R) (u : quat) : quat := Quat (k * qw u) (k * qx u) (k * qy u) (k * qz u).
Definition qsub (u v : quat) : quat := Quat (qw u - qw v) (qx u - qx v) (qy u - qy v) (qz u - qz v).
Lemma qnorm2_0 u : qnorm2 u = 0 -> u = Quat 0 0 0 0.
Proof.
  destruct u as [a b c d]. unfold qnorm2. cbn [qw qx qy qz]. intros H. pose proof (Rle_0_sqr a). pose proof (Rle_0_sqr b). pose proof (Rle_0_sqr c). pose proof (Rle_0_sqr d). unfold Rsqr in *.
  f_equal; apply Rsqr_0_uniq; unfold Rsqr; lra.
Qed.
Lemma qrot_inj u v : qnorm2 u = 1 -> qnorm2 v = 1 -> qrot u = qrot v <-> turn_cost u v = 0.
Proof.
  intros A B. split; intros H.
  - assert (E : trace3 (mmul (mtr (qrot u)) (qrot v)) = 3).
    { rewrite H. destruct (qrot_rotation v) as [O _]; [lra|]. rewrite O. unfold trace3. cbn. ring. }
    pose proof (turn_angle u v A B) as C. rewrite E in C. replace ((3 - 1) / 2) with 1 in C by lra. rewrite cos_2a_sin in C.
    assert (S : sin (turn_cost u v) = 0) by nra. pose proof (turn_range u v). pose proof PI_RGT_0.
    destruct (Req_dec (turn_cost u v) 0) as [|N]; auto. exfalso. pose proof (sin_gt_0 (turn_cost u v)). lra.
  - pose proof (turn_cos u v A B) as C. rewrite H, cos_0 in C. set (s := qdot u v) in *. assert (S : s * s = 1). { rewrite <- (Rabs_right (s * s)) by nra. rewrite Rabs_mult. rewrite <- C. ring. }
    assert (E : qsub u (qscale s v) = Quat 0 0 0 0).
    { apply qnorm2_0. replace (qnorm2 (qsub u (qscale s v))) with (qnorm2 u - 2 * s * qdot u v + s * s * qnorm2 v).
      - fold s. rewrite A, B. lra.
      - unfold qnorm2, qsub, qscale, qdot. cbn [qw qx qy qz]. ring. }
    rewrite !qrot_unit by auto. destruct u as [a b c d], v as [e f g h]. unfold qsub, qscale in E. cbn [qw qx qy qz] in E. injection E as E1 E2 E3 E4.
    assert (a = s * e) by lra. assert (b = s * f) by lra. assert (c = s * g) by lra. assert (d = s * h) by lra. clearbody s. subst a b c d. unfold unit_rot. cbv zeta. cbn [qw qx qy qz].
    assert (P : forall x y, s * x * (s * y) = x * y) by (intros; rewrite <- (Rmult_1_l (x * y)), <- S; ring). rewrite !P. reflexivity.
Qed.
Lemma turn_triangle u v w : qnorm2 u = 1 -> qnorm2 v = 1 -> qnorm2 w = 1 -> turn_cost u w <= turn_cost u v + turn_cost v w.
Proof.
  intros A B C. set (x := qdot u v). set (y := qdot v w). set (z := qdot u w).
  assert (G : (z - x * y) ^ 2 <= (1 - x ^ 2) * (1 - y ^ 2)).
  { pose proof (qdot_cs (qsub u (qscale x v)) (qsub w (qscale y v))) as H.
    replace (qdot (qsub u (qscale x v)) (qsub w (qscale y v))) with (qdot u w - y * qdot u v - x * qdot v w + x * y * qnorm2 v) in H by (unfold qsub, qscale, qdot, qnorm2; cbn [qw qx qy qz]; ring).
    replace (qnorm2 (qsub u (qscale x v))) with (qnorm2 u - 2 * x * qdot u v + x * x * qnorm2 v) in H by (unfold qsub, qscale, qdot, qnorm2; cbn [qw qx qy qz]; ring).
    replace (qnorm2 (qsub w (qscale y v))) with (qnorm2 w - 2 * y * qdot v w + y * y * qnorm2 v) in H by (unfold qsub, qscale, qdot, qnorm2; cbn [qw qx qy qz]; ring).
    fold x y z in H. rewrite A, B, C in H. eapply Rle_trans; [|eapply Rle_trans; [exact H|]]; apply Req_le; ring. }
  pose proof (turn_cos u v A B) as C1. pose proof (turn_cos v w B C) as C2. fold x in C1. fold y in C2.
  pose proof (turn_range u v) as R1. pose proof (turn_range v w) as R2. pose proof (turn_range u w) as R3. pose proof PI_RGT_0 as HPI.
  apply Rnot_lt_le. intros L. apply cos_decreasing_1 in L; try lra. rewrite cos_plus, C1, C2, (turn_cos u w A C) in L. fold z in L.
  assert (S1 : 0 <= sin (turn_cost u v)) by (apply sin_ge_0; lra). assert (S2 : 0 <= sin (turn_cost v w)) by (apply sin_ge_0; lra).
  pose proof (sin2_cos2 (turn_cost u v)) as Q1. pose proof (sin2_cos2 (turn_cost v w)) as Q2. unfold Rsqr in Q1, Q2. rewrite C1 in Q1. rewrite C2 in Q2.
  set (s1 := sin (turn_cost u v)) in *. set (s2 := sin (turn_cost v w)) in *.
  assert (X : Rabs x * Rabs x = x ^ 2) by (rewrite <- (pow2_abs x); ring). assert (Y : Rabs y * Rabs y = y ^ 2) by (rewrite <- (pow2_abs y); ring).
  assert (P : (s1 * s2) ^ 2 = (1 - x ^ 2) * (1 - y ^ 2)) by (replace ((s1 * s2) ^ 2) with ((s1 * s1) * (s2 * s2)) by ring; rewrite <- X, <- Y; nra).
  rewrite <- P in G. assert (Z : Rabs (z - x * y) <= s1 * s2).
  { apply Rsqr_incr_0_var; [|apply Rmult_le_pos; auto]. unfold Rsqr. replace (Rabs (z - x * y) * Rabs (z - x * y)) with (Rabs (z - x * y) ^ 2) by ring. rewrite pow2_abs. lra. }
  pose proof (Rabs_triang_inv (x * y) (x * y - z)) as T. replace (x * y - (x * y - z)) with z in T by ring. rewrite Rabs_mult, (Rabs_minus_sym (x * y) z) in T. lra.
Qed.

(** ** small_passage.py *)
(** the total of the costs along a path *)
Fixpoint turns (qs : list quat) : R :=
  match qs with
  | q1 :: ((q2 :: _) as qs') => turn_cost q1 q2 + turns qs'
  | _ => 0
  end.
Lemma picks_of : forall Q js p, picks Q js p -> in_range Q js /\ Forall2 (fun col (x : quat) => In x col) Q p.
Proof.
  induction Q as [|c Q IH]; intros [|j js] [|x p] H; cbn in H; try contradiction; [split; [exact I|constructor]|]. destruct H as [H1 H2]. destruct (IH _ _ H2) as [A B].
  split; [split; auto; apply nth_error_Some; congruence|]. constructor; auto. eapply nth_error_In; eauto.
Qed.
Lemma picks_ex : forall Q p, Forall2 (fun col (x : quat) => In x col) Q p -> exists js, picks Q js p.
Proof.
  induction 1 as [|c x Q p H _ (js & IH)]; [exists []; exact I|]. apply In_nth_error in H. destruct H as (j & H). exists (j :: js). split; auto.
Qed.
Lemma turns_cost : forall Q js p, picks Q js p -> stage_cost (fun d1 d2 => m_rows (turn_costs d1 d2)) Q js = (Some (turns p) : RCost).
Proof.
  induction Q as [|c1 Q IH]; intros [|j1 js] [|x1 p] H; cbn [picks] in H; try contradiction; [reflexivity|]. destruct H as [H1 H2].
  destruct Q as [|c2 Q], js as [|j2 js], p as [|x2 p]; cbn [picks] in H2; try contradiction; [reflexivity|].
  change (stage_cost _ (c1 :: c2 :: Q) (j1 :: j2 :: js)) with (xradd (entry (m_rows (turn_costs c1 c2)) j1 j2) (stage_cost (fun d1 d2 => m_rows (turn_costs d1 d2)) (c2 :: Q) (j2 :: js))).
  rewrite (IH (j2 :: js) (x2 :: p) H2). destruct H2 as [H2 _]. change (turns (x1 :: x2 :: p)) with (turn_cost x1 x2 + turns (x2 :: p)).
  replace (entry (m_rows (turn_costs c1 c2)) j1 j2) with (Some (turn_cost x1 x2)); [reflexivity|]. unfold entry, turn_costs. cbn [m_rows].
  symmetry. erewrite (nth_error_nth (map _ c1) j1) by (rewrite nth_error_map, H1; reflexivity). erewrite (nth_error_nth (map _ c2) j2) by (rewrite nth_error_map, H2; reflexivity). reflexivity.
Qed.
Lemma turn_shape d1 d2 : m_cols (turn_costs d1 d2) = length d2 /\ has_dims (m_rows (turn_costs d1 d2)) (length d1) (length d2).
Proof. split; [reflexivity|]. split; cbn [turn_costs m_rows]; [apply map_length|]. rewrite Forall_map. apply Forall_forall. intros u _. apply map_length. Qed.

Section Pass.
Context (prim : shape -> mat3 -> vec3 -> shape -> mat3 -> vec3 -> bool) (tool : coll * mat4) (scene : coll).
Context (X : exact_prim prim) (Ht : rigid_coll (fst tool)) (Htt : rigid (snd tool)) (Hs : rigid_coll scene).
(** the tool with its tip at point p and orientation q has no point in common with the scene *)
Definition tool_clear (q : quat) (p : vec3) : Prop := forall x, ~ (in_coll (fst tool) (Some (tool_frame (snd tool) q p)) x /\ in_coll scene None x).
Definition clear_sample (tp : passpt) (q : quat) : Prop := In q (pp_s tp) /\ tool_clear q (pp_p tp).
Definition unit_samples (tp : passpt) : Prop := Forall (fun q => qnorm2 q = 1) (pp_s tp).
Lemma tip_rigid q p : qnorm2 q = 1 -> rigid (tip_frame q p).
Proof. intros H. split; cbn [tip_frame rot brow bww qtransform]; auto. apply qrot_rotation. lra. Qed.
Lemma tool_rigid q p : qnorm2 q = 1 -> rigid (tool_frame (snd tool) q p).
Proof. intros H. apply rigid_tmul; [apply tip_rigid; auto|]. apply tf_inverse_rigid, Htt. Qed.
Lemma tip_tool q p : tmul (tool_frame (snd tool) q p) (snd tool) = tip_frame q p.
Proof. unfold tool_frame. rewrite tmul_assoc, tf_inverse_l by auto. apply tmul_1_r. Qed.
Lemma row_iff tp q : unit_samples tp -> In q (pass_row prim tool scene tp) <-> clear_sample tp q.
Proof.
  intros U. unfold unit_samples in U. rewrite Forall_forall in U. unfold pass_row, clear_sample. rewrite in_map_iff.
  assert (K : forall q', In q' (pp_s tp) -> negb (is_in_collision prim (fst tool) scene (Some (tool_frame (snd tool) q' (pp_p tp))) None) = true <-> tool_clear q' (pp_p tp)).
  { intros q' I'. rewrite negb_true_iff. unfold tool_clear. pose proof (collision_points prim (fst tool) scene (Some (tool_frame (snd tool) q' (pp_p tp))) None X Ht Hs (tool_rigid q' (pp_p tp) (U q' I')) I) as P.
    destruct (is_in_collision _ _ _ _ _); split; intros H; try discriminate; auto.
    - exfalso. destruct (proj1 P eq_refl) as (x & Hx). eapply H, Hx.
    - intros x Hx. assert (false = true); [|discriminate]. apply P. eauto. }
  split.
  - intros (q' & <- & H). apply filter_In in H. destruct H as [H1 H2]. rewrite qnormalise_id by auto. split; auto. apply K; auto.
  - intros [H1 H2]. exists q. split; [apply qnormalise_id; auto|]. apply filter_In. split; auto. apply K; auto.
Qed.
Lemma rows_iff path qs : Forall unit_samples path -> Forall2 (fun col q => In q col) (map (pass_row prim tool scene) path) qs <-> Forall2 clear_sample path qs.
Proof.
  intros U. revert qs. induction U as [|tp path H _ IH]; intros qs; cbn [map].
  - split; intros G; inversion G; constructor.
  - split; intros G; inversion G; subst; constructor; try (apply IH; auto); apply row_iff; auto.
Qed.
Lemma no_empty path : existsb (fun row : list quat => Nat.eqb (length row) 0) (map (pass_row prim tool scene) path) = false <-> Forall (fun col => col <> []) (map (pass_row prim tool scene) path).
Proof.
  induction (map (pass_row prim tool scene) path) as [|row l IH]; cbn [existsb]; [split; auto|]. rewrite orb_false_iff, IH. split.
  - intros [A B]. constructor; auto. intros ->. discriminate.
  - intros H. inversion H; subst. split; auto. destruct row; [congruence|reflexivity].
Qed.
Lemma pass_sound path r : Forall unit_samples path -> pass_plan prim tool scene path = Ok r ->
  Forall2 clear_sample path (dp_path _ r) /\ dp_length _ r = Some (turns (dp_path _ r)) /\
  forall qs, Forall2 clear_sample path qs -> turns (dp_path _ r) <= turns qs.
Proof.
  intros U. unfold pass_plan. destruct (existsb _ _) eqn:E; [discriminate|]. apply no_empty in E. intros H.
  destruct (le_lt_dec (length path) 1) as [L|L].
  { rewrite (proj1 (dp_rejects RCost quat (map (pass_row prim tool scene) path) turn_costs)) in H; [discriminate|]. rewrite map_length. auto. }
  assert (L' : (2 <= length (map (pass_row prim tool scene) path))%nat) by (rewrite map_length; auto).
  destruct (dp_realises RCost quat (map (pass_row prim tool scene) path) turn_costs r L' E) as (js & R1 & R2 & R3); auto. { intros d1 d2 _ _; apply turn_shape. }
  destruct (dp_optimal RCost quat (map (pass_row prim tool scene) path) turn_costs L' E) as (r' & H' & _ & O). { intros d1 d2 _ _; apply turn_shape. }
  rewrite H in H'. injection H' as <-. assert (R3' : Some (turns (dp_path _ r)) = dp_length _ r) by (rewrite <- R3; symmetry; exact (turns_cost _ _ _ R2)). clear R3. rename R3' into R3. split; [apply rows_iff; auto; eapply picks_of; eauto|]. split; [symmetry; exact R3|].
  intros qs F. apply rows_iff in F; auto. apply picks_ex in F. destruct F as (js' & F). assert (G : cle (dp_length _ r) (Some (turns qs) : RCost)) by (rewrite <- (turns_cost _ _ _ F); exact (O js' (proj1 (picks_of _ _ _ F)))). rewrite <- R3 in G.
  unfold cle in G. cbn in G. apply rltb_false in G. lra.
Qed.
Lemma pass_complete path : Forall unit_samples path -> (2 <= length path)%nat -> Forall (fun tp => exists q, clear_sample tp q) path ->
  exists r, pass_plan prim tool scene path = Ok r /\ dp_success _ r = true.
Proof.
  intros U L H. unfold pass_plan. assert (E : Forall (fun col => col <> []) (map (pass_row prim tool scene) path)).
  { rewrite Forall_map. rewrite Forall_forall in *. intros tp I1. destruct (H tp I1) as (q & Hq). apply row_iff in Hq; [|apply U; auto]. intros N. rewrite N in Hq. destruct Hq. }
  rewrite (proj2 (no_empty path) E). destruct (dp_optimal RCost quat (map (pass_row prim tool scene) path) turn_costs) as (r & H1 & H2 & _); eauto; [rewrite map_length; auto|intros d1 d2 _ _; apply turn_shape].
Qed.
Lemma turns_pos : forall qs, 0 <= turns qs.
Proof. induction qs as [|q [|q2 qs] IH]; cbn; try lra. pose proof (turn_range q q2). cbn in IH. lra. Qed.
(** a quaternion that is free at every point: the path does not turn at all *)
Lemma pass_still path r q : Forall unit_samples path -> pass_plan prim tool scene path = Ok r -> Forall (fun tp => clear_sample tp q) path ->
  turns (dp_path _ r) = 0 /\ exists A, Forall (fun q => qrot q = A) (dp_path _ r).
Proof.
  intros U H F. destruct (pass_sound path r U H) as (C & _ & O). assert (Z : turns (map (fun _ => q) path) = 0 ).
  { destruct path as [|tp0 path]; [reflexivity|]. assert (Q : qnorm2 q = 1). { inversion F as [|? ? [I1 _] _]; subst. inversion U as [|? ? U1 _]; subst. unfold unit_samples in U1. rewrite Forall_forall in U1. auto. }
    assert (T : turn_cost q q = 0) by (apply qrot_inj; auto). clear - T. revert tp0. induction path as [|tp path IH]; intros tp0; [reflexivity|]. cbn [map turns] in *. rewrite T, (IH tp0). lra. }
  assert (E : turns (dp_path _ r) = 0). { apply Rle_antisym; [|apply turns_pos]. rewrite <- Z. apply O. clear -F. induction F; constructor; auto. }
  split; auto. assert (N : Forall (fun q => qnorm2 q = 1) (dp_path _ r)).
  { clear -C U. induction C as [|tp q path qs [H _] _ IH]; constructor; inversion U as [|? ? U1 U2]; subst; auto. unfold unit_samples in U1. rewrite Forall_forall in U1. auto. }
  clear - E N. induction (dp_path _ r) as [|q0 qs IH]; [exists mid; constructor|]. destruct qs as [|q1 qs]; [exists (qrot q0); constructor; auto|].
  change (turns (q0 :: q1 :: qs)) with (turn_cost q0 q1 + turns (q1 :: qs)) in E. pose proof (turn_range q0 q1). pose proof (turns_pos (q1 :: qs)). inversion N as [|? ? N0 N']; subst. destruct IH as (A & HA); auto; [lra|].
  exists A. constructor; auto. inversion HA as [|? ? H1 _]; subst. inversion N'; subst. apply qrot_inj; auto. lra.
Qed.
(** the frames handed to the plot *)
Lemma pass_frames_spec path qs :
  pass_frames qs path = map (fun qp => tip_frame (fst qp) (pp_p (snd qp))) (combine qs path).
Proof. unfold pass_frames. apply map_ext. intros [q tp]. cbv zeta. cbn [fst snd tip_frame qtransform pos rot brow bww]. unfold tip_frame, qtransform. cbn [rot pos brow bww]. f_equal. destruct (pp_p tp) as [x y z]. apply vec3_eq; cbn; ring. Qed.
End Pass.

(** ** A concrete passage: two points, one orientation, a box ten units away *)
Definition q_id : quat := Quat 1 0 0 0.
Definition ex_tool : coll * mat4 := (Coll [Shape 1 1 1] [eye4], eye4).
Definition ex_scene : coll := Coll [Shape 1 1 1] [translation 10 0 0].
Definition ex_path : list passpt := [Pp (V3 0 0 0) [q_id]; Pp (V3 1 0 0) [q_id]].
Lemma q_id_unit : qnorm2 q_id = 1.
Proof. unfold qnorm2, q_id. cbn [qw qx qy qz]. ring. Qed.
Lemma ex_rigid : rigid_coll (fst ex_tool) /\ rigid (snd ex_tool) /\ rigid_coll ex_scene /\ Forall unit_samples ex_path.
Proof.
  split; [constructor; [apply rigid_eye|constructor]|]. split; [apply rigid_eye|]. split; [constructor; [apply (poses 0)|constructor]|].
  repeat constructor; apply q_id_unit.
Qed.
Lemma ex_clear tp : In tp ex_path -> clear_sample ex_tool ex_scene tp q_id.
Proof.
  intros H. assert (B : 0 <= vx (pp_p tp) <= 1) by (destruct H as [<-|[<-|[]]]; cbn; lra). assert (S : pp_s tp = [q_id]) by (destruct H as [<-|[<-|[]]]; reflexivity).
  split; [rewrite S; left; reflexivity|]. clear S H. intros x [(s & T & ([|[|i]] & E1 & E2) & l & (L1 & L2 & L3) & El) (s' & T' & ([|[|i']] & E1' & E2') & l' & (L1' & L2' & L3') & El')]; try discriminate.
  injection E1 as <-. injection E2 as <-. injection E1' as <-. injection E2' as <-. cbn [dx dy dz] in *. pose proof (Rle_abs (vx l)); pose proof (Rle_abs (- vx l')) as LL; rewrite Rabs_Ropp in LL.
  apply (f_equal vx) in El, El'. cbn [place fst snd ex_tool] in El. rewrite tmul_1_r in El. unfold tool_frame in El. cbn [snd ex_tool] in El.
  assert (TI : tf_inverse eye4 = eye4) by (rewrite <- (tmul_1_l (tf_inverse eye4)); apply tf_inverse_r, rigid_eye). rewrite TI, tmul_1_r in El.
  assert (QI : qrot q_id = mid). { rewrite qrot_unit by apply q_id_unit. unfold unit_rot, q_id, mid. cbv zeta. cbn [qw qx qy qz]. f_equal; ring. }
  unfold tip_frame, qtransform in El. cbn [rot pos brow bww] in El. rewrite QI in El. cbn [place] in El'. unfold tapply, translation in El, El'. cbn [rot pos] in El, El'. rewrite mapply_1 in El, El'. unfold vadd, v0 in El, El'. cbn [vx vy vz] in El, El'. lra.
Qed.
Lemma ex_plan prim : exact_prim prim -> exists r, pass_plan prim ex_tool ex_scene ex_path = Ok r /\ turns (dp_path _ r) = 0.
Proof.
  intros X. destruct ex_rigid as (A & B & C & D). destruct (pass_complete prim ex_tool ex_scene X A B C ex_path D) as (r & E & _); [cbn; lia| |].
  - apply Forall_forall. intros tp H. exists q_id. apply ex_clear, H.
  - exists r. split; auto. destruct (pass_still prim ex_tool ex_scene X A B C ex_path r q_id D E) as [H _]; auto. apply Forall_forall. apply ex_clear.
Qed.
(** the frames of a plan: the tip at every point with the chosen orientation *)
Lemma pass_poses prim tool scene path r : exact_prim prim -> rigid_coll (fst tool) -> rigid (snd tool) -> rigid_coll scene -> Forall unit_samples path ->
  pass_plan prim tool scene path = Ok r ->
  Forall2 (fun tp F => rigid F /\ pos F = pp_p tp /\ (exists q, In q (pp_s tp) /\ rot F = qrot q) /\
    tmul (tmul F (tf_inverse (snd tool))) (snd tool) = F /\
    forall x, ~ (in_coll (fst tool) (Some (tmul F (tf_inverse (snd tool)))) x /\ in_coll scene None x)) path (pass_frames (dp_path _ r) path).
Proof.
  intros X Ht Htt Hs U H. destruct (pass_sound prim tool scene X Ht Htt Hs path r U H) as (C & _ & _). rewrite pass_frames_spec. clear H.
  induction C as [|tp q path qs [I1 Cl] _ IH]; cbn [combine map]; constructor; inversion U as [|? ? U1 U2]; subst; auto.
  cbn [fst snd]. unfold unit_samples in U1. rewrite Forall_forall in U1. split; [apply tip_rigid; auto|]. split.
  { unfold tip_frame, qtransform. cbn [pos]. destruct (pp_p tp). unfold vadd, v0. cbn. f_equal; ring. }
  split; [exists q; split; auto|]. split; [apply (tip_tool tool); auto|]. exact Cl.
Qed.
