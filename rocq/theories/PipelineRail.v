(** * Proofs about cart_to_joint_simple run on KukaOnRail. *)
From Coq Require Import String List Arith Bool Lia Reals Lra ZArith Permutation.
From Verif Require Import PyBase Cost SpecPath GraphCommon CppGraph CppGraphProofs CppSearch CppHeap CppMain CppExamples Mat Util UtilProofs HaltonProofs Geometry GeometryProofs Robot RobotProofs RobotForms Ik IkProofs KukaProofs RailProofs Path PathProofs Planning PlanningProofs PlanningCart Resources ResourcesProofs TaskProofs Pipeline PipelineProofs.
Import ListNotations.
Local Open Scope R_scope.

Lemma rail_ik_reset rl T g : good (rl_rob rl) -> reset (rl_rob (fst (rail_ik rl T g))) = reset (rl_rob rl).
Proof.
  intros [G _]. unfold rail_ik. destruct (r_links (rl_rob rl)) as [|l ls] eqn:E; [reflexivity|]. inversion G as [|? ? C1 C2]; subst.
  pose proof (link_transform_fst l g C1) as [_ F2]. destruct (link_transform l g) as [l1 T1]. cbn [fst] in *.
  assert (K : reset (set_links (rl_rob rl) (l1 :: ls)) = reset (rl_rob rl)). { unfold reset, set_links, ndof. cbn [r_links r_limits r_base r_tool r_tfb r_mat r_self r_prio map]. rewrite E, F2. reflexivity. }
  destruct T1 as [T1| |]; try exact K. destruct (kuka_ik _ _) as [k1 res]. destruct res as [[|s]| |]; exact K.
Qed.

(** the collision-free solutions of one ik call with rail position g *)
Definition rail_free prim (rl : rail) (scene : coll) (T : mat4) (g : R) : list (list R) :=
  match snd (rail_ik rl T g) with
  | Ok (IkOk s) => filter (fun q => negb (hit prim (rl_rob rl) scene q)) (read (k_wrist (rl_kuka rl)) s)
  | _ => []
  end.
(** forward kinematics of q gives T off the singularities; the first value is g *)
Definition rail_reaches (r : robot) (q : list R) (g : R) (T : mat4) : Prop :=
  exists q1 q2 q3 q4 q5 q6 F, q = [g; q1; q2; q3; q4; q5; q6] /\ snd (fk r q) = Ok F /\
    (sin q5 <> 0 -> cos q3 <> 0 -> F = T) /\
    (sin q5 <> 0 -> rot F = rot T /\ dist2 (pos F) (pos T) <= 2 * Rabs (0.6 * 0.62) * tol).

Section Rail.
Context (prim : shape -> mat3 -> vec3 -> shape -> mat3 -> vec3 -> bool) (to32 : R -> R) (a1 a2 d4 d6 : R).
Context (rl0 : rail) (K0 : rail_ok a1 a2 d4 d6 rl0).
Definition rinv (rl : rail) : Prop := rail_ok a1 a2 d4 d6 rl /\ reset (rl_rob rl) = reset (rl_rob rl0).
Definition rikp (T : mat4) (g : R) : option (list (list R)) :=
  match kuka_sols 0.18 0.6 0.62 0.115 (tmul (tf_inverse (rail_form g)) (unmount (rl_rob rl0) T)) with [] => None | s => Some (map (cons g) s) end.
Lemma rinv_ik rl T g : rinv rl -> rinv (fst (rail_call rl T g)) /\ snd (rail_call rl T g) = Ok (rikp T g).
Proof.
  intros [K E]. unfold rail_call. destruct (rail_ik_spec a1 a2 d4 d6 rl T g K) as (S1 & _ & _ & S4). pose proof (rail_ik_reset rl T g (proj1 (ro_rob _ _ _ _ _ K))) as S5.
  destruct (rail_ik rl T g) as [rl' r]. cbn [fst snd] in *. subst r. cbn [bind].
  split; [split; congruence|]. unfold rikp. rewrite (reset_unmount _ _ T E). destruct (kuka_sols 0.18 0.6 0.62 0.115 _); reflexivity.
Qed.
Lemma rikp_length T g qs : rikp T g = Some qs -> Forall (fun q => length q = 7%nat) qs.
Proof.
  unfold rikp. pose proof (kuka_sols_length 0.18 0.6 0.62 0.115 (tmul (tf_inverse (rail_form g)) (unmount (rl_rob rl0) T))) as H. destruct (kuka_sols 0.18 0.6 0.62 0.115 _); [discriminate|].
  intros E. injection E as <-. apply (Forall_map (cons g)  _ (_ :: _)). eapply Forall_impl; [|exact H]. intros q Hq. cbn. congruence.
Qed.
Lemma rinv_coll scene rl q : rinv rl -> length q = 7%nat ->
  rinv (rail_put rl (fst (robot_collision prim (rl_rob rl) q scene))) /\ snd (robot_collision prim (rl_rob rl) q scene) = Ok (hit prim (rl_rob rl0) scene q).
Proof.
  intros [K E] L. pose proof (ro_rob _ _ _ _ _ K) as L1. pose proof (ro_rob _ _ _ _ _ K0) as L0. destruct (robot_collision_fst prim (rl_rob rl) q scene (proj1 L1)) as [G R].
  split; [split|].
  - destruct K as [_ A B]. split; auto. cbn [rl_rob rail_put]. eapply reset_like; eauto.
  - cbn [rl_rob rail_put]. congruence.
  - apply hit_spec; auto; try apply L0; try apply L1; [eapply like_joints; eauto; apply Rail_joints|]. rewrite (like_ndof _ _ L0), L. cbn. lia.
Qed.
Lemma rail_free_spec scene T g : rail_free prim rl0 scene T g = free (hit prim (rl_rob rl0) scene) (rikp T g).
Proof.
  unfold rail_free. destruct (rail_ik_spec a1 a2 d4 d6 rl0 T g K0) as (_ & _ & _ & ->). unfold rikp, free. destruct (kuka_sols 0.18 0.6 0.62 0.115 _); reflexivity.
Qed.
Lemma rail_columns_exact disc scene path qf D : Forall2 (fun tp Ts => disc tp = Ok (map AFrame Ts) /\ Ts <> []) path D ->
  snd (rail_columns prim to32 disc scene path qf rl0 None) = Ok (map (fun Ts => entry_of to32 (flat_map (rail_free prim rl0 scene (last Ts eye4)) qf)) D).
Proof.
  intros H. destruct (simple_columns_spec rl_rob rail_put prim to32 scene rinv 7 (hit prim (rl_rob rl0) scene) (rinv_coll scene) rail_call rikp rinv_ik rikp_length disc qf path D H rl0 None) as [_ E]; [split; auto|].
  unfold rail_columns. rewrite E. f_equal. apply map_ext. intros Ts. f_equal. unfold fixed_free. apply flat_map_ext. intros g. symmetry. apply rail_free_spec.
Qed.
End Rail.

(** ** The planned motion *)
Definition disc_ok (tp : pathpt) : Prop :=
  match tp with
  | PEuler p => (exists pos rpy, new_eulerpt pos rpy = Ok p) /\ Forall proper (firstn 3 (e_pos p) ++ firstn 3 (e_rpy p)) /\
      Forall (fun v => (1 <= count v)%nat) (firstn 3 (e_pos p) ++ firstn 3 (e_rpy p))
  | _ => False
  end.
Lemma count_prod : forall l, Forall (fun v => (1 <= count v)%nat) l -> (1 <= fold_right Nat.mul 1 (map count l))%nat.
Proof. induction 1 as [|v l H _ IH]; cbn [map fold_right]; [lia|]. nia. Qed.
Lemma disc_allowed ypr fuel tp : disc_ok tp -> exists Ts, pt_discretise ypr fuel tp = Ok (map AFrame Ts) /\ Ts <> [] /\ forall T, In T Ts -> allowed tp T.
Proof.
  destruct tp as [p|p|p|p rnd]; intros H; try destruct H. destruct H0 as [P N]. rename H into E0. destruct (pt_allowed ypr fuel 0 (PEuler p)) as (Ts & E & A); [split; auto|].
  exists Ts. cbn [pt_samples pt_discretise] in *. rewrite E. cbn [bind]. split; auto. split; auto.
  destruct E0 as (ps & rs & E0). destruct (proj1 (new_eulerpt_Ok ps rs) (ex_intro _ p E0)) as [L1 L2].
  destruct ps as [|p1 [|p2 [|p3 ps]]]; cbn in L1; try lia. destruct rs as [|r1 [|r2 [|r3 rs]]]; cbn in L2; try lia.
  destruct (euler_fields _ _ _ _ _ _ _ _ _ E0) as (F1 & F2 & _). rewrite F1, F2 in *. cbn [firstn app] in *.
  destruct (euler_spec _ _ _ _ _ _ _ _ _ E0) as (l & El & Ll & _). { eapply Forall_impl; [|exact P]. intros [y|t]; cbn; tauto. }
  rewrite E in El. injection El as <-. apply count_prod in N. intros ->. rewrite <- Ll in N. cbn in N. lia.
Qed.
Section RailPlan.
Context (prim : shape -> mat3 -> vec3 -> shape -> mat3 -> vec3 -> bool) (to32 : R -> R) (rl : rail) (Hr : rail_ok 0.18 0.6 0.62 0.115 rl).
Lemma rail_free_sound scene T g q : exact_prim prim -> solid (rl_rob rl) -> rigid_coll scene -> rigid T -> In q (rail_free prim rl scene T g) ->
  rail_reaches (rl_rob rl) q g T /\ clear (rl_rob rl) scene q.
Proof.
  intros X S C RT H. unfold rail_free in H. destruct (snd (rail_ik rl T g)) as [[|s]| |] eqn:E; try destruct H. apply filter_In in H. destruct H as [H1 H2].
  pose proof (rail_correct rl T g s _ q Hr (proj1 S) (solid_tool _ S) RT E H1) as R. split; [exact R|].
  pose proof (ro_rob _ _ _ _ _ Hr) as L. apply (free_iff_clear prim); auto; [apply L|eapply like_joints; eauto; apply Rail_joints| |destruct (hit prim (rl_rob rl) scene q); auto; discriminate].
  rewrite (like_ndof _ _ L). destruct R as (q1 & q2 & q3 & q4 & q5 & q6 & F & -> & _). cbn. lia.
Qed.
Lemma rail_plan_sound {K : CostStruct} (sq_acc : K -> R -> R -> R -> K) pq ypr fuel scene path qf method ow rows c :
  exact_prim prim -> solid (rl_rob rl) -> rigid_coll scene -> Forall disc_ok path ->
  snd (rail_plan prim to32 sq_acc pq (pt_discretise ypr fuel) scene path qf method ow rl) = Ok (GspOk rows c) ->
  Forall2 (fun tp row => exists q g T, row = map to32 q /\ In g qf /\ allowed tp T /\ rail_reaches (rl_rob rl) q g T /\ clear (rl_rob rl) scene q) path rows.
Proof.
  intros X S C P. assert (HD : exists D, Forall2 (fun tp Ts => (pt_discretise ypr fuel tp = Ok (map AFrame Ts) /\ Ts <> []) /\ forall T, In T Ts -> allowed tp T) path D).
  { induction P as [|tp path H _ (D & IH)]; [exists []; constructor|]. destruct (disc_allowed ypr fuel tp H) as (Ts & A & B & G). exists (Ts :: D). constructor; auto. }
  destruct HD as (D & HD). assert (HD' : Forall2 (fun tp Ts => pt_discretise ypr fuel tp = Ok (map AFrame Ts) /\ Ts <> []) path D) by (eapply Forall2_impl'; [|exact HD]; cbn; tauto).
  unfold rail_plan, simple_plan. fold (rail_columns prim to32). pose proof (rail_columns_exact prim to32 _ _ _ _ rl Hr (pt_discretise ypr fuel) scene path qf D HD') as E.
  destruct (rail_columns prim to32 (pt_discretise ypr fuel) scene path qf rl None) as [rl' Q]. cbn [snd] in *. subst Q. cbn [bind]. intros H.
  rewrite <- (map_map (fun Ts => flat_map (rail_free prim rl scene (last Ts eye4)) qf) (entry_of to32)) in H. apply gsp_rows in H. destruct H as (Q' & E1 & H). apply check_dtype_entries in E1. subst Q'.
  apply Forall2_map_l, Forall2_map_l in H. clear HD'. revert rows H. clear P. induction HD as [|tp Ts path D [[E2 N] A] _ IH]; intros rows H; inversion H as [|? row ? rows' H1 H2]; subst; constructor; auto.
  apply entry_row in H1. destruct H1 as (q & I1 & ->). apply in_flat_map in I1. destruct I1 as (g & Ig & I1). exists q, g, (last Ts eye4). split; auto. split; auto.
  assert (AT : allowed tp (last Ts eye4)) by (apply A; destruct (exists_last N) as (Ts' & T & ->); rewrite last_last; apply in_or_app; right; left; auto).
  split; auto. apply rail_free_sound; auto. apply AT.
Qed.
End RailPlan.
(** ** Other classes of points *)
Lemma simple_no_discretise {O} (get : O -> robot) put prim to32 ik ypr fuel scene tp path qf o :
  (exists p, tp = PPos p) \/ (exists p, tp = PAxis p) ->
  snd (simple_columns get put prim to32 ik (pt_discretise ypr fuel) scene (tp :: path) qf o None) = Raise AttributeError.
Proof. intros [[p ->]|[p ->]]; reflexivity. Qed.
Lemma simple_free_point {O} (get : O -> robot) put prim to32 ik ypr fuel scene p rnd path g qf o : pt_ok 100 (PFree p rnd) ->
  snd (simple_columns get put prim to32 ik (pt_discretise ypr fuel) scene (PFree p rnd :: path) (g :: qf) o None) = Raise ValueError.
Proof.
  intros (_ & L & U). cbn [simple_columns pt_discretise]. destruct (free_rpy ypr fuel rnd p 100 None None) as (l & E & Ll & _); [apply meth_random; auto|lia|auto|].
  rewrite E. cbn [bind]. destruct l as [|r l]; [discriminate|]. cbn [map simple_frames solve_fixed]. reflexivity.
Qed.
