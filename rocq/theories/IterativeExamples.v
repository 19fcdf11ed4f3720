(** * Iterative and incremental planning on concrete tasks: examples and counterexamples of C149-C151. *)
From Coq Require Import String Reals Lra Lia Psatz List Bool Arith ZArith.
From Verif Require Import PyBase Cost SpecPath GraphCommon CppGraph CppGraphProofs CppSearch CppHeap CppMain CppFinal CppExamples Mat Util UtilProofs HaltonProofs Geometry GeometryProofs Robot RobotProofs RobotForms Ik IkProofs KukaProofs RailProofs Path PathProofs Planning PlanningProofs PlanningCart PlanningIter Resources ResourcesProofs TaskProofs Pipeline PipelineProofs PipelineExamples Motion MotionKuka LocalIk Margin GridCover Resolution ResolutionExamples Turn Uniform Iterative IterativeProofs.
From Verif Require Io IoProofs ExamplesProofs.
Local Notation trace3 := ExamplesProofs.trace3.
Local Notation quat_of_matrix := Io.quat_of_matrix.
Import ListNotations.
Local Open Scope R_scope.

(** ** The published pyquaternion has no random_near *)
Section Published.
Context (prim : shape -> mat3 -> vec3 -> shape -> mat3 -> vec3 -> bool) (to32 : R -> R) (a1 a2 d4 d6 : R) (Hne : a2 * d4 <> 0).
Context (k0 : kuka) (K0 : kuka_ok a1 a2 d4 d6 k0).
Lemma published {K : CostStruct} (sq_acc : K -> R -> R -> R -> K) pq ypr fuel scene path num p c costs paths nt : path <> [] -> (1 <= num)%nat ->
  snd (kuka_it_plan prim to32 sq_acc pq (cur_samples ypr fuel None) scene path num 1 k0) = Ok (ItOk p c costs paths nt) ->
  forall iters, snd (kuka_it_plan prim to32 sq_acc pq (cur_samples ypr fuel None) scene path num (S (S iters)) k0) = Raise AttributeError.
Proof.
  intros Hp Hn H iters. rewrite (kuka_it_eq prim to32 a1 a2 d4 d6 Hne k0 K0) in *. unfold cart_to_joint_iterative in *.
  destruct (mapM (solution_point (F := R) cur_class (PI / 4)) (map CurPt path)) as [sps| |] eqn:Em; cbn [bind drop] in *; try discriminate.
  apply solution_points in Em. destruct Em as (H1 & _ & H3). cbn [iter_loop] in *.
  match type of H with context [iter_columns ?a ?b ?c ?d ?e ?f ?g ?h] => destruct (iter_columns a b c d e f g h) as [[Q j]| |] eqn:Ec end; cbn [bind drop] in *; try discriminate. destruct (forallb _ Q) eqn:Ef; [|discriminate].
  destruct (get_shortest_path 1 sq_acc pq to32 Q "dijkstra" None) as [[|p' c']| |] eqn:Eg; cbn [bind drop] in *; try discriminate.
  destruct (resample_all _ _ _ p' sps) as [sps'| |] eqn:Er; cbn [bind drop] in *; try discriminate.
  assert (L : length p' = length sps).
  { apply gsp_rows in Eg. destruct Eg as (Q' & Hd & Hr). apply check_dtype_qlen in Hd. apply (f_equal (@length _)) in Hd. rewrite !map_length in Hd. apply PlanningIter.Forall2_length in Hr.
    apply (cols_spec to32 _ _ _ (scc (hit prim (k_rob k0)) scene)) in Ec; [|reflexivity]. apply PlanningIter.Forall2_length in Ec. congruence. }
  pose proof (resample_all_spec _ _ _ _ _ _ Er L H1) as Hs. destruct sps as [|sp sps]; [destruct path; [congruence|discriminate]|]. destruct p' as [|x p']; [discriminate|]. cbn [combine] in Hs.
  inversion Hs as [|sp' ? sps2 ? (T & _ & E & _) _]; subst. cbn [iter_columns]. unfold near_state at 1. rewrite E. unfold at_frame. cbn [cur_samples]. destruct num; [lia|]. reflexivity.
Qed.
End Published.

(** ** Fewer iterations give the beginning of the record *)
Section Prefix.
Context (prim : shape -> mat3 -> vec3 -> shape -> mat3 -> vec3 -> bool) (to32 : R -> R) (a1 a2 d4 d6 : R) (Hne : a2 * d4 <> 0).
Context (k0 : kuka) (K0 : kuka_ok a1 a2 d4 d6 k0).
Lemma loop_prefix {K : CostStruct} (sq_acc : K -> R -> R -> R -> K) pq ikp cc samples fk' num scene : forall n sps st costs paths nt l p c costs' paths' nt' st',
  iter_loop 1 sq_acc pq to32 ikp cc samples fk' at_frame half (S n) scene sps num st costs paths nt (Some l) = Ok (ItOk p c costs' paths' nt', st') ->
  exists p0 c0 costs0 paths0 nt0 st0, iter_loop 1 sq_acc pq to32 ikp cc samples fk' at_frame half n scene sps num st costs paths nt (Some l) = Ok (@ItOk K R p0 c0 costs0 paths0 nt0, st0 : nat) /\
    costs' = costs0 ++ [c] /\ paths' = paths0 ++ [p] /\ nt' = (nt0 + 1)%nat.
Proof.
  induction n as [|n IH]; intros sps st costs paths nt [p1 c1] p c costs' paths' nt' st' H.
  - cbn [iter_loop] in *. exists p1, c1, costs, paths, nt, st. split; auto.
    destruct (iter_columns _ _ _ _ scene sps num st) as [[Q j]| |]; cbn [bind] in H; try discriminate. destruct (forallb _ Q); [|discriminate].
    destruct (get_shortest_path 1 sq_acc pq to32 Q "dijkstra" None) as [[|p' c']| |]; cbn [bind] in H; try discriminate. destruct (resample_all _ _ _ p' sps); cbn [bind] in H; try discriminate. injection H as <- <- <- <- <- _. auto.
  - cbn [iter_loop] in H |- *. fold (iter_loop 1 sq_acc pq to32 ikp cc samples fk' at_frame half) in *.
    destruct (iter_columns _ _ _ _ scene sps num st) as [[Q j]| |]; cbn [bind] in H |- *; try discriminate. destruct (forallb _ Q); [|discriminate].
    destruct (get_shortest_path 1 sq_acc pq to32 Q "dijkstra" None) as [[|p' c']| |]; cbn [bind] in H |- *; try discriminate. destruct (resample_all _ _ _ p' sps) as [sps'| |]; cbn [bind] in H |- *; try discriminate.
    apply (IH sps' j (costs ++ [c']) (paths ++ [p']) (nt + 1)%nat (p', c')) in H. exact H.
Qed.
Lemma it_prefix {K : CostStruct} (sq_acc : K -> R -> R -> R -> K) pq samples scene path num n p c costs paths nt :
  snd (kuka_it_plan prim to32 sq_acc pq samples scene path num (S (S n)) k0) = Ok (ItOk p c costs paths nt) ->
  exists p0 c0 costs0 paths0 nt0, snd (kuka_it_plan prim to32 sq_acc pq samples scene path num (S n) k0) = Ok (ItOk p0 c0 costs0 paths0 nt0) /\
    costs = costs0 ++ [c] /\ paths = paths0 ++ [p] /\ nt = (nt0 + 1)%nat.
Proof.
  rewrite !(kuka_it_eq prim to32 a1 a2 d4 d6 Hne k0 K0). unfold cart_to_joint_iterative. destruct (mapM _ (map CurPt path)) as [sps| |]; cbn [bind drop]; try discriminate.
  set (m := S n). cbn [iter_loop]. unfold m. cbn [iter_loop]. intros H.
  match type of H with context [iter_columns ?a ?b ?c ?d ?e ?f ?g ?h] => destruct (iter_columns a b c d e f g h) as [[Q j]| |] end; cbn [bind drop] in *; try discriminate. destruct (forallb _ Q); [|discriminate].
  destruct (get_shortest_path 1 sq_acc pq to32 Q "dijkstra" None) as [[|p' c']| |]; cbn [bind drop] in *; try discriminate. destruct (resample_all _ _ _ p' sps) as [sps'| |]; cbn [bind drop] in *; try discriminate.
  match type of H with drop ?x = _ => assert (G : exists st', x = Ok (ItOk p c costs paths nt, st')) by (destruct x as [[r st']| |]; cbn [drop bind] in H; try discriminate; injection H as ->; eauto) end. destruct G as (st' & G).
  apply (loop_prefix sq_acc pq _ _ _ _ num (has scene) n sps' j ([] ++ [c']) ([] ++ [p']) (0 + 1)%nat (p', c')) in G. destruct G as (p0 & c0 & costs0 & paths0 & nt0 & st0 & G & R). exists p0, c0, costs0, paths0, nt0. rewrite G. split; [reflexivity|exact R].
Qed.
End Prefix.

(** ** One iteration is the grid planner *)
Section First.
Context (prim : shape -> mat3 -> vec3 -> shape -> mat3 -> vec3 -> bool) (to32 : R -> R) (a1 a2 d4 d6 : R) (Hne : a2 * d4 <> 0).
Context (k0 : kuka) (K0 : kuka_ok a1 a2 d4 d6 k0).
Notation rob := (k_rob k0).
Definition is_free (tp : pathpt) : Prop := match tp with PFree _ _ => True | _ => False end.
Lemma first_points path : Forall is_free path -> mapM (solution_point (F := R) cur_class (PI / 4)) (map CurPt path) = Ok (map (fun tp => mkSP (CurPt tp) CFree None (PI / 4)) path).
Proof. induction 1 as [|tp path H _ IH]; cbn [map mapM]; auto. destruct tp; cbn in H; try tauto. cbn [solution_point cur_class bind]. rewrite IH. reflexivity. Qed.
Lemma first_columns scene ypr fuel near num : forall path D j, mapM (pt_samples ypr fuel num) path = Ok D -> Forall (fun Ts => flat_map (kuka_free prim k0 scene) Ts <> []) D ->
  exists j', iter_columns to32 (kikp a1 a2 d4 d6 k0) (fun q (s : nat) => (scc (hit prim rob) (Some scene) q, s)) (near_state (cur_samples ypr fuel near)) true (map (fun tp => mkSP (CurPt tp) CFree None (PI / 4)) path) num j =
    Ok (map (fun Ts => entry_of to32 (flat_map (kuka_free prim k0 scene) Ts)) D, j').
Proof.
  induction path as [|tp path IH]; intros D j E F; cbn [mapM map iter_columns] in *; [injection E as <-; eexists; reflexivity|].
  destruct (pt_samples ypr fuel num tp) as [Ts| |] eqn:Et; cbn [bind] in E; try discriminate. destruct (mapM (pt_samples ypr fuel num) path) as [D'| |]; cbn [bind] in E; try discriminate. injection E as <-. inversion F as [|? ? N F']; subst.
  unfold near_state at 1. cbn [sp_cur sp_dist cur_samples]. rewrite Et. cbn [bind]. unfold calc_joint_solutions. rewrite collect_pure. cbn [app].
  change (flat_map (fun t => free (scc (hit prim rob) (Some scene)) (kikp a1 a2 d4 d6 k0 t)) Ts) with (flat_map (fun t => free (hit prim rob scene) (kikp a1 a2 d4 d6 k0 t)) Ts).
  rewrite (flat_map_ext _ _ (free_kuka prim a1 a2 d4 d6 Hne k0 K0 scene)). pose proof (kuka_free_length prim a1 a2 d4 d6 Hne k0 K0 scene Ts) as L.
  destruct (IH D' (S j) eq_refl F') as (j' & E'). destruct (flat_map (kuka_free prim k0 scene) Ts) as [|q l] eqn:El; [congruence|].
  replace (forallb (fun q' => (length q' =? length q)%nat) (q :: l)) with true. 2:{ symmetry. apply forallb_forall. intros y Hy. rewrite Forall_forall in L. rewrite (L y Hy), (L q (or_introl eq_refl)). reflexivity. }
  cbn [bind]. rewrite E'. cbn [bind map]. rewrite El. exists j'. reflexivity.
Qed.
Lemma first_resample : forall rows (path : list pathpt), length rows = length path -> Forall (fun row => length row = 6%nat) rows ->
  exists sps, resample_all (fun q => snd (fk rob q)) at_frame half rows (map (fun tp => mkSP (CurPt tp) CFree None (PI / 4)) path) = Ok sps.
Proof.
  induction rows as [|row rows IH]; intros [|tp path] L F; cbn in L; try discriminate; [eexists; reflexivity|]. inversion F as [|? ? L6 F']; subst. destruct (IH path ltac:(lia) F') as (sps & E). cbn [map resample_all]. unfold resample at 1. cbn [sp_class sp_dist].
  destruct row as [|q1 [|q2 [|q3 [|q4 [|q5 [|q6 [|? ?]]]]]]]; cbn in L6; try discriminate. rewrite (kuka_fk_mount a1 a2 d4 d6) by (apply (ko_rob _ _ _ _ _ K0)). cbn [bind]. rewrite E. eexists. reflexivity.
Qed.
Lemma it_first ypr fuel near scene path num (pq : pqueue RCost R) : exact_prim prim -> solid rob -> rigid_coll scene -> path <> [] -> Forall is_free path -> Forall (reachable a1 a2 d4 k0 scene (pt_samples ypr fuel num)) path -> pq_ok pq ->
  exists rows c, snd (kuka_plan prim to32 (K := RCost) rsq pq (pt_samples ypr fuel num) scene path "dijkstra" None k0) = Ok (GspOk rows c) /\
  snd (kuka_it_plan prim to32 (K := RCost) rsq pq (cur_samples ypr fuel near) (Some scene) path num 1 k0) = Ok (@ItOk RCost R rows c [c] [rows] 1).
Proof.
  intros X Sd C Hp Hf Hr Hq. destruct (kuka_plan_complete_dijkstra prim to32 a1 a2 d4 d6 Hne k0 K0 scene (pt_samples ypr fuel num) path None X Sd C Hp Hr pq Hq) as (rows & E & F). cbv zeta in E. eexists rows, _. split; [exact E|].
  rewrite (kuka_plan_eq prim to32 a1 a2 d4 d6 Hne k0 K0) in E. destruct (mapM (pt_samples ypr fuel num) path) as [D| |] eqn:Em; cbn [bind] in E; try discriminate.
  assert (N : Forall (fun Ts => flat_map (kuka_free prim k0 scene) Ts <> []) D).
  { apply mapM_Ok_Forall2 in Em. clear - Em Hr X Sd C K0 Hne. revert Hr. induction Em as [|tp Ts path D Et _ IH]; intros Hr; constructor; inversion Hr as [|? ? R1 R2]; subst; auto.
    destruct (reachable_candidate prim a1 a2 d4 d6 Hne k0 K0 scene (pt_samples ypr fuel num) tp X Sd C R1) as (q & Ts' & T & E1 & E2 & E3). rewrite Et in E1. injection E1 as <-. intros Z.
    assert (I : In q (flat_map (kuka_free prim k0 scene) Ts)) by (apply in_flat_map; eauto). rewrite Z in I. exact I. }
  rewrite (kuka_it_eq prim to32 a1 a2 d4 d6 Hne k0 K0). unfold cart_to_joint_iterative. rewrite (first_points path Hf). cbn [bind iter_loop has]. destruct (first_columns scene ypr fuel near num path D 0 Em N) as (j' & Ec). rewrite Ec. cbn [bind].
  replace (forallb _ (map (fun Ts => entry_of to32 (flat_map (kuka_free prim k0 scene) Ts)) D)) with true. 2:{ symmetry. apply forallb_forall. intros e I. apply in_map_iff in I. destruct I as (Ts & <- & I). rewrite Forall_forall in N. specialize (N Ts I). destruct (flat_map _ Ts); [congruence|reflexivity]. }
  rewrite E. cbn [bind]. destruct (first_resample rows path) as (sps & Es).
  - clear - F. induction F; cbn; auto.
  - clear - F K0 Hne. induction F as [|tp row path rows (q & (Ts & T & _ & _ & I) & ->) _ IH]; constructor; auto. rewrite map_length. pose proof (kuka_free_length prim a1 a2 d4 d6 Hne k0 K0 scene [T]) as L. rewrite Forall_forall in L. apply L. cbn [flat_map]. rewrite app_nil_r. exact I.
  - rewrite Es. reflexivity.
Qed.
End First.

(** ** Building blocks *)
Lemma free_frame A : rotation A -> exists r, unit_row r /\ forall ypr fuel x y z, pt_samples ypr fuel 1 (PFree [x; y; z] [r]) = Ok [M4 A (V3 x y z) v0 1].
Proof.
  intros RA. destruct (rotation_onto A RA) as (r1 & r2 & r3 & B1 & B2 & B3 & E). exists [r1; r2; r3]. split; [exists r1, r2, r3; auto|].
  intros ypr fuel x y z. unfold pt_samples, free_samples, sample_SO3. cbn [String.eqb Ascii.eqb Bool.eqb length Nat.ltb Nat.leb bind firstn mapM]. cbn. unfold qtransform. cbn. rewrite E. reflexivity.
Qed.
Notation ksols T := (kuka_sols 0.18 0.6 0.62 0.115 T).
Notation nothing := (Coll [] []).
Lemma bare_free prim T : exact_prim prim -> kuka_free prim bare nothing T = ksols T.
Proof.
  intros X. rewrite (kuka_free_spec prim 0.18 0.6 0.62 0.115 default_ne bare (new_kuka_ok _ _ _ _)). unfold kikp, free. rewrite bare_unmount.
  pose proof (kuka_sols_length 0.18 0.6 0.62 0.115 T) as L. destruct (ksols T) as [|q l]; auto. induction L as [|x l' Hx _ IH]; auto. cbn [filter].
  replace (hit prim (k_rob bare) nothing x) with false; [cbn [negb]; f_equal; exact IH|]. symmetry. apply (free_iff_clear prim); auto; [apply (ko_rob _ _ _ _ _ (new_kuka_ok 0.18 0.6 0.62 0.115))|apply Kuka_joints| |apply bare_solid|constructor|apply bare_clear; reflexivity]. cbn. lia.
Qed.
Section Steps.
Context (prim : shape -> mat3 -> vec3 -> shape -> mat3 -> vec3 -> bool) (X : exact_prim prim).
Notation cols_ := (iter_columns (fun x : R => x) (kikp 0.18 0.6 0.62 0.115 bare) (fun q s => (scc (hit prim (k_rob bare)) (Some nothing) q, s))).
Lemma cols_step samples sp sps num j T Q j' : samples (sp_cur sp) num (sp_dist sp) j = Ok [T] -> ksols T <> [] ->
  cols_ (near_state samples) true sps num (S j) = Ok (Q, j') -> cols_ (near_state samples) true (sp :: sps) num j = Ok (QArr F32 6 (ksols T) :: Q, j').
Proof.
  intros E N H. cbn [iter_columns]. unfold near_state at 1. rewrite E. cbn [bind]. unfold calc_joint_solutions. rewrite collect_pure. cbn [app flat_map]. rewrite app_nil_r. change (free _ (kikp 0.18 0.6 0.62 0.115 bare T)) with (free (hit prim (k_rob bare) nothing) (kikp 0.18 0.6 0.62 0.115 bare T)). rewrite (free_kuka prim 0.18 0.6 0.62 0.115 default_ne bare (new_kuka_ok _ _ _ _)), (bare_free prim T X).
  pose proof (kuka_sols_length 0.18 0.6 0.62 0.115 T) as L. destruct (ksols T) as [|q l]; [congruence|]. inversion L as [|? ? Lq Ll]; subst.
  replace (forallb (fun q' => length q' =? length q)%nat (q :: l)) with true. 2:{ symmetry. apply forallb_forall. intros y Hy. rewrite Forall_forall in L. rewrite Lq, (L y Hy). reflexivity. }
  cbn [bind]. rewrite H. cbn [bind]. rewrite Lq, (map_ext (map (fun x : R => x)) (fun x => x)), map_id by apply map_id. reflexivity.
Qed.
Lemma cols_step_nil samples sp sps num j T Q j' : samples (sp_cur sp) num (sp_dist sp) j = Ok [T] -> ksols T = [] ->
  cols_ (near_state samples) true sps num (S j) = Ok (Q, j') -> cols_ (near_state samples) true (sp :: sps) num j = Ok (QArr F32 0 [] :: Q, j').
Proof.
  intros E N H. cbn [iter_columns]. unfold near_state at 1. rewrite E. cbn [bind]. unfold calc_joint_solutions. rewrite collect_pure. cbn [app flat_map]. rewrite app_nil_r. change (free _ (kikp 0.18 0.6 0.62 0.115 bare T)) with (free (hit prim (k_rob bare) nothing) (kikp 0.18 0.6 0.62 0.115 bare T)). rewrite (free_kuka prim 0.18 0.6 0.62 0.115 default_ne bare (new_kuka_ok _ _ _ _)), (bare_free prim T X), N.
  cbn [bind]. rewrite H. reflexivity.
Qed.
End Steps.
Lemma gsp_min (data : list (list (list R))) (pq : pqueue RCost R) : uniform 6 data -> data <> [] -> Forall (fun col => col <> []) data -> pq_ok pq -> pops_minimum pq ->
  exists js p, get_shortest_path 1 (K := RCost) rsq pq (fun x => x) (arrays F32 6 data) "dijkstra" None = Ok (GspOk p (walk_cost (K := RCost) (jcost (K := RCost) rsq (eff_weights 1 6 None)) p)) /\ picks data js p /\
  forall js' p', picks data js' p' -> cle (walk_cost (K := RCost) (jcost (K := RCost) rsq (eff_weights 1 6 None)) p) (walk_cost (K := RCost) (jcost (K := RCost) rsq (eff_weights 1 6 None)) p').
Proof.
  intros Hu Hn Hc Hq Hm. destruct (gsp_arrays (K := RCost) 1 rsq pq (fun x => x) F32 6 data "dijkstra" None Hu Hn Hc) as [E HL]. rewrite E. cbn [seen] in *. unfold search_part. cbn [String.eqb Ascii.eqb Bool.eqb].
  destruct (cdij_min (K := RCost) 1 rsq 6 data None Hu Hn Hc (fun js p _ => rsq_finite _ p) pq Hq _ HL Hm) as (s' & js & p & H1 & H2 & H3 & H4 & H5).
  { intros x y d _. apply rsq_nonneg. apply (eff_weights_nonneg 6 None). intros; discriminate. }
  exists js, p. rewrite H1. cbn [bind]. split; auto. rewrite (search_finish 1 (fun x => x) 6 data s' js p Hn H2 H3); [rewrite H4; reflexivity|]. eapply run_dij_found; eauto.
Qed.

(** ** Poses with the tool pointing sideways *)
Definition sideframe (t x z : R) : mat4 := M4 (rot (tframe t)) (V3 x (-0.115) z) v0 1.
Lemma sideframe_rigid t x z : rigid (sideframe t x z).
Proof. split; cbn; auto. apply rot_xyz_rotation. Qed.
Lemma sideframe_tframe t : sideframe t 0.78 (-0.62) = tframe t.
Proof. reflexivity. Qed.
Lemma side_centre t x z : centre 0.115 (sideframe t x z) = V3 x 0 z.
Proof. unfold centre, sideframe. cbn [rot pos]. rewrite tframe_col2. unfold vsub, vscale. cbn [vx vy vz]. f_equal; lra. Qed.
Lemma lxy_pos x z : 0 < x -> lxy (V3 x 0 z) = x.
Proof. intros H. unfold lxy. cbn [vx vy]. replace (x ^ 2 + 0 ^ 2) with (x * x) by ring. apply sqrt_square. lra. Qed.
Lemma side_arm x z q : 0 < x -> In q (arm_sols 0.18 0.6 0.62 (V3 x 0 z)) -> exists q1 q2 q3, q = [q1; q2; q3] /\ sin q1 = 0.
Proof.
  intros Hx0. assert (N : forall x, 0 < x -> sqrt (x ^ 2 + 0 ^ 2) <> 0) by (intros x' Hx E; apply sqrt_eq_0 in E; nra).
  assert (S1 : forall x, 0 < x -> sin (atan2 0 x) = 0) by (intros x' Hx; destruct (polar x' 0) as [_ P]; apply Rmult_integral in P; destruct P as [P|P]; auto; destruct (N x' Hx P)).
  assert (S2 : forall x, 0 < x -> sin (atan2 (Ropp 0) (Ropp x)) = 0) by (intros x' Hx; destruct (polar_neg x' 0) as [_ P]; apply Rmult_integral in P; destruct P as [P|P]; auto; destruct (N x' Hx); lra).
  intros H. unfold arm_sols, branch in H. cbn [vx vy vz] in H. apply in_app_or in H. destruct H as [H|H]; (destruct (elbow _); [|destruct H]); destruct H as [<-|[<-|[]]]; eexists _, _, _; (split; [reflexivity|]); (apply S1 || apply S2); lra.
Qed.
(** with a bent elbow every solution reaches the frame *)
Definition bent_at (x z : R) : Prop := forall l, l = x \/ l = - x -> Rabs (elbow_cos 0.6 0.62 (l - 0.18) z) <= 1 - tol \/ 1 + tol < Rabs (elbow_cos 0.6 0.62 (l - 0.18) z).
Lemma side_fk t x z q : 0 < x -> bent_at x z -> In q (ksols (sideframe t x z)) -> snd (fk (k_rob bare) q) = Ok (sideframe t x z).
Proof.
  intros Hx Bt H. assert (H' := H). unfold kuka_sols in H. rewrite side_centre in H. apply in_flat_map in H. destruct H as (qa & Ha & H).
  assert (Ha' := Ha). destruct (side_arm x z qa Hx Ha) as (q1 & q2 & q3 & -> & S1).
  assert (N3 : sin q3 <> 0).
  { apply in_app_or in Ha'. rewrite lxy_pos in Ha' by auto. cbn [vx vy vz] in Ha'.
    assert (G : forall a l, l = x \/ l = - x -> In [q1; q2; q3] (branch 0.6 0.62 a (l - 0.18) z) -> sin q3 <> 0).
    { intros a l Hl I. unfold branch in I. destruct (elbow (elbow_cos 0.6 0.62 (l - 0.18) z)) as [c|] eqn:E; [|destruct I]. pose proof tol_pos as TP.
      destruct (elbow_angles _ _ E) as (_ & A2 & _ & A4 & A5). apply elbow_Some in E.
      destruct E as [[-> E]|(E1 & [->| ->] & E2)]. 2,3: exfalso; destruct (Bt l Hl) as [B|B]; [lra|]; apply Rabs_le_inv in E2; destruct (Rle_dec 0 (elbow_cos 0.6 0.62 (l - 0.18) z)); [rewrite Rabs_pos_eq in B by auto|rewrite Rabs_left in B by lra]; lra.
      assert (P : 0 < sqrt (1 - elbow_cos 0.6 0.62 (l - 0.18) z ^ 2)) by (apply sqrt_lt_R0; apply Rabs_le_inv in E; nra).
      cbv zeta in *. destruct I as [I|[I|[]]]; apply (f_equal (fun l => sin (nth 2 l 0))) in I; cbn [nth] in I; rewrite <- I, ?A2, ?A4; lra. }
    destruct Ha' as [I|I]; [apply (G _ x (or_introl eq_refl) I)|apply (G _ (- x) (or_intror eq_refl) I)]. }
  cbn [arm_wrist] in H. apply in_map_iff in H. destruct H as (qw & <- & H). set (M := arm2_rot q1 (q2 + (q3 + PI / 2))) in *. set (A := mmul (mtr M) (rot (sideframe t x z))) in *.
  assert (RM : rotation M) by apply arm2_rot_rotation. assert (RA : rotation A) by (apply rotation_mmul; [apply rotation_tr; auto|apply rot_xyz_rotation]).
  destruct (wrist_sound A qw RA H) as (q4 & q5 & q6 & -> & N & _).
  assert (N5 : sin q5 <> 0).
  { apply N. pose proof (rotation_col2 A RA) as U. assert (Z : m22 A = 0). { change (m22 A) with (vz (col2 A)). unfold A. rewrite col2_mmul. cbn [rot sideframe]. rewrite tframe_col2. unfold M, arm2_rot, mtr, mapply. cbn [m00 m01 m02 m10 m11 m12 m20 m21 m22 vx vy vz]. rewrite S1. ring. }
    rewrite Z in U. lra. }
  assert (I : exists s, snd (kuka_ik bare (sideframe t x z)) = Ok (IkOk s) /\ In ([q1; q2; q3 + PI / 2] ++ [q4; q5; q6]) (read (k_wrist bare) s)).
  { destruct (kuka_ik_spec 0.18 0.6 0.62 0.115 default_ne bare (sideframe t x z) (new_kuka_ok _ _ _ _)) as (_ & _ & E). rewrite bare_unmount in E. destruct (ksols (sideframe t x z)) as [|s l] eqn:Es; [destruct H'|]. eexists. split; [exact E|exact H']. }
  destruct I as (s & Es & I). destruct (kuka_correct 0.18 0.6 0.62 0.115 default_ne bare _ s _ _ (new_kuka_ok _ _ _ _) (proj1 bare_solid) (solid_tool _ bare_solid) (sideframe_rigid t x z) Es I) as (p1 & p2 & p3 & p4 & p5 & p6 & F & Ep & EF & R1 & _).
  cbn [app] in Ep. injection Ep as <- <- <- <- <- <-. rewrite EF. f_equal. apply R1; auto. rewrite cos_plus, cos_PI2, sin_PI2. lra.
Qed.

(** ** Draws near an orientation: two generators *)
(** every draw is a nonzero quaternion and turns by at most the distance asked for *)
Definition draws_near (near : nat -> mat3 -> R -> nat -> quat) : Prop :=
  forall j A d i, rotation A -> qnorm2 (near j A d i) <> 0 /\ 1 + 2 * cos d <= trace3 (mmul (mtr A) (qrot (near j A d i))).
(** turn about the axis of the tool in every second call *)
Definition spin (j : nat) (A : mat3) (d : R) (i : nat) : quat := quat_of_matrix (mmul A (rot_z (if Nat.even j then 0 else d))).
(** turn about the vertical *)
Definition swing (j : nat) (A : mat3) (d : R) (i : nat) : quat := quat_of_matrix (mmul (rot_z (- d)) A).
Lemma trace_rot_z a : trace3 (rot_z a) = 1 + 2 * cos a.
Proof. unfold ExamplesProofs.trace3, rot_z. cbn [m00 m11 m22]. ring. Qed.
Lemma trace_swap A B : trace3 (mmul A B) = trace3 (mmul B A).
Proof. unfold ExamplesProofs.trace3, mmul. cbn [m00 m01 m02 m10 m11 m12 m20 m21 m22]. ring. Qed.
Lemma spin_rot j A d i : rotation A -> qnorm2 (spin j A d i) = 1 /\ qrot (spin j A d i) = mmul A (rot_z (if Nat.even j then 0 else d)).
Proof. intros H. apply IoProofs.quat_of_matrix_rot, rotation_mmul; auto. apply rot_z_rotation. Qed.
Lemma swing_rot j A d i : rotation A -> qnorm2 (swing j A d i) = 1 /\ qrot (swing j A d i) = mmul (rot_z (- d)) A.
Proof. intros H. apply IoProofs.quat_of_matrix_rot, rotation_mmul; auto. apply rot_z_rotation. Qed.
Lemma spin_near : draws_near spin.
Proof.
  intros j A d i H. destruct (spin_rot j A d i H) as [E1 E2]. rewrite E1, E2. split; [lra|]. rewrite <- mmul_assoc, (rot_orth A H), mmul_1_l, trace_rot_z.
  destruct (Nat.even j); [rewrite cos_0; pose proof (COS_bound d); lra|lra].
Qed.
Lemma swing_near : draws_near swing.
Proof.
  intros j A d i H. destruct (swing_rot j A d i H) as [E1 E2]. rewrite E1, E2. split; [lra|]. rewrite trace_swap, mmul_assoc, (rotation_inv_r A H), mmul_1_r, trace_rot_z, cos_neg. lra.
Qed.
Lemma ori_one near x y z A : ori_samples near [x; y; z] 1 = Ok [A] <-> A = M4 (qrot (near 0%nat)) (V3 x y z) v0 1.
Proof. unfold ori_samples, qtransform. cbn [seq mapM]. cbn. split; [intros H; injection H as <-; reflexivity|intros ->; reflexivity]. Qed.

(** ** More iterations can cost more *)
Lemma bent_near : bent_at 0.78 (-0.62).
Proof.
  assert (G : forall l, l = 0.78 \/ l = Ropp 0.78 -> Rabs (elbow_cos 0.6 0.62 (l - 0.18) (-0.62)) <= 1 - tol).
  { intros l [->| ->]; unfold elbow_cos, tol; apply Rabs_le; lra. }
  intros l H. left. auto.
Qed.
Lemma rot_z_apart A a : rotation A -> 0 < a < PI -> mmul A (rot_z a) <> A.
Proof.
  intros H Ha E. assert (E1 : rot_z a = mid) by (apply (f_equal (mmul (mtr A))) in E; rewrite <- mmul_assoc, (rot_orth A H), mmul_1_l in E; exact E).
  apply (f_equal m10) in E1. unfold rot_z in E1. cbn [m10 mid] in E1. pose proof (sin_gt_0 a). lra.
Qed.

Section Growth.
Context (prim : shape -> mat3 -> vec3 -> shape -> mat3 -> vec3 -> bool) (X : exact_prim prim) (pq : pqueue RCost R) (Hq : pq_ok pq) (Hm : pops_minimum pq).
Notation ik_ := (kikp 0.18 0.6 0.62 0.115 bare).
Notation cc_ := (fun q (s : nat) => (scc (hit prim (k_rob bare)) (Some nothing) q, s)).
Notation fk_ := (fun q => snd (fk (k_rob bare) q)).
Notation cost_ := (walk_cost (K := RCost) (jcost (K := RCost) rsq (eff_weights 1 6 None))).
Lemma start tp sps path : mapM (solution_point (F := R) cur_class (PI / 4)) (map CurPt path) = Ok sps -> (exists x r, tp = PFree x r) ->
  mapM (solution_point (F := R) cur_class (PI / 4)) (map CurPt (tp :: path)) = Ok (mkSP (CurPt tp) CFree None (PI / 4) :: sps).
Proof. intros E (x & r & ->). cbn [map mapM]. rewrite E. reflexivity. Qed.
Lemma loop_step samples iters sps num j Ts j' costs paths nt last : iter_columns (fun x : R => x) ik_ cc_ samples true sps num j = Ok (arrays F32 6 (map (fun T => ksols T) Ts), j') -> Ts <> [] -> Forall (fun T => ksols T <> []) Ts ->
  exists js p, picks (map (fun T => ksols T) Ts) js p /\ (forall js' p', picks (map (fun T => ksols T) Ts) js' p' -> cle (cost_ p) (cost_ p')) /\
  forall sps', resample_all fk_ at_frame half p sps = Ok sps' ->
  iter_loop 1 (K := RCost) rsq pq (fun x : R => x) ik_ cc_ samples fk_ at_frame half (S iters) true sps num j costs paths nt last =
  iter_loop 1 (K := RCost) rsq pq (fun x : R => x) ik_ cc_ samples fk_ at_frame half iters true sps' num j' (costs ++ [cost_ p]) (paths ++ [p]) (nt + 1) (Some (p, cost_ p)).
Proof.
  intros E N F. destruct (gsp_min (map (fun T => ksols T) Ts) pq) as (js & p & G & P & M); auto.
  { unfold uniform. apply Forall_map, Forall_forall. intros T _. apply kuka_sols_length. }
  { destruct Ts; [congruence|discriminate]. }
  { apply Forall_map. exact F. }
  exists js, p. split; auto. split; auto. intros sps' Er. cbn [iter_loop]. rewrite E. cbn [bind].
  replace (forallb _ (arrays F32 6 (map (fun T => ksols T) Ts))) with true. 2:{ symmetry. apply forallb_forall. intros e He. unfold arrays in He. rewrite map_map in He. apply in_map_iff in He. destruct He as (T & <- & I). rewrite Forall_forall in F. specialize (F T I). cbn [qlen]. destruct (ksols T); [congruence|reflexivity]. }
  rewrite G. cbn [bind]. rewrite Er. reflexivity.
Qed.
Lemma arm_wrist_some X' q1 q2 q3 : arm_wrist X' [q1; q2; q3] <> [].
Proof. cbn [arm_wrist]. unfold wrist_angles. cbv zeta. discriminate. Qed.
Lemma side_some t x z c : 0 < x -> elbow (elbow_cos 0.6 0.62 (x - 0.18) z) = Some c -> ksols (sideframe t x z) <> [].
Proof.
  intros Hx E H. unfold kuka_sols in H. rewrite side_centre in H. unfold arm_sols in H. rewrite lxy_pos in H by auto. cbn [vx vy vz] in H. unfold branch at 1 in H. rewrite E in H. cbn [app flat_map] in H.
  apply app_eq_nil in H. destruct H as [H _]. apply arm_wrist_some in H. exact H.
Qed.
(** ** The two tasks *)
Lemma some_near : elbow (elbow_cos 0.6 0.62 (0.78 - 0.18) (-0.62)) = Some 0.
Proof. replace (elbow_cos _ _ _ _) with 0 by (unfold elbow_cos; lra). unfold elbow, tol. repeat destruct Rlt_dec; try lra; auto. Qed.
Lemma spin_samples ypr fuel j d : cur_samples ypr fuel (Some spin) (at_frame (sideframe 0 0.78 (-0.62))) 1 d j = Ok [sideframe (if Nat.even j then 0 else d) 0.78 (-0.62)].
Proof.
  unfold at_frame. cbn [cur_samples sideframe pos rot vx vy vz]. apply ori_one. destruct (spin_rot j (rot (tframe 0)) d 0) as [_ E]; [apply rot_xyz_rotation|]. rewrite E, <- tframe_more. unfold sideframe. do 2 f_equal. f_equal. lra.
Qed.
Lemma growth r ypr fuel : (forall x y z, pt_samples ypr fuel 1 (PFree [x; y; z] [r]) = Ok [M4 (rot (tframe 0)) (V3 x y z) v0 1]) ->
  exists p1 p2 c, 0 < c /\ snd (kuka_it_plan prim (fun x => x) (K := RCost) rsq pq (cur_samples ypr fuel (Some spin)) (Some nothing) [PFree [0.78; -0.115; -0.62] [r]; PFree [0.78; -0.115; -0.62] [r]] 1 2 bare) =
    Ok (@ItOk RCost R p2 (Some c) [Some 0; Some c] [p1; p2] 2).
Proof.
  intros Hr. rewrite (kuka_it_eq prim (fun x => x) 0.18 0.6 0.62 0.115 default_ne bare (new_kuka_ok _ _ _ _)). unfold cart_to_joint_iterative. set (tp := PFree [0.78; -0.115; -0.62] [r]).
  rewrite (start tp _ [tp] (start tp _ [] eq_refl (ex_intro _ _ (ex_intro _ _ eq_refl))) (ex_intro _ _ (ex_intro _ _ eq_refl))). cbn [bind].
  set (T0 := sideframe 0 0.78 (-0.62)). assert (S0 : cur_samples ypr fuel (Some spin) (CurPt tp) 1 (PI / 4) 0 = Ok [T0]) by apply Hr. assert (S1 : cur_samples ypr fuel (Some spin) (CurPt tp) 1 (PI / 4) 1 = Ok [T0]) by apply Hr.
  assert (P0 : 0 < 0.78) by lra. assert (N : forall t, ksols (sideframe t 0.78 (-0.62)) <> []) by (intros t; apply (side_some t _ _ 0); [lra|apply some_near]).
  assert (FK : forall t q, In q (ksols (sideframe t 0.78 (-0.62))) -> snd (fk (k_rob bare) q) = Ok (sideframe t 0.78 (-0.62))) by (intros t q; apply side_fk; [lra|apply bent_near]).
  destruct (loop_step (near_state (cur_samples ypr fuel (Some spin))) 1 [mkSP (CurPt tp) CFree None (PI / 4); mkSP (CurPt tp) CFree None (PI / 4)] 1 0 [T0; T0] 2 [] [] 0 None) as (js & p & P & M & E).
  { change (arrays F32 6 (map (fun T => ksols T) [T0; T0])) with [QArr F32 6 (ksols T0); QArr F32 6 (ksols T0)]. apply (cols_step prim X); [exact S0|apply N|]. apply (cols_step prim X); [exact S1|apply N|reflexivity]. }
  { discriminate. }
  { repeat constructor; apply N. }
  destruct js as [|j1 [|j2 [|? ?]]], p as [|x [|y [|? ?]]]; cbn [picks map] in P; try (destruct P as (? & ? & []); fail); try (destruct P as (? & []); fail); try (destruct P; fail). destruct P as (Ix & Iy & _).
  assert (Ix' := nth_error_In _ _ Ix). assert (Iy' := nth_error_In _ _ Iy).
  assert (C0 : walk_cost (K := RCost) (jcost (K := RCost) rsq (eff_weights 1 6 None)) [x; y] = Some 0).
  { assert (L : cle (walk_cost (K := RCost) (jcost (K := RCost) rsq (eff_weights 1 6 None)) [x; y]) (walk_cost (K := RCost) (jcost (K := RCost) rsq (eff_weights 1 6 None)) [x; x])) by (apply (M [j1; j1]); cbn; auto).
    cbn [walk_cost] in *. change (@czero RCost) with (Some 0) in *. change (eff_weights 1 6 None) with ones in *. rewrite !wc_spec in *. cbn [wc] in *.
    assert (W : Forall (fun x => x = 1) ones) by (repeat constructor). pose proof (rc_ones_nonneg ones x y W). assert (Z : rc ones x x = 0). { clear. unfold ones. destruct x as [|a [|b [|c [|d [|e [|f l]]]]]]; cbn [rc]; try lra. all: ring. }
    rewrite Z in L. unfold cle in L. change (rltb (0 + (0 + 0)) (0 + (rc ones x y + 0)) = false) in L. apply rltb_false in L. f_equal. lra. }
  assert (Rs : resample_all (fun q => snd (fk (k_rob bare) q)) at_frame half [x; y] [mkSP (CurPt tp) CFree None (PI / 4); mkSP (CurPt tp) CFree None (PI / 4)] =
    Ok [mkSP (at_frame T0) CFree (Some x) (half (PI / 4)); mkSP (at_frame T0) CFree (Some y) (half (PI / 4))]).
  { cbn [resample_all resample sp_class sp_dist]. unfold resample. cbn [sp_class sp_dist]. rewrite (FK 0 x Ix'), (FK 0 y Iy'). reflexivity. }
  cbn [has]. rewrite (E _ Rs). clear E M. set (d := half (PI / 4)) in *. set (T1 := sideframe d 0.78 (-0.62)).
  destruct (loop_step (near_state (cur_samples ypr fuel (Some spin))) 0 [mkSP (at_frame T0) CFree (Some x) d; mkSP (at_frame T0) CFree (Some y) d] 1 2 [T0; T1] 4
    ([] ++ [walk_cost (K := RCost) (jcost (K := RCost) rsq (eff_weights 1 6 None)) [x; y]]) ([] ++ [[x; y]]) (0 + 1) (Some ([x; y], walk_cost (K := RCost) (jcost (K := RCost) rsq (eff_weights 1 6 None)) [x; y]))) as (js' & p' & P & _ & E).
  { change (arrays F32 6 (map (fun T => ksols T) [T0; T1])) with [QArr F32 6 (ksols T0); QArr F32 6 (ksols T1)]. apply (cols_step prim X); [exact (spin_samples ypr fuel 2 d)|apply N|]. apply (cols_step prim X); [exact (spin_samples ypr fuel 3 d)|apply N|reflexivity]. }
  { discriminate. }
  { repeat constructor; apply N. }
  destruct js' as [|i1 [|i2 [|? ?]]], p' as [|u [|v [|? ?]]]; cbn [picks map] in P; try (destruct P as (? & ? & []); fail); try (destruct P as (? & []); fail); try (destruct P; fail). destruct P as (Iu & Iv & _).
  apply nth_error_In in Iu, Iv. pose proof (FK 0 u Iu) as Fu. pose proof (FK d v Iv) as Fv.
  assert (Rs' : resample_all (fun q => snd (fk (k_rob bare) q)) at_frame half [u; v] [mkSP (at_frame T0) CFree (Some x) d; mkSP (at_frame T0) CFree (Some y) d] =
    Ok [mkSP (at_frame T0) CFree (Some u) (half d); mkSP (at_frame T1) CFree (Some v) (half d)]).
  { cbn [resample_all]. unfold resample. cbn [sp_class sp_dist]. rewrite Fu, Fv. reflexivity. }
  rewrite (E _ Rs'). cbn [iter_loop drop app]. rewrite C0. clear E. exists [x; y], [u; v], (rc ones u v). split.
  - assert (W : Forall (fun x => x = 1) ones) by (repeat constructor). pose proof (rc_ones_nonneg ones u v W) as G. destruct G as [G|G]; auto. exfalso.
    pose proof (kuka_sols_length 0.18 0.6 0.62 0.115 T0) as L0. pose proof (kuka_sols_length 0.18 0.6 0.62 0.115 T1) as L1. rewrite Forall_forall in L0, L1.
    assert (u = v) by (apply (rc_zero ones); auto). subst v. rewrite Fu in Fv.
    apply (f_equal (fun r => match r with Ok T => rot T | _ => mid end)) in Fv. unfold sideframe in Fv. cbn [rot] in Fv. replace d with (0 + d) in Fv by lra. rewrite tframe_more in Fv. symmetry in Fv. apply rot_z_apart in Fv; auto; [apply rot_xyz_rotation|]. unfold d, half. pose proof PI_RGT_0. lra.
  - cbn [walk_cost]. change (@czero RCost) with (Some 0). change (eff_weights 1 6 None) with ones. rewrite !wc_spec. cbn [wc]. rewrite !Rplus_0_r, ?Rplus_0_l. reflexivity.
Qed.
(** ** Success can be lost *)
Lemma bent_far : bent_at 1.3752 (-0.1736).
Proof.
  assert (A1 : elbow_cos 0.6 0.62 (1.3752 - 0.18) (-0.1736) = 0.96) by (unfold elbow_cos; lra).
  assert (A2 : forall l, l = Ropp 1.3752 -> 2 <= elbow_cos 0.6 0.62 (l - 0.18) (-0.1736)) by (intros l ->; unfold elbow_cos; lra).
  intros l [->|E]; [left; rewrite A1; unfold tol; rewrite Rabs_pos_eq; lra|]. right. specialize (A2 l E). unfold tol. rewrite Rabs_pos_eq; lra.
Qed.
Lemma some_far : elbow (elbow_cos 0.6 0.62 (1.3752 - 0.18) (-0.1736)) = Some 0.96.
Proof. replace (elbow_cos _ _ _ _) with 0.96 by (unfold elbow_cos; lra). unfold elbow, tol. repeat destruct Rlt_dec; try lra; auto. Qed.
Lemma sin_PI8 : 0.3 <= sin (PI / 8).
Proof.
  pose proof PI_RGT_0 as HP. assert (H : cos (PI / 4) = 1 - 2 * sin (PI / 8) * sin (PI / 8)) by (replace (PI / 4) with (2 * (PI / 8)) by lra; apply cos_2a_sin). rewrite cos_PI4 in H.
  assert (B : 1.4 <= sqrt 2) by (replace 1.4 with (sqrt (1.4 * 1.4)) by (apply sqrt_square; lra); apply sqrt_le_1_alt; lra).
  assert (B' : 1 / sqrt 2 <= 1 / 1.4) by (apply Rmult_le_compat_l; [lra|]; apply Rinv_le_contravar; lra).
  assert (0 < sin (PI / 8)) by (apply sin_gt_0; lra). nra.
Qed.
Definition swung (d : R) : mat4 := M4 (mmul (rot_z (- d)) (rot (tframe 0))) (V3 1.3752 (-0.115) (-0.1736)) v0 1.
Lemma swung_centre d : centre 0.115 (swung d) = V3 (1.3752 + 0.115 * sin d) (-0.115 + 0.115 * cos d) (-0.1736).
Proof. unfold centre, swung. cbn [rot pos]. rewrite col2_mmul, tframe_col2. unfold rot_z, mapply, vsub, vscale. cbn [vx vy vz m00 m01 m02 m10 m11 m12 m20 m21 m22]. rewrite sin_neg, cos_neg. f_equal; lra. Qed.
Lemma beyond l c : 1.4 <= l -> forall r, r = l - 0.18 \/ r = - l - 0.18 -> elbow (elbow_cos 0.6 0.62 r (-0.1736)) = Some c -> False.
Proof.
  intros Hl r Hr E. assert (L : 1 + 1 / 10000 < elbow_cos 0.6 0.62 r (-0.1736)).
  { unfold elbow_cos. assert (1.4884 <= r ^ 2) by (destruct Hr; subst; nra). lra. }
  revert E. unfold elbow, tol. destruct Rlt_dec; [discriminate|lra].
Qed.
Lemma swung_out : ksols (swung (PI / 8)) = [].
Proof.
  pose proof sin_PI8 as H8. unfold kuka_sols. rewrite swung_centre. set (p := V3 _ _ _).
  assert (L : 1.4 <= lxy p). { unfold lxy, p. cbn [vx vy]. replace 1.4 with (sqrt (1.4 * 1.4)) by (apply sqrt_square; lra). apply sqrt_le_1_alt. pose proof (pow2_ge_0 (-0.115 + 0.115 * cos (PI / 8))). nra. }
  unfold arm_sols, branch. change (vz p) with (-0.1736).
  destruct (elbow (elbow_cos 0.6 0.62 (lxy p - 0.18) (-0.1736))) as [c|] eqn:E1; [destruct (beyond _ _ L _ (or_introl eq_refl) E1)|].
  destruct (elbow (elbow_cos 0.6 0.62 (- lxy p - 0.18) (-0.1736))) as [c|] eqn:E2; [destruct (beyond _ _ L _ (or_intror eq_refl) E2)|]. reflexivity.
Qed.
Lemma lost r ypr fuel : (forall x y z, pt_samples ypr fuel 1 (PFree [x; y; z] [r]) = Ok [M4 (rot (tframe 0)) (V3 x y z) v0 1]) ->
  let plan iters := snd (kuka_it_plan prim (fun x => x) (K := RCost) rsq pq (cur_samples ypr fuel (Some swing)) (Some nothing) [PFree [1.3752; -0.115; -0.1736] [r]] 1 iters bare) in
  (exists p c costs paths nt, plan 1%nat = Ok (@ItOk RCost R p c costs paths nt)) /\ forall iters, plan (S (S iters)) = Ok ItFail.
Proof.
  intros Hr plan. unfold plan. clear plan. set (tp := PFree [1.3752; -0.115; -0.1736] [r]).
  set (T0 := sideframe 0 1.3752 (-0.1736)). assert (S0 : cur_samples ypr fuel (Some swing) (CurPt tp) 1 (PI / 4) 0 = Ok [T0]) by apply Hr.
  assert (N : ksols T0 <> []) by (apply (side_some 0 _ _ 0.96); [lra|apply some_far]).
  assert (FK : forall q, In q (ksols T0) -> snd (fk (k_rob bare) q) = Ok T0) by (intros q; apply side_fk; [lra|apply bent_far]).
  assert (G : forall iters, exists p, snd (kuka_it_plan prim (fun x => x) (K := RCost) rsq pq (cur_samples ypr fuel (Some swing)) (Some nothing) [tp] 1 (S iters) bare) =
    drop (iter_loop 1 (K := RCost) rsq pq (fun x : R => x) (kikp 0.18 0.6 0.62 0.115 bare) (fun q (s : nat) => (scc (hit prim (k_rob bare)) (Some nothing) q, s)) (near_state (cur_samples ypr fuel (Some swing))) (fun q => snd (fk (k_rob bare) q)) at_frame half iters true
      [mkSP (at_frame T0) CFree (Some (nth 0 p [])) (half (PI / 4))] 1 1%nat [walk_cost (K := RCost) (jcost (K := RCost) rsq (eff_weights 1 6 None)) p] [p] 1 (Some (p, walk_cost (K := RCost) (jcost (K := RCost) rsq (eff_weights 1 6 None)) p)))).
  { intros iters. rewrite (kuka_it_eq prim (fun x => x) 0.18 0.6 0.62 0.115 default_ne bare (new_kuka_ok _ _ _ _)). unfold cart_to_joint_iterative.
    rewrite (start tp _ [] eq_refl (ex_intro _ _ (ex_intro _ _ eq_refl))). cbn [bind].
    destruct (loop_step (near_state (cur_samples ypr fuel (Some swing))) iters [mkSP (CurPt tp) CFree None (PI / 4)] 1 0 [T0] 1 [] [] 0 None) as (js & p & P & _ & E).
    { change (arrays F32 6 (map (fun T => ksols T) [T0])) with [QArr F32 6 (ksols T0)]. apply (cols_step prim X); [exact S0|apply N|reflexivity]. }
    { discriminate. }
    { repeat constructor; apply N. }
    destruct js as [|j1 [|? ?]], p as [|x [|? ?]]; cbn [picks map] in P; try (destruct P as (? & []); fail); try (destruct P; fail). destruct P as (Ix & _). apply nth_error_In in Ix.
    exists [x]. cbn [has nth]. rewrite (E [mkSP (at_frame T0) CFree (Some x) (half (PI / 4))]); [reflexivity|]. cbn [resample_all]. unfold resample. cbn [sp_class sp_dist]. rewrite (FK x Ix). reflexivity. }
  split.
  - destruct (G 0%nat) as (p & E). rewrite E. cbn [iter_loop]. do 5 eexists. reflexivity.
  - intros iters. destruct (G (S iters)) as (p & E). rewrite E. clear E G. cbn [iter_loop].
    assert (S1 : cur_samples ypr fuel (Some swing) (at_frame T0) 1 (half (PI / 4)) 1 = Ok [swung (PI / 8)]).
    { unfold at_frame. cbn [cur_samples T0 sideframe pos rot vx vy vz]. apply ori_one. destruct (swing_rot 1 (rot (tframe 0)) (half (PI / 4)) 0) as [_ Es]; [apply rot_xyz_rotation|]. unfold sideframe. cbn [rot]. rewrite Es. unfold swung, half. do 4 f_equal. lra. }
    rewrite (cols_step_nil prim X (cur_samples ypr fuel (Some swing)) (mkSP (at_frame T0) CFree (Some (nth 0 p [])) (half (PI / 4))) [] 1 1 (swung (PI / 8)) [] 2 S1 swung_out eq_refl). reflexivity.
Qed.
End Growth.

(** ** The incremental planner never ends although a sample is reachable *)
Definition slack3 : eulerpt := EulerPt [Tol (TN (-9.105) 10.895 0.895 3); Fix 0; Fix (-0.62)] [Fix 0; Fix (PI / 2); Fix PI] [0.895; 0; -0.62; 0; PI / 2; PI].
Lemma slack3_new : exists p, new_eulerpt [Tol (TN (-9.105) 10.895 0.895 3); Fix 0; Fix (-0.62)] [Fix 0; Fix (PI / 2); Fix PI] = Ok p /\ p = slack3.
Proof. eexists. split; [reflexivity|]. unfold slack3. reflexivity. Qed.
Lemma slack3_ok n : pt_ok n (PEuler slack3) /\ gridded (PEuler slack3).
Proof. split; [|exact I]. split; [destruct slack3_new as (p & E & ->); eauto|]. cbn. repeat constructor; cbn; try lra; lia. Qed.
Lemma slack3_samples ypr fuel n : exists T2, pt_samples ypr fuel n (PEuler slack3) = Ok [frame6 (-9.105) 0 (-0.62) 0 (PI / 2) PI; frame6 0.895 0 (-0.62) 0 (PI / 2) PI; T2].
Proof.
  assert (H : exists e1 e2 e3, pt_samples ypr fuel n (PEuler slack3) = Ok [frame6 e1 0 (-0.62) 0 (PI / 2) PI; frame6 e2 0 (-0.62) 0 (PI / 2) PI; frame6 e3 0 (-0.62) 0 (PI / 2) PI] /\ e1 = -9.105 /\ e2 = 0.895).
  { eexists _, _, _. split; [reflexivity|]. cbn. split; lra. }
  destruct H as (e1 & e2 & e3 & -> & -> & ->). eauto.
Qed.
(** the second sample is reached, whole path planning uses it; the incremental planner only looks at the first *)
Lemma stuck_reachable : forall ypr fuel' n, reachable 0.18 0.6 0.62 bare nothing (pt_samples ypr fuel' n) (PEuler slack3).
Proof.
  intros ypr fuel' n. destruct (slack3_samples ypr fuel' n) as (T2 & E). destruct bent_serves as ((_ & _ & _ & _ & _ & _ & _ & _) & _). eexists _, (frame6 0.895 0 (-0.62) 0 (PI / 2) PI), 0, 0, 0, 0, (PI / 2), 0. split; [exact E|]. split; [right; left; auto|].
    split; [rewrite <- bent_form; apply kuka_fk|]. split; [apply sqrt_lt_R0; unfold kuka_centre; cbn [vx vy]; rewrite Rplus_0_l, sin_0, cos_0; lra|].
    rewrite sin_0, Rabs_R0, sin_PI2. unfold tol. split; [lra|]. split; [lra|]. apply bare_clear. reflexivity.
Qed.
Lemma stuck_first prim to32 : exact_prim prim -> forall ypr fuel' src mn mx, (0 < mn)%nat -> (0 < mx)%nat ->
  forall fuel, snd (kuka_inc_columns prim to32 fuel (inc_samples ypr fuel' src) nothing [PEuler slack3] mn mx bare 0%nat) = OutOfFuel.
Proof.
  intros X ypr fuel' src mn mx Hn Hx fuel. destruct (slack3_samples ypr fuel' 1) as (T2 & E). eapply (inc_never prim to32 0.18 0.6 0.62 0.115 default_ne bare (new_kuka_ok _ _ _ _)); [apply (slack3_ok 1)|exact E| |auto|auto].
    rewrite (bare_free prim _ X). apply far_sols. rewrite Rabs_left; lra.
Qed.

(** ** Rows in binary32 that stay away from the singularities *)
Lemma near_bent l : l = 0.78 \/ l = Ropp 0.78 -> Rabs (elbow_cos 0.6 0.62 (l - 0.18) (-0.62)) <= 0.8.
Proof. intros [->| ->]; unfold elbow_cos; apply Rabs_le; lra. Qed.
Lemma side_regular t q : In q (ksols (sideframe t 0.78 (-0.62))) -> Forall (fun x => Rabs x <= 3 * PI / 2) q -> regular (map f32 q).
Proof.
  intros H B. assert (P0 : 0 < 0.78) by lra. unfold kuka_sols in H. rewrite side_centre in H. apply in_flat_map in H. destruct H as (qa & Ha & H).
  destruct (side_arm _ _ qa P0 Ha) as (q1 & q2 & q3 & -> & S1).
  assert (N3 : 0.6 <= Rabs (sin q3)).
  { apply in_app_or in Ha. rewrite lxy_pos in Ha by auto. cbn [vx vy vz] in Ha.
    assert (G : forall a l, l = 0.78 \/ l = Ropp 0.78 -> In [q1; q2; q3] (branch 0.6 0.62 a (l - 0.18) (-0.62)) -> 0.6 <= Rabs (sin q3)).
    { intros a l Hl I. pose proof (near_bent l Hl) as Bd. unfold branch in I. destruct (elbow (elbow_cos 0.6 0.62 (l - 0.18) (-0.62))) as [c|] eqn:E; [|destruct I]. pose proof tol_pos as TP.
      destruct (elbow_angles _ _ E) as (_ & A2 & _ & A4 & A5). apply elbow_Some in E. destruct E as [[-> E]|(E1 & _)]; [|exfalso; unfold tol in E1; lra].
      assert (P : 0.6 <= sqrt (1 - elbow_cos 0.6 0.62 (l - 0.18) (-0.62) ^ 2)). { replace 0.6 with (sqrt (0.6 * 0.6)) at 1 by (apply sqrt_square; lra). apply sqrt_le_1_alt. apply Rabs_le_inv in Bd. nra. }
      cbv zeta in *. destruct I as [I|[I|[]]]; apply (f_equal (fun l => sin (nth 2 l 0))) in I; cbn [nth] in I; rewrite <- I, ?A2, ?A4, ?Rabs_Ropp, Rabs_pos_eq; lra. }
    destruct Ha as [I|I]; [apply (G _ 0.78 (or_introl eq_refl) I)|apply (G _ (Ropp 0.78) (or_intror eq_refl) I)]. }
  cbn [arm_wrist] in H. apply in_map_iff in H. destruct H as (qw & <- & H). set (M := arm2_rot q1 (q2 + (q3 + PI / 2))) in *. set (A := mmul (mtr M) (rot (sideframe t 0.78 (-0.62)))) in *.
  assert (RM : rotation M) by apply arm2_rot_rotation. assert (RA : rotation A) by (apply rotation_mmul; [apply rotation_tr; auto|apply rot_xyz_rotation]).
  destruct (wrist_sound A qw RA H) as (q4 & q5 & q6 & -> & N & W).
  assert (Z : m22 A = 0). { change (m22 A) with (vz (col2 A)). unfold A. rewrite col2_mmul. cbn [rot sideframe]. rewrite tframe_col2. unfold M, arm2_rot, mtr, mapply. cbn [m00 m01 m02 m10 m11 m12 m20 m21 m22 vx vy vz]. rewrite S1. ring. }
  assert (N5 : sin q5 <> 0) by (apply N; pose proof (rotation_col2 A RA) as U; rewrite Z in U; lra).
  assert (C5 : cos q5 = 0) by (destruct (zyz_entries q4 q5 q6) as (_ & _ & E & _); rewrite (W N5) in E; congruence).
  assert (A5 : 1 <= Rabs (sin q5)). { pose proof (sin2_cos2 q5) as E. unfold Rsqr in E. rewrite C5 in E. unfold Rabs. destruct Rcase_abs; nra. }
  cbn [app] in B. inversion B as [|? ? _ B1]; subst. inversion B1 as [|? ? _ B2]; subst. inversion B2 as [|? ? B3 B4]; subst. inversion B4 as [|? ? _ B5]; subst. inversion B5 as [|? ? B6 _]; subst. apply f32_error in B3. apply f32_error in B6.
  pose proof (FloatFkProofs.sin_lip (f32 q5) q5) as L5. pose proof (FloatFkProofs.cos_lip (f32 (q3 + PI / 2)) (q3 + PI / 2)) as L3.
  assert (C3 : Rabs (cos (q3 + PI / 2)) = Rabs (sin q3)) by (rewrite cos_plus, cos_PI2, sin_PI2; replace (cos q3 * 0 - sin q3 * 1) with (- sin q3) by ring; apply Rabs_Ropp).
  pose proof (Rabs_triang_inv (sin q5) (sin q5 - sin (f32 q5))) as T5. pose proof (Rabs_triang_inv (cos (q3 + PI / 2)) (cos (q3 + PI / 2) - cos (f32 (q3 + PI / 2)))) as T3.
  replace (sin q5 - (sin q5 - sin (f32 q5))) with (sin (f32 q5)) in T5 by ring. replace (cos (q3 + PI / 2) - (cos (q3 + PI / 2) - cos (f32 (q3 + PI / 2)))) with (cos (f32 (q3 + PI / 2))) in T3 by ring.
  rewrite (Rabs_minus_sym (sin q5)) in T5. rewrite (Rabs_minus_sym (cos (q3 + PI / 2))) in T3. unfold regular. cbn [app map nth]. unfold ulp_bound in *. lra.
Qed.
Lemma side_reachable r ypr fuel : (forall x y z, pt_samples ypr fuel 1 (PFree [x; y; z] [r]) = Ok [M4 (rot (tframe 0)) (V3 x y z) v0 1]) ->
  reachable 0.18 0.6 0.62 bare nothing (pt_samples ypr fuel 1) (PFree [0.78; -0.115; -0.62] [r]).
Proof.
  intros Hr. exists [tframe 0], (tframe 0), 0, 0, 0, (PI / 2), (PI / 2), 0. split; [apply Hr|]. split; [left; auto|].
  split; [rewrite <- turning_form; apply kuka_fk|]. split; [apply sqrt_lt_R0; unfold kuka_centre; cbn [vx vy]; rewrite Rplus_0_l, sin_0, cos_0; lra|].
  rewrite sin_0, Rabs_R0, sin_PI2. unfold tol. split; [lra|]. split; [lra|]. apply bare_clear. reflexivity.
Qed.
Lemma drift_example prim pq near r ypr fuel : exact_prim prim -> pq_ok pq -> (forall x y z, pt_samples ypr fuel 1 (PFree [x; y; z] [r]) = Ok [M4 (rot (tframe 0)) (V3 x y z) v0 1]) ->
  exists rows c, snd (kuka_it_plan prim f32 (K := RCost) rsq pq (cur_samples ypr fuel near) (Some nothing) [PFree [0.78; -0.115; -0.62] [r]] 1 1 bare) = Ok (@ItOk RCost R rows c [c] [rows] 1) /\ Forall regular rows.
Proof.
  intros X Hq Hr. set (tp := PFree [0.78; -0.115; -0.62] [r]). assert (Rch : Forall (reachable 0.18 0.6 0.62 bare nothing (pt_samples ypr fuel 1)) [tp]) by (constructor; [apply side_reachable; auto|constructor]).
  destruct (it_first prim f32 0.18 0.6 0.62 0.115 default_ne bare (new_kuka_ok _ _ _ _) ypr fuel near nothing [tp] 1 pq X bare_solid (Forall_nil _) ltac:(discriminate) (Forall_cons tp (I : is_free tp) (Forall_nil is_free)) Rch Hq) as (rows & c & E1 & E2).
  exists rows, c. split; auto.
  destruct (kuka_plan_complete_dijkstra prim f32 0.18 0.6 0.62 0.115 default_ne bare (new_kuka_ok _ _ _ _) nothing (pt_samples ypr fuel 1) [tp] None X bare_solid (Forall_nil _) ltac:(discriminate) Rch pq Hq) as (rows' & E & F).
  cbv zeta in E. rewrite E1 in E. injection E as <- _. inversion F as [|? row ? rows0 (q & (Ts & T & Et & It & Iq) & ->) F0]; subst. inversion F0; subst. constructor; [|constructor].
  unfold tp in Et. rewrite Hr in Et. injection Et as <-. destruct It as [<-|[]]. destruct (kuka_free_bounded 0.18 0.6 0.62 0.115 default_ne bare (new_kuka_ok _ _ _ _) prim nothing _ q Iq) as [B _]. rewrite (bare_free prim _ X) in Iq. apply (side_regular 0); auto.
Qed.

(** ** Summary of the counterexamples *)
Lemma turn_row : exists r, unit_row r /\ forall ypr fuel x y z, pt_samples ypr fuel 1 (PFree [x; y; z] [r]) = Ok [M4 (rot (tframe 0)) (V3 x y z) v0 1].
Proof. apply free_frame. apply rot_xyz_rotation. Qed.
Lemma row_ok r x y z : unit_row r -> pt_ok 1 (PFree [x; y; z] [r]).
Proof. intros H. cbn. repeat split; auto. Qed.
Lemma cost_can_grow : exists path near, Forall (pt_ok 1) path /\ draws_near near /\ forall prim pq ypr fuel, exact_prim prim -> pq_ok pq -> pops_minimum pq ->
  let plan iters := snd (kuka_it_plan prim (fun x => x) (K := RCost) rsq pq (cur_samples ypr fuel (Some near)) (Some nothing) path 1 iters bare) in
  exists p1 p2 c1 c2, plan 1%nat = Ok (@ItOk RCost R p1 (Some c1) [Some c1] [p1] 1) /\ plan 2%nat = Ok (@ItOk RCost R p2 (Some c2) [Some c1; Some c2] [p1; p2] 2) /\ c1 < c2.
Proof.
  destruct turn_row as (r & U & Hr). exists [PFree [0.78; -0.115; -0.62] [r]; PFree [0.78; -0.115; -0.62] [r]], spin. split; [repeat constructor; apply U|]. split; [apply spin_near|].
  intros prim pq ypr fuel X Hq Hm plan. destruct (growth prim X pq Hq Hm r ypr fuel (Hr ypr fuel)) as (p1 & p2 & c & Hc & E). destruct (it_prefix prim (fun x => x) 0.18 0.6 0.62 0.115 default_ne bare (new_kuka_ok _ _ _ _) _ _ _ _ _ _ _ _ _ _ _ _ E) as (p0 & c0 & costs0 & paths0 & nt0 & E0 & E1 & E2 & E3).
  change [Some 0; Some c] with ([Some 0] ++ [Some c]) in E1. apply app_inj_tail in E1. destruct E1 as [<- _]. change [p1; p2] with ([p1] ++ [p2]) in E2. apply app_inj_tail in E2. destruct E2 as [<- _].
  exists p1, p2, 0, c. split; [|split; [exact E|exact Hc]]. unfold plan. rewrite E0.
  assert (R1 := E0). rewrite (kuka_it_eq prim (fun x => x) 0.18 0.6 0.62 0.115 default_ne bare (new_kuka_ok _ _ _ _)) in R1. unfold drop in R1. destruct (cart_to_joint_iterative _ _ _ _ _ _ _ _ _ _ _ _ _ _ _ _ _) as [[r' j]| |] eqn:Ec; cbn [bind] in R1; try discriminate. injection R1 as ->.
  apply (iterative_success 1 rsq pq (fun x => x) _ _ _ _ _ _ _ _ (hit prim (k_rob bare) nothing)) in Ec; [|reflexivity]. destruct Ec as (_ & _ & H3 & (ps & H4) & (cs & H5) & _).
  change [p1] with ([] ++ [p1]) in H4. apply app_inj_tail in H4. destruct H4 as [_ <-]. change [Some 0] with ([] ++ [Some 0]) in H5. apply app_inj_tail in H5. destruct H5 as [_ <-]. cbn in H3. subst nt0. reflexivity.
Qed.
Lemma success_can_be_lost : exists path near, Forall (pt_ok 1) path /\ draws_near near /\ forall prim pq ypr fuel, exact_prim prim -> pq_ok pq -> pops_minimum pq ->
  let plan iters := snd (kuka_it_plan prim (fun x => x) (K := RCost) rsq pq (cur_samples ypr fuel (Some near)) (Some nothing) path 1 iters bare) in
  (exists p c costs paths nt, plan 1%nat = Ok (@ItOk RCost R p c costs paths nt)) /\ forall iters, plan (S (S iters)) = Ok ItFail.
Proof.
  destruct turn_row as (r & U & Hr). exists [PFree [1.3752; -0.115; -0.1736] [r]], swing. split; [repeat constructor; apply U|]. split; [apply swing_near|].
  intros prim pq ypr fuel X Hq Hm. apply (lost prim X pq Hq Hm r ypr fuel (Hr ypr fuel)).
Qed.
Lemma first_sample_only : exists tp, gridded tp /\ (forall n, pt_ok n tp) /\ forall ypr fuel' src,
  (forall n, reachable 0.18 0.6 0.62 bare nothing (pt_samples ypr fuel' n) tp) /\
  forall prim to32 mn mx, exact_prim prim -> (0 < mn)%nat -> (0 < mx)%nat -> forall fuel, snd (kuka_inc_columns prim to32 fuel (inc_samples ypr fuel' src) nothing [tp] mn mx bare 0%nat) = OutOfFuel.
Proof.
  exists (PEuler slack3). split; [apply (slack3_ok 1)|]. split; [intros n; apply (slack3_ok n)|]. intros ypr fuel' src. split.
  - intros n. apply stuck_reachable.
  - intros prim to32 mn mx X Hn Hx. apply (stuck_first prim to32 X ypr fuel' src mn mx Hn Hx).
Qed.
