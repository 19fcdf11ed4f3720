(** * How iterative_grid_refining.py ends, and the table of tool_first_cc.py. *)
From Coq Require Import String Reals Lra Lia Psatz List Bool Arith ZArith.
From Verif Require Import Extents PyBase Cost SpecPath GraphCommon CppGraph CppGraphProofs CppSearch CppHeap CppMain CppFinal CppExamples Mat Util UtilProofs HaltonProofs Geometry GeometryProofs Robot RobotProofs RobotForms Ik IkProofs KukaProofs RailProofs Path PathProofs Planning PlanningProofs PlanningCart Resources ResourcesProofs TaskProofs Pipeline PipelineProofs PipelineExamples Motion MotionKuka LocalIk Margin GridCover Resolution Turn Uniform UniformHalton Iterative IterativeProofs IterativeExamples OptScriptProofs PyGraph PyGraphProofs PyGraphMain PyCost PyCostProofs Io Tasks TasksProofs Gui GuiProofs TorchProofs IncAgain Scripts ScriptsPose ScriptsProofs ScriptsRuns.
Import ListNotations.
Local Open Scope R_scope.

(** ** The first round, also when a point has no candidate *)
Section Any.
Context (prim : shape -> mat3 -> vec3 -> shape -> mat3 -> vec3 -> bool) (to32 : R -> R) (a1 a2 d4 d6 : R) (Hne : a2 * d4 <> 0).
Context (k0 : kuka) (K0 : kuka_ok a1 a2 d4 d6 k0).
Notation rob := (k_rob k0).
Lemma columns_any scene ypr fuel near num : forall path D j, mapM (pt_samples ypr fuel num) path = Ok D ->
  exists Q j', iter_columns to32 (kikp a1 a2 d4 d6 k0) (fun q (s : nat) => (scc (hit prim rob) (Some scene) q, s)) (near_state (cur_samples ypr fuel near)) true (map (fun tp => mkSP (CurPt tp) CFree None (PI / 4)) path) num j =
    Ok (Q, j') /\ Forall2 (fun Ts e => qlen e = 0%nat <-> flat_map (kuka_free prim k0 scene) Ts = []) D Q.
Proof.
  induction path as [|tp path IH]; intros D j E; cbn [mapM map iter_columns] in *; [injection E as <-; do 2 eexists; split; [reflexivity|constructor]|].
  destruct (pt_samples ypr fuel num tp) as [Ts| |] eqn:Et; cbn [bind] in E; try discriminate. destruct (mapM (pt_samples ypr fuel num) path) as [D'| |]; cbn [bind] in E; try discriminate. injection E as <-.
  unfold near_state at 1. cbn [sp_cur sp_dist cur_samples]. rewrite Et. cbn [bind]. unfold calc_joint_solutions. rewrite collect_pure. cbn [app].
  change (flat_map (fun t => free (scc (hit prim rob) (Some scene)) (kikp a1 a2 d4 d6 k0 t)) Ts) with (flat_map (fun t => free (hit prim rob scene) (kikp a1 a2 d4 d6 k0 t)) Ts).
  rewrite (flat_map_ext _ _ (free_kuka prim a1 a2 d4 d6 Hne k0 K0 scene)). pose proof (kuka_free_length prim a1 a2 d4 d6 Hne k0 K0 scene Ts) as L.
  destruct (IH D' (S j) eq_refl) as (Q & j' & E' & F). destruct (flat_map (kuka_free prim k0 scene) Ts) as [|q l] eqn:El.
  - cbn [bind]. rewrite E'. cbn [bind]. do 2 eexists. split; [reflexivity|]. constructor; auto. rewrite El. split; auto.
  - replace (forallb (fun q' => (length q' =? length q)%nat) (q :: l)) with true. 2:{ symmetry. apply forallb_forall. intros y Hy. rewrite Forall_forall in L. rewrite (L y Hy), (L q (or_introl eq_refl)). reflexivity. }
    cbn [bind]. rewrite E'. cbn [bind]. do 2 eexists. split; [reflexivity|]. constructor; auto. rewrite El. split; discriminate.
Qed.
Lemma it_lost ypr fuel near scene path num m (pq : pqueue RCost R) : Forall is_free path -> Forall (pt_ok num) path -> Exists (fun tp => forall q, ~ candidate prim k0 scene (pt_samples ypr fuel num) tp q) path ->
  snd (kuka_it_plan prim to32 (K := RCost) rsq pq (cur_samples ypr fuel near) (Some scene) path num (S m) k0) = Ok ItFail.
Proof.
  intros Hf P X. assert (ED : exists D, mapM (pt_samples ypr fuel num) path = Ok D). { apply GuiProofs.mapM_total. eapply Forall_impl; [|exact P]. intros tp Htp. destruct (pt_allowed ypr fuel num tp Htp) as (Ts & E & _). eauto. }
  destruct ED as (D & ED). destruct (columns_any scene ypr fuel near num path D 0 ED) as (Q & j' & Ec & F).
  rewrite (kuka_it_eq prim to32 a1 a2 d4 d6 Hne k0 K0). unfold cart_to_joint_iterative. rewrite (first_points to32 a1 path Hf). cbn [bind iter_loop has]. rewrite Ec. cbn [bind].
  replace (forallb _ Q) with false; [reflexivity|]. symmetry. apply mapM_Ok_Forall2 in ED. clear - ED F X. revert Q F X. induction ED as [|tp Ts path D E _ IH]; intros Q F X; inversion F as [|? e ? Q' H1 H2]; subst; [inversion X|]. cbn [forallb]. apply andb_false_iff.
  inversion X as [? ? N|? ? N]; subst; [left|right; auto]. assert (Z : flat_map (kuka_free prim k0 scene) Ts = []).
  { destruct (flat_map (kuka_free prim k0 scene) Ts) as [|q l] eqn:El; auto. exfalso. assert (I : In q (flat_map (kuka_free prim k0 scene) Ts)) by (rewrite El; left; auto). apply in_flat_map in I. destruct I as (T & I1 & I2). apply (N q). exists Ts, T. auto. }
  apply H1 in Z. rewrite Z. reflexivity.
Qed.
Lemma it_found ypr fuel near scene path num (pq : pqueue RCost R) : path <> [] -> Forall is_free path -> Forall (pt_ok num) path -> Forall (fun tp => exists q, candidate prim k0 scene (pt_samples ypr fuel num) tp q) path -> pq_ok pq ->
  exists rows c, snd (kuka_it_plan prim to32 (K := RCost) rsq pq (cur_samples ypr fuel near) (Some scene) path num 1 k0) = Ok (@ItOk RCost R rows c [c] [rows] 1).
Proof.
  intros Hp Hf P Hc Hq. destruct (kuka_plan_dijkstra prim to32 a1 a2 d4 d6 Hne k0 K0 scene (pt_samples ypr fuel num) path None Hp Hc pq Hq) as (rows & E & F). cbv zeta in E. eexists rows, _.
  rewrite (kuka_plan_eq prim to32 a1 a2 d4 d6 Hne k0 K0) in E. destruct (mapM (pt_samples ypr fuel num) path) as [D| |] eqn:Em; cbn [bind] in E; try discriminate.
  assert (N : Forall (fun Ts => flat_map (kuka_free prim k0 scene) Ts <> []) D).
  { apply mapM_Ok_Forall2 in Em. clear - Em Hc. revert Hc. induction Em as [|tp Ts path D Et _ IH]; intros Hc; constructor; inversion Hc as [|? ? R1 R2]; subst; auto.
    destruct R1 as (q & Ts' & T & E1 & E2 & E3). rewrite Et in E1. injection E1 as <-. intros Z.
    assert (I : In q (flat_map (kuka_free prim k0 scene) Ts)) by (apply in_flat_map; eauto). rewrite Z in I. exact I. }
  rewrite (kuka_it_eq prim to32 a1 a2 d4 d6 Hne k0 K0). unfold cart_to_joint_iterative. rewrite (first_points to32 a1 path Hf). cbn [bind iter_loop has]. destruct (first_columns prim to32 a1 a2 d4 d6 Hne k0 K0 scene ypr fuel near num path D 0 Em N) as (j' & Ec). rewrite Ec. cbn [bind].
  replace (forallb _ (map (fun Ts => entry_of to32 (flat_map (kuka_free prim k0 scene) Ts)) D)) with true. 2:{ symmetry. apply forallb_forall. intros e I. apply in_map_iff in I. destruct I as (Ts & <- & I). rewrite Forall_forall in N. specialize (N Ts I). destruct (flat_map _ Ts); [congruence|reflexivity]. }
  rewrite E. cbn [bind]. destruct (first_resample a1 a2 d4 d6 k0 K0 rows path) as (sps & Es).
  - clear - F. induction F; cbn; auto.
  - clear - F K0 Hne. induction F as [|tp row path rows (q & (Ts & T & _ & _ & I) & ->) _ IH]; constructor; auto. rewrite map_length. pose proof (kuka_free_length prim a1 a2 d4 d6 Hne k0 K0 scene [T]) as L. rewrite Forall_forall in L. apply L. cbn [flat_map]. rewrite app_nil_r. exact I.
  - rewrite Es. reflexivity.
Qed.
End Any.
Lemma lost_or_found prim k scene samples path : Exists (fun tp => forall q, ~ candidate prim k scene samples tp q) path \/ Forall (fun tp => exists q, candidate prim k scene samples tp q) path.
Proof.
  induction path as [|tp path [IH|IH]]; [right; constructor|left; right; exact IH|]. destruct (Classical_Prop.classic (exists q, candidate prim k scene samples tp q)) as [H|H]; [right; constructor; auto|left; left]. intros q C. apply H. eauto.
Qed.

(** ** iterative_grid_refining.py *)
Lemma refine_lost prim to32 pq ypr fuel near draws : Forall (pt_ok 500) (free_line 15 draws) ->
  Exists (fun tp => forall q, ~ candidate prim kuka_object scene1 (pt_samples ypr fuel 500) tp q) (free_line 15 draws) -> refine_script prim to32 pq ypr fuel near draws = Raise KeyError.
Proof.
  intros P X. unfold refine_script. rewrite (it_lost prim to32 0.18 0.6 0.62 0.115 default_ne kuka_object kuka_object_ok ypr fuel near scene1 (free_line 15 draws) 500 4 pq (line_free 15 draws) P X). reflexivity.
Qed.
Lemma refine_ends prim to32 pq ypr fuel draws : pq_ok pq -> Forall (pt_ok 500) (free_line 15 draws) ->
  (Exists (fun tp => forall q, ~ candidate prim kuka_object scene1 (pt_samples ypr fuel 500) tp q) (free_line 15 draws) /\ refine_script prim to32 pq ypr fuel None draws = Raise KeyError) \/
  (Forall (fun tp => exists q, candidate prim kuka_object scene1 (pt_samples ypr fuel 500) tp q) (free_line 15 draws) /\ refine_script prim to32 pq ypr fuel None draws = Raise AttributeError).
Proof.
  intros Q P. destruct (lost_or_found prim kuka_object scene1 (pt_samples ypr fuel 500) (free_line 15 draws)) as [X|C]; [left|right]; split; auto; [apply refine_lost; auto|].
  assert (N : free_line 15 draws <> []) by (intros Z; apply (f_equal (@length _)) in Z; rewrite line_length in Z; discriminate).
  destruct (it_found prim to32 0.18 0.6 0.62 0.115 default_ne kuka_object kuka_object_ok ypr fuel None scene1 (free_line 15 draws) 500 pq N (line_free 15 draws) P C Q) as (rows & c & E).
  unfold refine_script. rewrite (published prim to32 0.18 0.6 0.62 0.115 default_ne kuka_object kuka_object_ok rsq pq ypr fuel (Some scene1) (free_line 15 draws) 500 rows c [c] [rows] 1 N) with (iters := 3%nat); [reflexivity| |exact E].
  apply Nat.leb_le. reflexivity.
Qed.

(** ** The table of tool_first_cc.py *)
Lemma floor_box x : in_coll floor None x <-> Rabs (vx x - 0.8) <= 0.25 /\ Rabs (vy x) <= 0.25 /\ Rabs (vz x) <= 0.05.
Proof.
  assert (U : upright (pose_x 0 0.8 0 0)) by (unfold upright, pose_x, mid; cbn [rot]; rewrite cos_0, sin_0, Ropp_0; reflexivity).
  pose proof (box_between (Shape 0.5 0.5 0.1) (pose_x 0 0.8 0 0) x U) as H.
  assert (G : in_coll floor None x <-> in_box (Shape 0.5 0.5 0.1) (pose_x 0 0.8 0 0) x).
  { unfold floor. split.
    - intros (s & T & ([|[|k]] & E1 & E2) & B); try discriminate E1. injection E1 as <-. injection E2 as <-. exact B.
    - intros B. do 2 eexists. split; [exists 0%nat; split; reflexivity|exact B]. }
  rewrite G, H. unfold between, lower, upper, pose_x. cbn [pos vx vy vz dx dy dz]. clear. split.
  - intros (B1 & B2 & B3). repeat split; apply Rabs_le; lra.
  - intros (B1 & B2 & B3). apply Rabs_le_inv in B1. apply Rabs_le_inv in B2. apply Rabs_le_inv in B3. lra.
Qed.

(** ** A check that sees contact everywhere *)
Lemma all_contact q : (6 <= length q)%nat -> hit (fun _ _ _ _ _ _ => true) (k_rob kuka_object) scene1 q = true.
Proof.
  intros L. unfold hit. assert (G : good (k_rob kuka_object)) by apply kukaG_good. assert (J : joints_ok (k_rob kuka_object)) by apply kuka_rigid.
  destruct (collision_correct (fun _ _ _ _ _ _ => true) (k_rob kuka_object) q scene1 G J ltac:(cbn; lia) ltac:(cbn; lia)) as (b & -> & H). apply H. right. left. exists 1%nat. eexists. split; [reflexivity|]. reflexivity.
Qed.
Lemma lost_example : let draws := fun _ : nat => repeat [0.5; 0.5; 0.5] 500 in Forall (pt_ok 500) (free_line 15 draws) /\
  forall ypr fuel, Exists (fun tp => forall q, ~ candidate (fun _ _ _ _ _ _ => true) kuka_object scene1 (pt_samples ypr fuel 500) tp q) (free_line 15 draws).
Proof.
  intros draws. split.
  - apply Forall_forall. intros tp It. destruct (In_nth_error _ _ It) as (i & Ei). destruct (line_point 15 draws i tp Ei) as (Li & y & B & Iy & ->). cbn [pt_ok]. unfold draws. split; [reflexivity|]. split; [rewrite repeat_length; apply le_n|].
    apply Forall_forall. intros r Ir. apply repeat_spec in Ir. subst r. exists 0.5, 0.5, 0.5. split; [reflexivity|lra].
  - intros ypr fuel. assert (L : length (free_line 15 draws) = 15%nat) by apply line_length. destruct (free_line 15 draws) as [|tp l]; [discriminate|]. left. intros q (Ts & T & _ & _ & I).
    pose proof (kuka_free_length (fun _ _ _ _ _ _ => true) 0.18 0.6 0.62 0.115 default_ne kuka_object kuka_object_ok scene1 [T]) as F. rewrite Forall_forall in F. cbn [flat_map] in F. rewrite app_nil_r in F. specialize (F q I).
    unfold kuka_free in I. destruct (snd (kuka_ik kuka_object T)) as [[|s]| |]; try destruct I. apply filter_In in I. destruct I as [_ I]. rewrite all_contact in I by lia. discriminate.
Qed.
