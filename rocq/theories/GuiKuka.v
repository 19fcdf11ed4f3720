(** * The task editor with the Kuka and the Kuka on a rail. *)
From Coq Require Import String List Arith Bool Lia Reals Lra ZArith.
From Verif Require Import PyBase Cost SpecPath GraphCommon CppGraph CppGraphProofs CppSearch CppHeap CppMain CppExamples Mat Util Geometry GeometryProofs Robot RobotProofs RobotForms Ik IkProofs KukaProofs RailProofs Path PathProofs Planning PlanningProofs PlanningCart Plot PlotProofs Io Pipeline PipelineProofs PipelineRail PipelineExamples Gui GuiProofs.
Import ListNotations.
Local Open Scope R_scope.

Section Names.
Context {O : Type} (get : O -> robot) (put : O -> robot -> O).
Context (ik6 : O -> mat4 -> O * res (option (list (list R)))) (ik7 : O -> mat4 -> R -> O * res (option (list (list R)))).
Context (prim : shape -> mat3 -> vec3 -> shape -> mat3 -> vec3 -> bool) (to32 : R -> R).
Context {K : CostStruct} (sq_acc : K -> R -> R -> R -> K) (pq : pqueue K R).
Context (ypr : quat -> vec3) (fuel : nat).
Context (scene_at : string -> res coll) (paths_at : string -> res (list (list ppt))).
Local Notation step_ := (step get put ik6 ik7 prim to32 sq_acc pq ypr fuel scene_at paths_at).
Definition names (e : editor O) : string * string * string := (e_wdir e, e_filename e, e_paths_filename e).
Lemma names_setup e : names (fst (plot_setup get put e)) = names e.
Proof. unfold plot_setup. destruct (robot_plot _ _). reflexivity. Qed.
Lemma step_names e v : match v with SubmitFileName _ | SubmitPathFileName _ => True | _ => names (fst (step_ e v)) = names e end.
Proof.
  destruct v as [name|name| | |draws|]; cbn [step]; auto.
  - unfold load_scene. destruct (scene_at _); auto. rewrite names_setup. reflexivity.
  - unfold load_paths. destruct (paths_at _) as [ps| |]; auto. destruct (py_index ps 0); auto. rewrite names_setup. reflexivity.
  - unfold plan. destruct (columns _ _ _ _ _ _ _ _ _ _ _) as [o [Q| |]]; auto. destruct (get_shortest_path _ _ _ _ _ _ _) as [[|]| |]; auto.
  - unfold show_path. destruct (e_solution e); auto. pose proof (names_setup e) as H. destruct (plot_setup get put e). exact H.
Qed.
Lemma load_paths_path e p ps : paths_at (full_name e (e_paths_filename e)) = Ok (p :: ps) ->
  e_path (fst (step_ e LoadPaths)) = p /\ e_paths (fst (step_ e LoadPaths)) = p :: ps /\ snd (step_ e LoadPaths) = snd (plot_setup get put (Ed (e_robot e) (e_scene e) (p :: ps) p (e_wdir e) (e_filename e) (e_paths_filename e) (e_logged e) (e_solution e))).
Proof. intros E. cbn [step]. unfold load_paths. rewrite E. cbn [py_index nth_error]. match goal with |- context [plot_setup get put ?x] => destruct (setup_fields get put x) as (_ & _ & C & D & _) end. auto. Qed.
Lemma load_scene_scene e sc : scene_at (full_name e (e_filename e)) = Ok sc ->
  e_scene (fst (step_ e LoadScene)) = Some sc /\ e_paths (fst (step_ e LoadScene)) = e_paths e /\ snd (step_ e LoadScene) = snd (plot_setup get put (Ed (e_robot e) (Some sc) (e_paths e) (e_path e) (e_wdir e) (e_filename e) (e_paths_filename e) (e_logged e) (e_solution e))).
Proof. intros E. cbn [step]. unfold load_scene. rewrite E. match goal with |- context [plot_setup get put ?x] => destruct (setup_fields get put x) as (_ & B & C & _) end. auto. Qed.
Lemma show_snd e rows : e_solution e = Some rows -> snd (step_ e ShowPath) = snd (plot_setup get put e).
Proof. intros E. cbn [step]. unfold show_path. rewrite E. destruct (plot_setup get put e) as [e' [[]| |]]; reflexivity. Qed.
Lemma run_scenes vs : forall e sc, e_scene (run get put ik6 ik7 prim to32 sq_acc pq ypr fuel scene_at paths_at e vs) = Some sc -> e_scene e = Some sc \/ exists name, scene_at name = Ok sc.
Proof.
  induction vs as [|v vs IH] using rev_ind; intros e sc H; auto. rewrite run_app in H. cbn [run fold_left] in H. set (e1 := run get put ik6 ik7 prim to32 sq_acc pq ypr fuel scene_at paths_at e vs) in *.
  destruct v as [name|name| | |draws|]; cbn [step] in H.
  - apply IH, H.
  - apply IH, H.
  - destruct (scene_cases get put scene_at e1) as (_ & _ & _ & [A|(sc' & A & B & _)]); [rewrite A in H; apply IH, H|]. rewrite B in H. injection H as ->. eauto.
  - destruct (paths_cases get put paths_at e1) as (A & _). rewrite A in H. apply IH, H.
  - destruct (plan_cases get put ik6 ik7 prim to32 sq_acc pq ypr fuel draws e1) as (_ & A & _). rewrite A in H. apply IH, H.
  - pose proof (show_cases get put e1) as A. destruct (show_path get put e1) as [e' r]. cbn in *. destruct A as (A & _). rewrite A in H. apply IH, H.
Qed.
End Names.

Section Kuka.
Context (prim : shape -> mat3 -> vec3 -> shape -> mat3 -> vec3 -> bool) (to32 : R -> R) (a1 a2 d4 d6 : R) (Hne : a2 * d4 <> 0).
Context (k0 : kuka) (K0 : kuka_ok a1 a2 d4 d6 k0).
Local Notation kinv_ := (kinv a1 a2 d4 d6 k0).
Lemma kput_inv k r : kinv_ k -> good r -> reset r = reset (k_rob k) -> kinv_ (kuka_put k r).
Proof. intros [K E] G R. split; [|cbn; congruence]. pose proof (ko_rob _ _ _ _ _ K) as L. destruct K as [_ A B C]. split; auto. cbn [k_rob kuka_put]. eapply reset_like; eauto. Qed.
Lemma kgood_inv k : kinv_ k -> good (k_rob k). Proof. intros [K _]. apply (ko_rob _ _ _ _ _ K). Qed.
Lemma kinv_columns samples scene path k : kinv_ k -> snd (kuka_columns prim to32 samples scene path k) = snd (kuka_columns prim to32 samples scene path k0).
Proof.
  intros I. pose proof (grid_columns_spec k_rob kuka_put prim to32 scene kinv_ 6 (hit prim (k_rob k0) scene) (kinv_coll prim a1 a2 d4 d6 k0 K0 scene) kuka_call (kikp a1 a2 d4 d6 k0) (kinv_ik a1 a2 d4 d6 Hne k0) (kikp_length a1 a2 d4 d6 k0) samples path) as S.
  unfold kuka_columns. rewrite (proj2 (S k I)). rewrite (proj2 (S k0 (conj K0 eq_refl))). reflexivity.
Qed.
Lemma kndof k : kinv_ k -> ndof (k_rob k) = 6%nat.
Proof. intros [K _]. rewrite (like_ndof _ _ (ko_rob _ _ _ _ _ K)). reflexivity. Qed.
Lemma kjoints k : kinv_ k -> joints_ok (k_rob k).
Proof. intros [K _]. eapply like_joints; [apply (ko_rob _ _ _ _ _ K)|apply Kuka_joints]. Qed.

Section Run.
Context {K : CostStruct} (sq_acc : K -> R -> R -> R -> K) (pq : pqueue K R) (ypr : quat -> vec3) (fuel : nat).
Context (scene_at : string -> res coll) (paths_at : string -> res (list (list ppt))).
Local Notation step_ := (kuka_step prim to32 sq_acc pq ypr fuel scene_at paths_at).
Local Notation run_ := (kuka_run prim to32 sq_acc pq ypr fuel scene_at paths_at).
Lemma krun_inv vs e : kinv_ (e_robot e) -> kinv_ (e_robot (run_ e vs)).
Proof.
  apply (inv_run k_rob kuka_put kuka_call (fun k _ _ => (k, Raise TypeError)) prim to32 sq_acc pq ypr fuel scene_at paths_at kinv_ kgood_inv kput_inv); auto.
  intros k T I. apply (kinv_ik a1 a2 d4 d6 Hne k0 k T I).
Qed.
Lemma kcolumns k sc path : kinv_ k -> columns k_rob kuka_put kuka_call (fun k _ _ => (k, Raise TypeError)) prim to32 ypr fuel k (Some sc) path = kuka_columns prim to32 (pt_samples ypr fuel 1000) sc path k.
Proof. intros I. unfold columns. rewrite (kndof k I). reflexivity. Qed.
Lemma kcomputed e draws rows : kinv_ (e_robot e) -> computed k_rob kuka_put kuka_call (fun k _ _ => (k, Raise TypeError)) prim to32 sq_acc pq ypr fuel e draws rows ->
  exists sc c, e_scene e = Some sc /\ snd (kuka_plan prim to32 sq_acc pq (pt_samples ypr fuel 1000) sc (as_path draws (e_path e)) "dijkstra" (Some ones7) k0) = Ok (GspOk rows c).
Proof.
  intros I C. pose proof (computed_scene _ _ _ _ _ _ _ _ _ _ _ _ _ C) as N. destruct C as (Q & c & E & G). destruct (e_scene e) as [sc|]; [|congruence]. exists sc, c. split; auto.
  rewrite (kcolumns _ _ _ I), (kinv_columns _ _ _ _ I) in E. unfold kuka_plan, grid_plan. fold (kuka_columns prim to32). destruct (kuka_columns prim to32 (pt_samples ypr fuel 1000) sc (as_path draws (e_path e)) k0) as [k' r]. cbn [snd] in *. subst r. exact G.
Qed.
Lemma kuka_shown wdir vs rows : exact_prim prim -> solid (k_rob k0) -> (forall name sc, scene_at name = Ok sc -> rigid_coll sc) ->
  e_solution (run_ (new_editor k0 wdir) vs) = Some rows ->
  exists before draws after scene, let e := run_ (new_editor k0 wdir) before in
    vs = before ++ Plan draws :: after /\ e_scene e = Some scene /\
    (forall us d ws, after = us ++ Plan d :: ws -> snd (step_ (run_ e (Plan draws :: us)) (Plan d)) <> Ok tt) /\
    (Forall (pt_ok 1000) (as_path draws (e_path e)) ->
     Forall2 (fun tp row => exists q T, row = map to32 q /\ allowed tp T /\ reaches a2 d4 (k_rob k0) q T /\ clear (k_rob k0) scene q) (as_path draws (e_path e)) rows) /\
    (Forall no_load after -> e_scene (run_ (new_editor k0 wdir) vs) = Some scene /\ e_path (run_ (new_editor k0 wdir) vs) = e_path e).
Proof.
  intros X S RG H. destruct (solution_origin _ _ _ _ _ _ _ _ _ _ _ _ (new_editor k0 wdir) vs rows eq_refl H) as (before & draws & after & E & P & C & N).
  pose proof (krun_inv before (new_editor k0 wdir) (conj K0 eq_refl)) as I. destruct (kcomputed _ _ _ I C) as (sc & c & Es & G). exists before, draws, after, sc. cbv zeta.
  split; auto. split; auto. split; [|split].
  - intros us d ws Eu. specialize (N us d ws Eu). rewrite run_app in N. exact N.
  - intros Hp. eapply kuka_plan_sound; eauto. apply run_scenes in Es. destruct Es as [Es|(name & Es)]; [discriminate|]. eapply RG; eauto.
  - intros Hl. subst vs. pose proof (run_keep k_rob kuka_put kuka_call (fun k _ _ => (k, Raise TypeError)) prim to32 sq_acc pq ypr fuel scene_at paths_at (Plan draws :: after) (run_ (new_editor k0 wdir) before)) as [A B].
    { constructor; auto. split; discriminate. }
    unfold kuka_run in *. rewrite run_app. rewrite A, B. auto.
Qed.
Lemma kuka_unreachable wdir vs draws sc tp : let e := run_ (new_editor k0 wdir) vs in
  e_scene e = Some sc -> In tp (as_path draws (e_path e)) -> (forall q, ~ candidate prim k0 sc (pt_samples ypr fuel 1000) tp q) ->
  snd (step_ e (Plan draws)) <> Ok tt /\ e_solution (fst (step_ e (Plan draws))) = e_solution e.
Proof.
  cbv zeta. intros Es It Hn. pose proof (krun_inv vs (new_editor k0 wdir) (conj K0 eq_refl)) as I. set (e := run_ (new_editor k0 wdir) vs) in *.
  destruct (step_solution k_rob kuka_put kuka_call (fun k _ _ => (k, Raise TypeError)) prim to32 sq_acc pq ypr fuel scene_at paths_at e (Plan draws)) as [[A B]|(d & rows & Ed & _ & C & _)]; [split; [apply (B draws eq_refl)|exact A]|].
  exfalso. injection Ed as <-. destruct (kcomputed e draws rows I C) as (sc' & c & Es' & G). rewrite Es in Es'. injection Es' as <-.
  rewrite (kuka_plan_eq prim to32 a1 a2 d4 d6 Hne k0 K0) in G. destruct (mapM (pt_samples ypr fuel 1000) (as_path draws (e_path e))) as [D| |] eqn:ED; try discriminate. cbn [bind] in G.
  apply (plan_rows sq_acc pq to32 (flat_map (kuka_free prim k0 sc)) _ _ _ _ _ _ _ ED) in G. clear - It Hn G. induction G as [|tp' row path rows (Ts & q & A & B & _) _ IH]; [destruct It|]. destruct It as [->|It]; auto.
  apply in_flat_map in B. destruct B as (T & B1 & B2). apply (Hn q). exists Ts, T. auto.
Qed.
End Run.

(** every callback of vs, run from e, returns *)
Definition all_return {K : CostStruct} (sq_acc : K -> R -> R -> R -> K) pq ypr fuel scene_at paths_at (e : editor kuka) (vs : list event) : Prop :=
  forall us v ws, vs = us ++ v :: ws -> snd (kuka_step prim to32 sq_acc pq ypr fuel scene_at paths_at (kuka_run prim to32 sq_acc pq ypr fuel scene_at paths_at e us) v) = Ok tt.
Lemma all_return_cons {K : CostStruct} (sq_acc : K -> R -> R -> R -> K) pq ypr fuel scene_at paths_at e v vs :
  snd (kuka_step prim to32 sq_acc pq ypr fuel scene_at paths_at e v) = Ok tt -> all_return sq_acc pq ypr fuel scene_at paths_at (fst (kuka_step prim to32 sq_acc pq ypr fuel scene_at paths_at e v)) vs ->
  all_return sq_acc pq ypr fuel scene_at paths_at e (v :: vs).
Proof. intros A B us v' ws E. destruct us as [|u us]; cbn [app] in E; injection E as <- E; [exact A|]. apply (B us v' ws E). Qed.
Lemma all_return_nil {K : CostStruct} (sq_acc : K -> R -> R -> R -> K) pq ypr fuel scene_at paths_at e : all_return sq_acc pq ypr fuel scene_at paths_at e [].
Proof. intros us v ws E. destruct us; discriminate. Qed.

Lemma kuka_works pq ypr fuel scene_at paths_at wdir sc path ps draws : exact_prim prim -> solid (k_rob k0) -> pq_ok pq ->
  let e0 := new_editor k0 wdir in
  scene_at (full_name e0 (e_filename e0)) = Ok sc -> rigid_coll sc -> paths_at (full_name e0 (e_paths_filename e0)) = Ok (path :: ps) ->
  Forall (Forall drawable) (path :: ps) -> path <> [] -> Forall (reachable a1 a2 d4 k0 sc (pt_samples ypr fuel 1000)) (as_path draws path) ->
  let vs := [LoadScene; LoadPaths; Plan draws; ShowPath] in
  all_return (K := RCost) rsq pq ypr fuel scene_at paths_at e0 vs /\
  exists rows, let e := kuka_run prim to32 (K := RCost) rsq pq ypr fuel scene_at paths_at e0 vs in
    e_solution e = Some rows /\ e_scene e = Some sc /\ e_path e = path /\ names e = names e0 /\ kinv_ (e_robot e) /\ e_paths e = path :: ps /\
    Forall2 (fun tp row => exists q, candidate prim k0 sc (pt_samples ypr fuel 1000) tp q /\ row = map to32 q) (as_path draws path) rows.
Proof.
  intros X S Hpq e0 Hsc Rg Hps Dr Hne' Re vs.
  set (st := kuka_step prim to32 (K := RCost) rsq pq ypr fuel scene_at paths_at) in *.
  assert (I0 : kinv_ (e_robot e0)) by (split; auto).
  assert (ST : forall e v, kinv_ (e_robot e) -> kinv_ (e_robot (fst (st e v)))) by (intros e v I; apply (krun_inv rsq pq ypr fuel scene_at paths_at [v] e I)).
  assert (SU : forall e, kinv_ (e_robot e) -> e_scene e = Some sc -> Forall (Forall drawable) (e_paths e) -> snd (plot_setup k_rob kuka_put e) = Ok tt).
  { intros e I Es D. eapply setup_ok; eauto; [apply kgood_inv; auto|apply kjoints; auto|rewrite (kndof _ I); lia]. }
  destruct (load_scene_scene k_rob kuka_put kuka_call (fun k _ _ => (k, Raise TypeError)) prim to32 (K := RCost) rsq pq ypr fuel scene_at paths_at e0 sc Hsc) as (A1 & A2 & A3).
  pose proof (step_names k_rob kuka_put kuka_call (fun k _ _ => (k, Raise TypeError)) prim to32 (K := RCost) rsq pq ypr fuel scene_at paths_at e0 LoadScene) as N1. cbv iota in N1.
  fold (kuka_step prim to32 (K := RCost) rsq pq ypr fuel scene_at paths_at) in A1, A2, A3, N1. fold st in A1, A2, A3, N1. pose proof (ST e0 LoadScene I0) as I1. rewrite SU in A3 by (cbn; auto).
  remember (fst (st e0 LoadScene)) as e1.
  assert (Hps1 : paths_at (full_name e1 (e_paths_filename e1)) = Ok (path :: ps)) by (unfold names in N1; injection N1 as B1 B2 B3; unfold full_name; rewrite B1, B3; exact Hps).
  destruct (load_paths_path k_rob kuka_put kuka_call (fun k _ _ => (k, Raise TypeError)) prim to32 (K := RCost) rsq pq ypr fuel scene_at paths_at e1 path ps Hps1) as (B1 & B2 & B3).
  destruct (paths_cases k_rob kuka_put paths_at e1) as (B4 & _).
  pose proof (step_names k_rob kuka_put kuka_call (fun k _ _ => (k, Raise TypeError)) prim to32 (K := RCost) rsq pq ypr fuel scene_at paths_at e1 LoadPaths) as N2. cbv iota in N2.
  fold (kuka_step prim to32 (K := RCost) rsq pq ypr fuel scene_at paths_at) in B1, B2, B3, N2. fold st in B1, B2, B3, N2. pose proof (ST e1 LoadPaths I1) as I2. rewrite SU in B3 by (cbn; auto).
  change (fst (load_paths k_rob kuka_put paths_at e1)) with (fst (st e1 LoadPaths)) in B4. remember (fst (st e1 LoadPaths)) as e2. rewrite A1 in B4.
  assert (Hap : as_path draws path <> []) by (destruct path; [congruence|discriminate]).
  destruct (kuka_plan_complete_dijkstra prim to32 a1 a2 d4 d6 Hne k0 K0 sc (pt_samples ypr fuel 1000) (as_path draws path) (Some ones7) X S Rg Hap Re pq Hpq) as (rows & Hp & Hc).
  destruct (plan_cases k_rob kuka_put kuka_call (fun k _ _ => (k, Raise TypeError)) prim to32 (K := RCost) rsq pq ypr fuel draws e2) as (_ & C2 & C3 & C4 & C5).
  pose proof (step_names k_rob kuka_put kuka_call (fun k _ _ => (k, Raise TypeError)) prim to32 (K := RCost) rsq pq ypr fuel scene_at paths_at e2 (Plan draws)) as N3. cbv iota in N3.
  fold (kuka_step prim to32 (K := RCost) rsq pq ypr fuel scene_at paths_at) in N3. fold st in N3.
  change (plan k_rob kuka_put kuka_call (fun k _ _ => (k, Raise TypeError)) prim to32 (K := RCost) rsq pq ypr fuel draws e2) with (st e2 (Plan draws)) in *. pose proof (ST e2 (Plan draws) I2) as I3.
  assert (C6 : snd (st e2 (Plan draws)) = Ok tt /\ e_solution (fst (st e2 (Plan draws))) = Some rows).
  { unfold kuka_plan, grid_plan in Hp. fold (kuka_columns prim to32) in Hp. rewrite <- B1 in Hp. pose proof (kinv_columns (pt_samples ypr fuel 1000) sc (as_path draws (e_path e2)) _ I2) as EC.
    subst st. unfold kuka_step. cbn [step]. unfold plan. cbn [log e_robot e_scene e_path]. rewrite B4, (kcolumns _ _ _ _ _ I2).
    destruct (kuka_columns prim to32 (pt_samples ypr fuel 1000) sc (as_path draws (e_path e2)) k0) as [k' r]. destruct (kuka_columns prim to32 (pt_samples ypr fuel 1000) sc (as_path draws (e_path e2)) (e_robot e2)) as [k2 r2].
    cbn [snd] in Hp, EC. subst r2. destruct r as [Q| |]; try discriminate. cbn [bind] in Hp. unfold ones7 in Hp. cbn [set_robot log e_robot e_scene e_path]. rewrite Hp. cbn. auto. }
  destruct C6 as [C6 C7]. clear C5. remember (fst (st e2 (Plan draws))) as e3. rewrite B4 in C2. rewrite B2 in C3. rewrite B1 in C4.
  pose proof (show_snd k_rob kuka_put kuka_call (fun k _ _ => (k, Raise TypeError)) prim to32 (K := RCost) rsq pq ypr fuel scene_at paths_at e3 rows C7) as D1.
  pose proof (step_names k_rob kuka_put kuka_call (fun k _ _ => (k, Raise TypeError)) prim to32 (K := RCost) rsq pq ypr fuel scene_at paths_at e3 ShowPath) as N4. cbv iota in N4.
  fold (kuka_step prim to32 (K := RCost) rsq pq ypr fuel scene_at paths_at) in D1, N4. fold st in D1, N4. rewrite SU in D1 by (auto; rewrite C3; auto).
  assert (D2 : fst (st e3 ShowPath) = fst (plot_setup k_rob kuka_put e3)) by (subst st; unfold kuka_step; cbn [step]; unfold show_path; rewrite C7; destruct (plot_setup k_rob kuka_put e3); reflexivity).
  destruct (setup_fields k_rob kuka_put e3) as (_ & D3 & D4 & D5 & D6). rewrite <- D2 in D3, D4, D5, D6. pose proof (ST e3 ShowPath I3) as I4.
  split.
  - apply all_return_cons; [exact A3|]. fold st. rewrite <- Heqe1. apply all_return_cons; [exact B3|]. fold st. rewrite <- Heqe2. apply all_return_cons; [exact C6|]. fold st. rewrite <- Heqe3.
    apply all_return_cons; [exact D1|]. apply all_return_nil.
  - exists rows. cbv zeta. change (kuka_run prim to32 (K := RCost) rsq pq ypr fuel scene_at paths_at e0 vs) with (fst (st (fst (st (fst (st (fst (st e0 LoadScene)) LoadPaths)) (Plan draws))) ShowPath)).
    rewrite <- Heqe1, <- Heqe2, <- Heqe3. rewrite D6, D3, D5, D4, N4, N3, N2, N1. repeat (split; [auto|]). auto.
Qed.
End Kuka.

Section Rail.
Context (prim : shape -> mat3 -> vec3 -> shape -> mat3 -> vec3 -> bool) (to32 : R -> R).
Context (r0 : rail) (R0 : rail_ok 0.18 0.6 0.62 0.115 r0).
Local Notation rinv_ := (rinv 0.18 0.6 0.62 0.115 r0).
Lemma rput_inv k r : rinv_ k -> good r -> reset r = reset (rl_rob k) -> rinv_ (rail_put k r).
Proof. intros [K E] G R. split; [|cbn; congruence]. pose proof (ro_rob _ _ _ _ _ K) as L. destruct K as [_ A B]. split; auto. cbn [rl_rob rail_put]. eapply reset_like; eauto. Qed.
Lemma rgood_inv k : rinv_ k -> good (rl_rob k). Proof. intros [K _]. apply (ro_rob _ _ _ _ _ K). Qed.
Lemma rndof k : rinv_ k -> ndof (rl_rob k) = 7%nat.
Proof. intros [K _]. rewrite (like_ndof _ _ (ro_rob _ _ _ _ _ K)). reflexivity. Qed.
Lemma rinv_columns disc scene path qf D k : rinv_ k -> Forall2 (fun tp Ts => disc tp = Ok (map AFrame Ts) /\ Ts <> []) path D ->
  snd (rail_columns prim to32 disc scene path qf k None) = snd (rail_columns prim to32 disc scene path qf r0 None).
Proof.
  intros I H. pose proof (simple_columns_spec rl_rob rail_put prim to32 scene rinv_ 7 (hit prim (rl_rob r0) scene) (rinv_coll prim _ _ _ _ r0 R0 scene) rail_call (rikp r0) (rinv_ik _ _ _ _ r0) (rikp_length r0) disc qf path D H) as S.
  unfold rail_columns. rewrite (proj2 (S k None I)). rewrite (proj2 (S r0 None (conj R0 eq_refl))). reflexivity.
Qed.
Context {K : CostStruct} (sq_acc : K -> R -> R -> R -> K) (pq : pqueue K R) (ypr : quat -> vec3) (fuel : nat).
Context (scene_at : string -> res coll) (paths_at : string -> res (list (list ppt))).
Local Notation step_ := (rail_step prim to32 sq_acc pq ypr fuel scene_at paths_at).
Local Notation run_ := (rail_run prim to32 sq_acc pq ypr fuel scene_at paths_at).
Lemma rrun_inv vs e : rinv_ (e_robot e) -> rinv_ (e_robot (run_ e vs)).
Proof.
  apply (inv_run rl_rob rail_put (fun k _ => (k, Raise TypeError)) rail_call prim to32 sq_acc pq ypr fuel scene_at paths_at rinv_ rgood_inv rput_inv); auto.
  intros k T g I. apply (rinv_ik _ _ _ _ r0 k T g I).
Qed.
Lemma rail_shown wdir vs rows : exact_prim prim -> solid (rl_rob r0) -> (forall name sc, scene_at name = Ok sc -> rigid_coll sc) ->
  e_solution (run_ (new_editor r0 wdir) vs) = Some rows ->
  exists before draws after scene, let e := run_ (new_editor r0 wdir) before in
    vs = before ++ Plan draws :: after /\ e_scene e = Some scene /\
    (forall us d ws, after = us ++ Plan d :: ws -> snd (step_ (run_ e (Plan draws :: us)) (Plan d)) <> Ok tt) /\
    (Forall disc_ok (as_path draws (e_path e)) ->
     Forall2 (fun tp row => exists q g T, row = map to32 q /\ In g (linspace (-0.5) 0.5 10) /\ allowed tp T /\ rail_reaches (rl_rob r0) q g T /\ clear (rl_rob r0) scene q) (as_path draws (e_path e)) rows) /\
    (Forall no_load after -> e_scene (run_ (new_editor r0 wdir) vs) = Some scene /\ e_path (run_ (new_editor r0 wdir) vs) = e_path e).
Proof.
  intros X S RG H. destruct (solution_origin _ _ _ _ _ _ _ _ _ _ _ _ (new_editor r0 wdir) vs rows eq_refl H) as (before & draws & after & E & P & C & N).
  pose proof (rrun_inv before (new_editor r0 wdir) (conj R0 eq_refl)) as I. pose proof (computed_scene _ _ _ _ _ _ _ _ _ _ _ _ _ C) as N'.
  fold (rail_run prim to32 sq_acc pq ypr fuel scene_at paths_at) in C, N', P, N.
  destruct C as (Q & c & EQ & G). destruct (e_scene (run_ (new_editor r0 wdir) before)) as [sc|] eqn:Es; [|congruence]. exists before, draws, after, sc. cbv zeta.
  split; auto. split; auto. split; [|split].
  - intros us d ws Eu. specialize (N us d ws Eu). unfold rail_run in N. rewrite run_app in N. exact N.
  - intros Hp. unfold columns in EQ. rewrite (rndof _ I) in EQ. cbn [Nat.ltb Nat.leb] in EQ. fold (rail_columns prim to32) in EQ.
    assert (HD : exists D, Forall2 (fun tp Ts => pt_discretise ypr fuel tp = Ok (map AFrame Ts) /\ Ts <> []) (as_path draws (e_path (run_ (new_editor r0 wdir) before))) D).
    { clear - Hp. induction Hp as [|tp path Hd _ (D & IH)]; [exists []; constructor|]. destruct (disc_allowed ypr fuel tp Hd) as (Ts & A & B & _). exists (Ts :: D). constructor; auto. }
    destruct HD as (D & HD). rewrite (rinv_columns _ _ _ _ D _ I HD) in EQ.
    apply (rail_plan_sound prim to32 r0 R0 sq_acc pq ypr fuel sc _ _ "dijkstra" (Some ones7) rows c); auto.
    + apply run_scenes in Es. destruct Es as [Es|(name & Es)]; [discriminate|]. eapply RG; eauto.
    + unfold rail_plan, simple_plan. fold (rail_columns prim to32). destruct (rail_columns prim to32 (pt_discretise ypr fuel) sc _ _ r0 None) as [k' r]. cbn [snd] in *. subst r. exact G.
  - intros Hl. subst vs. pose proof (run_keep rl_rob rail_put (fun k _ => (k, Raise TypeError)) rail_call prim to32 sq_acc pq ypr fuel scene_at paths_at (Plan draws :: after) (run_ (new_editor r0 wdir) before)) as [A B].
    { constructor; auto. split; discriminate. }
    unfold rail_run in *. rewrite run_app. rewrite A, B. auto.
Qed.
End Rail.

(** ** A stale solution *)
Lemma bent_point ypr fuel n : exists p, reachable 0.18 0.6 0.62 (new_kuka 0.18 0.6 0.62 0.115) (Coll [] []) (pt_samples ypr fuel n) (PEuler p) /\ drawable (Io.PEuler p).
Proof.
  destruct (new_eulerpt [Fix 0.895; Fix 0; Fix (-0.62)] [Fix 0; Fix (PI / 2); Fix PI]) as [p| |] eqn:E; try discriminate. exists p. split.
  - exists [frame6 0.895 0 (-0.62) 0 (PI / 2) PI], (frame6 0.895 0 (-0.62) 0 (PI / 2) PI), 0, 0, 0, 0, (PI / 2), 0. cbn [pt_samples]. rewrite (bent_samples p E). split; auto. split; [left; auto|].
    split; [rewrite <- bent_form; apply kuka_fk|]. split; [apply sqrt_lt_R0; unfold kuka_centre; cbn [vx vy]; rewrite Rplus_0_l, sin_0, cos_0; lra|].
    rewrite sin_0, Rabs_R0, sin_PI2. unfold tol. split; [lra|]. split; [lra|]. apply bare_clear. reflexivity.
  - injection E as <-. cbn. lia.
Qed.
Definition bare_kuka : kuka := new_kuka 0.18 0.6 0.62 0.115.
Lemma bare_ok : kuka_ok 0.18 0.6 0.62 0.115 bare_kuka. Proof. apply new_kuka_ok. Qed.
Lemma bare_solid : solid (k_rob bare_kuka).
Proof. split; [apply rigid_eye|]. repeat split; try (intros; discriminate); repeat constructor. Qed.

Lemma kuka_run_app prim to32 {K : CostStruct} (sq_acc : K -> R -> R -> R -> K) pq ypr fuel scene_at paths_at e vs vs' :
  kuka_run prim to32 sq_acc pq ypr fuel scene_at paths_at e (vs ++ vs') = kuka_run prim to32 sq_acc pq ypr fuel scene_at paths_at (kuka_run prim to32 sq_acc pq ypr fuel scene_at paths_at e vs) vs'.
Proof. apply run_app. Qed.
Lemma all_return_app prim to32 {K : CostStruct} (sq_acc : K -> R -> R -> R -> K) pq ypr fuel scene_at paths_at vs vs' : forall e,
  all_return prim to32 sq_acc pq ypr fuel scene_at paths_at e vs -> all_return prim to32 sq_acc pq ypr fuel scene_at paths_at (kuka_run prim to32 sq_acc pq ypr fuel scene_at paths_at e vs) vs' ->
  all_return prim to32 sq_acc pq ypr fuel scene_at paths_at e (vs ++ vs').
Proof.
  induction vs as [|v vs IH]; intros e A B; auto. cbn [app]. apply all_return_cons; [apply (A [] v vs eq_refl)|]. apply IH; [|exact B].
  intros us u ws E. apply (A (v :: us) u ws). cbn [app]. congruence.
Qed.
Lemma submit_load prim to32 {K : CostStruct} (sq_acc : K -> R -> R -> R -> K) pq ypr fuel scene_at paths_at e name :
  kuka_run prim to32 sq_acc pq ypr fuel scene_at paths_at e [SubmitPathFileName name; LoadPaths] =
  fst (step k_rob kuka_put kuka_call (fun k _ _ => (k, Raise TypeError)) prim to32 sq_acc pq ypr fuel scene_at paths_at (Ed (e_robot e) (e_scene e) (e_paths e) (e_path e) (e_wdir e) (e_filename e) name (e_logged e) (e_solution e)) LoadPaths).
Proof. reflexivity. Qed.
Lemma load_paths_solution prim to32 {K : CostStruct} (sq_acc : K -> R -> R -> R -> K) pq ypr fuel scene_at paths_at e :
  e_solution (fst (step k_rob kuka_put kuka_call (fun k _ _ => (k, Raise TypeError)) prim to32 sq_acc pq ypr fuel scene_at paths_at e LoadPaths)) = e_solution e.
Proof. apply (paths_cases k_rob kuka_put paths_at e). Qed.
Definition stale_paths (p : ppt) (name : string) : res (list (list ppt)) := if String.eqb name "/other.json" then Ok [[p; p]] else Ok [[p]].
(** all callbacks return, two points are loaded, and the solution has one row *)
Lemma stale prim to32 pq ypr fuel : exact_prim prim -> pq_ok pq -> exists scene_at paths_at vs,
  let e0 := new_editor bare_kuka "" in let e := kuka_run prim to32 (K := RCost) rsq pq ypr fuel scene_at paths_at e0 vs in
  all_return prim to32 (K := RCost) rsq pq ypr fuel scene_at paths_at e0 vs /\
  exists row, e_solution e = Some [row] /\ length (e_path e) = 2%nat.
Proof.
  intros X Hpq. destruct (bent_point ypr fuel 1000) as (p & Hr & Hd). set (sc := fun _ : string => Ok (Coll [] []) : res coll). set (pa := stale_paths (Io.PEuler p)). set (dr := fun _ : nat => [] : list (list R)).
  exists sc, pa, ([LoadScene; LoadPaths; Plan dr; ShowPath] ++ [SubmitPathFileName "other.json"; LoadPaths]). cbv zeta. assert (Hne : 0.6 * 0.62 <> 0) by lra.
  destruct (kuka_works prim to32 0.18 0.6 0.62 0.115 Hne bare_kuka bare_ok pq ypr fuel sc pa "" (Coll [] []) [Io.PEuler p] [] dr X bare_solid Hpq eq_refl) as (A & rows & B).
  { constructor. } { reflexivity. } { repeat constructor. exact Hd. } { discriminate. } { repeat constructor. exact Hr. }
  cbv zeta in B. rewrite kuka_run_app. set (e4 := kuka_run prim to32 (K := RCost) rsq pq ypr fuel sc pa (new_editor bare_kuka "") [LoadScene; LoadPaths; Plan dr; ShowPath]) in *.
  destruct B as (B1 & B2 & B3 & B4 & B5 & B6 & B7). unfold names in B4. injection B4 as W1 W2 W3. set (e5 := Ed (e_robot e4) (e_scene e4) (e_paths e4) (e_path e4) (e_wdir e4) (e_filename e4) "other.json" (e_logged e4) (e_solution e4)).
  assert (P5 : pa (full_name e5 (e_paths_filename e5)) = Ok [[Io.PEuler p; Io.PEuler p]]) by (unfold full_name; cbn [e5 e_wdir e_paths_filename]; rewrite W1; reflexivity).
  destruct (load_paths_path k_rob kuka_put kuka_call (fun k _ _ => (k, Raise TypeError)) prim to32 (K := RCost) rsq pq ypr fuel sc pa e5 _ _ P5) as (C1 & C2 & C3).
  pose proof (load_paths_solution prim to32 (K := RCost) rsq pq ypr fuel sc pa e5) as C4.
  split.
  - assert (AR : all_return prim to32 (K := RCost) rsq pq ypr fuel sc pa e4 [SubmitPathFileName "other.json"; LoadPaths]).
    { apply all_return_cons; [reflexivity|]. apply all_return_cons; [|apply all_return_nil]. change (fst (kuka_step prim to32 (K := RCost) rsq pq ypr fuel sc pa e4 (SubmitPathFileName "other.json"))) with e5.
      unfold kuka_step. rewrite C3. eapply setup_ok with (sc := Coll [] []); cbn [e_robot e_scene e_paths e5]; [eapply kgood_inv; eauto|eapply kjoints; eauto|rewrite (kndof _ _ _ _ _ _ B5); lia|exact B2|repeat constructor; exact Hd]. }
    apply all_return_app; auto.
  - inversion B7 as [|tp row tps rows' _ B8 Ea Eb]; subst. inversion B8; subst. exists row. rewrite (submit_load prim to32 (K := RCost) rsq pq ypr fuel sc pa e4). fold e5. rewrite C4. rewrite C1. split; [exact B1|reflexivity].
Qed.
