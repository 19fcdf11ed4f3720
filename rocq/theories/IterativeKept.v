(** * Iterations of the iterative planner that also draw the orientation they start from. *)
From Coq Require Import String Reals Lra Lia List Bool Arith ZArith.
From Verif Require Import PyBase Cost SpecPath GraphCommon CppGraph CppGraphProofs CppSearch CppHeap CppMain CppFinal CppExamples Mat Util UtilProofs HaltonProofs Geometry GeometryProofs Robot RobotProofs RobotForms Ik IkProofs KukaProofs RailProofs Path PathProofs Planning PlanningProofs PlanningCart PlanningIter Resources ResourcesProofs TaskProofs Pipeline PipelineProofs PipelineExamples Motion MotionKuka LocalIk Margin GridCover Resolution ResolutionExamples Turn Uniform Iterative IterativeProofs IterativeExamples.
From Verif Require Io IoProofs.
Import ListNotations.
Local Open Scope R_scope.

(** every set of draws contains the orientation around which it is drawn *)
Definition keeps (near : nat -> mat3 -> R -> nat -> quat) (num : nat) : Prop :=
  forall j A d, rotation A -> exists i, (i < num)%nat /\ qrot (near j A d i) = A.
(** elbow and wrist not stretched *)
Definition unstretched (row : list R) : Prop := sin (nth 4 row 0) <> 0 /\ cos (nth 2 row 0) <> 0.

Lemma picks_In {A} : forall (data : list (list A)) js p, picks data js p -> Forall2 (fun col x => In x col) data p.
Proof.
  induction data as [|col data IH]; intros [|j js] [|x p] H; cbn [picks] in H; try tauto; constructor; [|eapply IH; apply H].
  destruct H as [H _]. eapply nth_error_In; eauto.
Qed.
Lemma In_picks {A} (data : list (list A)) p : Forall2 (fun col x => In x col) data p -> exists js, picks data js p.
Proof.
  induction 1 as [|col x data p I _ (js & H)]; [exists []; exact Logic.I|]. apply In_nth_error in I. destruct I as (j & Hj). exists (j :: js). cbn [picks]. auto.
Qed.

Section Kept.
Context (prim : shape -> mat3 -> vec3 -> shape -> mat3 -> vec3 -> bool) (a1 a2 d4 d6 : R) (Hne : a2 * d4 <> 0).
Context (k0 : kuka) (K0 : kuka_ok a1 a2 d4 d6 k0).
Notation rob := (k_rob k0).
Context (pq : pqueue RCost R) (ypr : quat -> vec3) (fuel : nat) (near : nat -> mat3 -> R -> nat -> quat) (scene : coll) (num : nat).
Context (X : exact_prim prim) (Sd : solid rob) (C : rigid_coll scene) (N : near_ok near) (Hq : pq_ok pq) (Hm : pops_minimum pq).
Notation samples := (cur_samples ypr fuel (Some near)).
Notation sp_ := (spoint (F := R) (P := curpt) (D := R)).
Notation cols_ := (iter_columns (fun x : R => x) (kikp a1 a2 d4 d6 k0) (fun q s => (scc (hit prim rob) (Some scene) q, s)) (near_state samples) true).
Notation found Ts := (flat_map (kuka_free prim k0 scene) Ts).
Notation cost := (walk_cost (K := RCost) (jcost (K := RCost) rsq (eff_weights 1 6 None))).

Definition fine (sp : sp_) : Prop := sp_class sp = CFree /\ match sp_cur sp with CurPt tp => pt_ok num tp | CurOri _ o => rotation o end.
Lemma fine_samples sp j : fine sp -> exists Ts, samples (sp_cur sp) num (sp_dist sp) j = Ok Ts /\ Forall rigid Ts.
Proof.
  intros [_ F]. destruct (sp_cur sp) as [tp|p o]; cbn [cur_samples].
  - destruct (pt_allowed ypr fuel num tp F) as (Ts & E & A). exists Ts. split; auto. apply Forall_forall. intros T I. apply (A T I).
  - destruct (ori_spec (near j o (sp_dist sp)) (vx p) (vy p) (vz p) num) as (l & E & L & H); [intros; apply N; auto|]. exists l. split; auto.
    apply Forall_forall. intros T I. apply In_nth_error in I. destruct I as (i & Hi). apply (H i T Hi).
Qed.
Definition entry_ (l : list (list R)) : qent R := match l with [] => QArr F32 0 [] | _ => QArr F32 6 l end.
Lemma fine_columns : forall sps, Forall fine sps -> forall j, exists D j',
  Forall2 (fun sp Ts => exists j0, samples (sp_cur sp) num (sp_dist sp) j0 = Ok Ts /\ Forall rigid Ts) sps D /\
  cols_ sps num j = Ok (map (fun Ts => entry_ (found Ts)) D, j').
Proof.
  induction 1 as [|sp sps F _ IH]; intros j; [exists [], j; split; [constructor|reflexivity]|].
  destruct (fine_samples sp j F) as (Ts & E & Rg). destruct (IH (S j)) as (D & j' & H1 & H2). exists (Ts :: D), j'. split; [constructor; eauto|].
  cbn [iter_columns]. unfold near_state at 1. rewrite E. cbn [bind]. unfold calc_joint_solutions. rewrite collect_pure. cbn [app].
  change (flat_map (fun t => free (scc (hit prim rob) (Some scene)) (kikp a1 a2 d4 d6 k0 t)) Ts) with (flat_map (fun t => free (hit prim rob scene) (kikp a1 a2 d4 d6 k0 t)) Ts).
  rewrite (flat_map_ext _ _ (free_kuka prim a1 a2 d4 d6 Hne k0 K0 scene)). pose proof (kuka_free_length prim a1 a2 d4 d6 Hne k0 K0 scene Ts) as L.
  cbn [map]. destruct (found Ts) as [|q l] eqn:El; [cbn [bind]; rewrite H2; reflexivity|].
  assert (L6 : length q = 6%nat) by (inversion L; auto).
  replace (forallb (fun q' => (length q' =? length q)%nat) (q :: l)) with true. 2:{ symmetry. apply forallb_forall. intros y Hy. rewrite Forall_forall in L. rewrite (L y Hy), L6. reflexivity. }
  cbn [bind]. rewrite H2. cbn [bind]. rewrite L6, (map_ext (map (fun x : R => x)) (fun x => x)), map_id by apply map_id. reflexivity.
Qed.
Lemma full_entries D : forallb (fun e => negb (Nat.eqb (qlen e) 0)) (map (fun Ts => entry_ (found Ts)) D) = true ->
  Forall (fun col => col <> []) (map (fun Ts => found Ts) D) /\ map (fun Ts => entry_ (found Ts)) D = arrays F32 6 (map (fun Ts => found Ts) D).
Proof.
  induction D as [|Ts D IH]; [split; [constructor|reflexivity]|]. cbn [map forallb]. intros H. apply andb_true_iff in H. destruct H as [H1 H2]. destruct (IH H2) as [A B].
  destruct (found Ts) as [|q l]; [discriminate|]. split; [constructor; [discriminate|exact A]|]. cbn [entry_]. rewrite B. reflexivity.
Qed.
Lemma full_cols D p : Forall2 (fun col x => In x col) (map (fun Ts => found Ts) D) p -> forallb (fun e => negb (Nat.eqb (qlen e) 0)) (map (fun Ts => entry_ (found Ts)) D) = true.
Proof.
  revert p. induction D as [|Ts D IH]; intros p H; [reflexivity|]. cbn [map] in H. inversion H as [|? x ? p' I H']; subst. cbn [map forallb]. rewrite (IH p' H').
  destruct (found Ts); [destruct I|reflexivity].
Qed.
Lemma found_uniform D : uniform 6 (map (fun Ts => found Ts) D).
Proof. unfold uniform. apply Forall_forall. intros col I. apply in_map_iff in I. destruct I as (Ts & <- & _). apply (kuka_free_length prim a1 a2 d4 d6 Hne k0 K0). Qed.

Lemma fine_resample : forall sps, Forall fine sps -> forall D p, Forall2 (fun sp Ts => exists j0 : nat, samples (sp_cur sp) num (sp_dist sp) j0 = Ok Ts /\ Forall rigid Ts) sps D ->
  Forall2 (fun col x => In x col) (map (fun Ts => found Ts) D) p ->
  exists sps', resample_all (fun q => snd (fk rob q)) at_frame half p sps = Ok sps' /\ Forall fine sps' /\ length sps' = length p /\
    (keeps near num -> Forall unstretched p -> Forall2 (fun sp q => forall j Ts, samples (sp_cur sp) num (sp_dist sp) j = Ok Ts -> In q (found Ts)) sps' p).
Proof.
  induction 1 as [|sp sps F _ IH]; intros D p H1 H2; inversion H1 as [|? Ts ? D' (j0 & E & Rg) H1']; subst; cbn [map] in H2; inversion H2 as [|? row ? p' I H2']; subst.
  - exists []. split; [reflexivity|]. split; [constructor|]. split; [reflexivity|]. constructor.
  - destruct (IH D' p' H1' H2') as (sps' & E1 & F1 & L1 & G1). apply in_flat_map in I. destruct I as (T & IT & I). rewrite Forall_forall in Rg. specialize (Rg T IT).
    destruct (kuka_free_sound prim a1 a2 d4 d6 Hne k0 K0 scene T row X Sd C Rg I) as [(q1 & q2 & q3 & q4 & q5 & q6 & Fr & -> & EF & R1 & _) _].
    assert (RF : rigid Fr) by (apply (fk_rigid rob [q1; q2; q3; q4; q5; q6] Fr); auto; [apply (ko_rob _ _ _ _ _ K0)|apply Sd|apply solid_tool; auto]).
    eexists. split; [|split; [|split]].
    + cbn [resample_all]. unfold resample. rewrite (proj1 F), EF. cbn [bind]. rewrite E1. reflexivity.
    + constructor; [split; [reflexivity|]|exact F1]. cbn [sp_cur]. unfold at_frame. apply RF.
    + cbn [length]. rewrite L1. reflexivity.
    + intros Kp U. inversion U as [|? ? [U5 U3] U']; subst. constructor; [|apply G1; auto]. cbn [nth] in U5, U3. rewrite (R1 U5 U3) in *. clear R1. intros j Ts' Es. cbn [sp_cur sp_dist] in Es. unfold at_frame in Es. cbn [cur_samples] in Es.
      set (d := half (sp_dist sp)) in *. destruct (ori_spec (near j (rot T) d) (vx (pos T)) (vy (pos T)) (vz (pos T)) num) as (l & El & Ln & Hl); [intros; apply N; apply Rg|].
      rewrite Es in El. injection El as <-. destruct (Kp j (rot T) d (rigid_rot _ Rg)) as (i & Hi & Er). destruct (nth_error Ts' i) as [T'|] eqn:Ei. 2:{ apply nth_error_None in Ei. lia. }
      destruct (Hl i T' Ei) as (RT' & P' & O'). apply in_flat_map. exists T. split; auto. replace T with T'; [eapply nth_error_In; eauto|].
      destruct T as [o p w1 w2], T' as [o' p'' w1' w2']. destruct Rg as [_ W1 W2], RT' as [_ W1' W2']. cbn in *. subst. rewrite Er. destruct p; reflexivity.
Qed.
Notation loop_ := (iter_loop 1 (K := RCost) rsq pq (fun x : R => x) (kikp a1 a2 d4 d6 k0) (fun q s => (scc (hit prim rob) (Some scene) q, s)) (near_state samples) (fun q => snd (fk rob q)) at_frame half).
Lemma one_iteration sps j Q j' p c : Forall fine sps -> cols_ sps num j = Ok (Q, j') -> forallb (fun e => negb (Nat.eqb (qlen e) 0)) Q = true -> sps <> [] ->
  get_shortest_path 1 (K := RCost) rsq pq (fun x => x) Q "dijkstra" None = Ok (GspOk p c) ->
  c = cost p /\ exists D, Q = map (fun Ts => entry_ (found Ts)) D /\ Forall2 (fun sp Ts => exists j0, samples (sp_cur sp) num (sp_dist sp) j0 = Ok Ts /\ Forall rigid Ts) sps D /\ Forall2 (fun col x => In x col) (map (fun Ts => found Ts) D) p.
Proof.
  intros F E1 E2 Hn E3. destruct (fine_columns sps F j) as (D & j2 & H1 & H2). rewrite E1 in H2. injection H2 as -> _. destruct (full_entries D E2) as [A B]. rewrite B in E3.
  destruct (gsp_min (map (fun Ts => found Ts) D) pq (found_uniform D)) as (js & p2 & G1 & G2 & _); auto; [inversion H1; subst; [congruence|discriminate]|]. rewrite E3 in G1. injection G1 as -> ->. split; auto. exists D. split; auto. split; auto. eapply picks_In; eauto.
Qed.
Lemma loop_kept : keeps near num -> forall n sps j costs paths nt lst p c costs' paths' nt' st', Forall fine sps -> sps <> [] ->
  loop_ (S n) true sps num j costs paths nt lst = Ok (ItOk p c costs' paths' nt', st') -> Forall unstretched p ->
  exists p' c' st2, loop_ (S (S n)) true sps num j costs paths nt lst = Ok (@ItOk RCost R p' c' (costs' ++ [c']) (paths' ++ [p']) (nt' + 1), st2 : nat) /\ c = cost p /\ c' = cost p' /\ cle c' c.
Proof.
  intros Kp. induction n as [|n IH]; intros sps j costs paths nt lst p c costs' paths' nt' st' F Hn H U.
  - cbn [iter_loop] in H |- *. destruct (cols_ sps num j) as [[Q j1]| |] eqn:E1; cbn [bind] in H |- *; try discriminate. destruct (forallb _ Q) eqn:E2; [|discriminate].
    destruct (get_shortest_path 1 _ pq _ Q "dijkstra" None) as [[|p1 c1]| |] eqn:E3; cbn [bind] in H |- *; try discriminate.
    destruct (one_iteration sps j Q j1 p1 c1 F E1 E2 Hn E3) as (Ec & D & EQ & H1 & H2). destruct (fine_resample sps F D p1 H1 H2) as (sps' & E4 & F' & L' & G). rewrite E4 in H |- *. cbn [bind] in H |- *.
    injection H as <- <- <- <- <- _. specialize (G Kp U).
    destruct (fine_columns sps' F' j1) as (D' & j2 & H3 & H4). rewrite H4. cbn [bind].
    assert (Off : Forall2 (fun col x => In x col) (map (fun Ts => found Ts) D') p1).
    { clear - H3 G. revert p1 G. induction H3 as [|sp Ts sps' D' (j0 & E & _) _ IH]; intros p1 G; inversion G as [|? q ? p' Gq G']; subst; [constructor|]. cbn [map]. constructor; [eapply Gq; eauto|auto]. }
    pose proof (full_cols D' p1 Off) as Fl. rewrite Fl. destruct (full_entries D' Fl) as [A B]. rewrite B.
    destruct (gsp_min (map (fun Ts => found Ts) D') pq (found_uniform D')) as (js & p2 & G1 & G2 & G3); auto.
    { destruct D'; [|discriminate]. inversion Off; subst. inversion H2 as [Z|]; subst. apply eq_sym, map_eq_nil in Z. subst D. inversion H1; subst. congruence. }
    rewrite G1. cbn [bind]. destruct (fine_resample sps' F' D' p2 H3 (picks_In _ _ _ G2)) as (sps2 & E5 & _). rewrite E5. cbn [bind].
    exists p2, (cost p2), j2. split; [reflexivity|]. split; [exact Ec|]. split; [reflexivity|]. destruct (In_picks _ _ Off) as (js' & Pk). rewrite Ec. apply (G3 js' p1 Pk).
  - set (m := S n) in IH, H. set (m2 := S m). assert (Em : m2 = S m) by reflexivity. clearbody m2. cbn [iter_loop] in H |- *.
    destruct (cols_ sps num j) as [[Q j1]| |] eqn:E1; cbn [bind] in H |- *; try discriminate. destruct (forallb _ Q) eqn:E2; [|discriminate].
    destruct (get_shortest_path 1 _ pq _ Q "dijkstra" None) as [[|p1 c1]| |] eqn:E3; cbn [bind] in H |- *; try discriminate.
    destruct (one_iteration sps j Q j1 p1 c1 F E1 E2 Hn E3) as (Ec & D & EQ & H1 & H2). destruct (fine_resample sps F D p1 H1 H2) as (sps' & E4 & F' & L' & _). rewrite E4 in H |- *. cbn [bind] in H |- *.
    subst m2. apply (IH sps' j1 (costs ++ [c1]) (paths ++ [p1]) (nt + 1)%nat (Some (p1, c1))) in H; auto.
    intros ->. destruct p1; [|discriminate]. inversion H2 as [Z|]; subst. apply eq_sym, map_eq_nil in Z. subst D. inversion H1; subst. congruence.
Qed.
Lemma points_fine path sps : Forall (pt_ok num) path -> mapM (solution_point (F := R) cur_class (PI / 4)) (map CurPt path) = Ok sps -> Forall fine sps.
Proof.
  intros P E. apply solution_points in E. destruct E as (E1 & _ & E3). revert path P E3. induction E1 as [|sp sps Cl _ IH]; intros [|tp path] P E3; try discriminate; constructor.
  - cbn [map] in E3. injection E3 as E _. split; auto. rewrite E. inversion P; auto.
  - cbn [map] in E3. injection E3 as _ E. inversion P; subst. eapply IH; eauto.
Qed.
Notation plan path n := (snd (kuka_it_plan prim (fun x => x) (K := RCost) rsq pq samples (Some scene) path num n k0)).
Lemma it_kept path n p c costs paths nt : Forall (pt_ok num) path -> keeps near num ->
  plan path (S n) = Ok (ItOk p c costs paths nt) -> Forall unstretched p ->
  exists p' r r', plan path (S (S n)) = Ok (@ItOk RCost R p' (Some r') (costs ++ [Some r']) (paths ++ [p']) (nt + 1)) /\ c = Some r /\ r' <= r.
Proof.
  intros P Kp. rewrite !(kuka_it_eq prim (fun x => x) a1 a2 d4 d6 Hne k0 K0). unfold cart_to_joint_iterative.
  destruct (mapM (solution_point (F := R) cur_class (PI / 4)) (map CurPt path)) as [sps| |] eqn:Em; cbn [bind drop]; try discriminate. intros H U.
  pose proof (points_fine path sps P Em) as F. apply solution_points in Em. destruct Em as (_ & _ & E3).
  assert (Hn : sps <> []) by (intros ->; cbn in H; discriminate).
  match type of H with drop ?x = _ => assert (G : exists st', x = Ok (ItOk p c costs paths nt, st')) by (destruct x as [[r st']| |]; cbn [drop bind] in H; try discriminate; injection H as ->; eauto) end. destruct G as (st' & G).
  destruct (loop_kept Kp n sps 0 [] [] 0 None p c costs paths nt st' F Hn G U) as (p' & c' & st2 & E & Ec & Ec' & Hle). exists p'.
  assert (Fin : forall x, exists r, cost x = Some r) by (intros x; pose proof (rsq_finite (eff_weights 1 6 None) x) as Fx; destruct (cost x) as [r|]; [eauto|discriminate Fx]).
  destruct (Fin p) as (r & Er). destruct (Fin p') as (r' & Er').
  exists r, r'. cbn [has]. rewrite E. cbn [drop bind]. rewrite Ec', Er'. split; [reflexivity|]. split; [congruence|].
  rewrite Ec, Ec', Er, Er' in Hle. unfold cle in Hle. cbn in Hle. apply rltb_false. exact Hle.
Qed.
Lemma it_descends path : Forall (pt_ok num) path -> keeps near num -> forall n p c costs paths nt, plan path n = Ok (ItOk p c costs paths nt) ->
  (forall rows, In rows paths -> Forall unstretched rows) ->
  forall m c1 c2, nth_error costs m = Some (Some c1) -> nth_error costs (S m) = Some (Some c2) -> c2 <= c1.
Proof.
  intros P Kp. induction n as [|n IH]; intros p c costs paths nt H U m c1 c2 Hc1 Hc2.
  - destruct (it_sound prim (fun x => x) a1 a2 d4 d6 Hne k0 K0 _ _ _ _ _ _ _ _ _ _ _ _ _ _ X Sd C P N H) as (L & _). destruct costs; [destruct m; discriminate|discriminate].
  - destruct n as [|n].
    { destruct (it_sound prim (fun x => x) a1 a2 d4 d6 Hne k0 K0 _ _ _ _ _ _ _ _ _ _ _ _ _ _ X Sd C P N H) as (L & _). destruct costs as [|? [|? ?]]; try discriminate. destruct m; discriminate. }
    destruct (it_prefix prim (fun x => x) a1 a2 d4 d6 Hne k0 K0 _ _ _ _ _ _ _ _ _ _ _ _ H) as (p0 & c0 & costs0 & paths0 & nt0 & E0 & -> & -> & ->).
    destruct (it_sound prim (fun x => x) a1 a2 d4 d6 Hne k0 K0 _ _ _ _ _ _ _ _ _ _ _ _ _ _ X Sd C P N E0) as (L0 & _ & _ & (ps & Ep) & (cs & Ecs) & _).
    destruct (it_kept path n p0 c0 costs0 paths0 nt0 P Kp E0) as (p' & r & r' & E & -> & Hle).
    { apply U. apply in_or_app. left. rewrite Ep. apply in_or_app. right. left. reflexivity. }
    rewrite H in E. injection E as -> -> _ _.
    destruct (Nat.lt_ge_cases (S m) (length costs0)) as [Lt|Ge].
    + rewrite nth_error_app1 in Hc1, Hc2 by lia. eapply (IH _ _ _ _ _ E0); eauto. intros rows I. apply U. apply in_or_app. auto.
    + rewrite nth_error_app2 in Hc2 by lia. destruct (S m - length costs0)%nat as [|[|z]] eqn:Ez; try discriminate. injection Hc2 as <-. rewrite nth_error_app1 in Hc1 by lia.
      rewrite Ecs in Hc1. rewrite Ecs, app_length in Ez, Ge. cbn [length] in *. rewrite nth_error_app2 in Hc1 by lia. replace (m - length cs)%nat with 0%nat in Hc1 by lia. injection Hc1 as ->. exact Hle.
Qed.
End Kept.

(** the generator that draws the orientation itself *)
Definition still (j : nat) (A : mat3) (d : R) (i : nat) : quat := Io.quat_of_matrix A.
Lemma still_ok : near_ok still /\ forall num, (1 <= num)%nat -> keeps still num.
Proof.
  split; [intros j A d i H|intros num Hn j A d H; exists 0%nat; split; [lia|]]; unfold still; destruct (IoProofs.quat_of_matrix_rot A H) as [E1 E2]; [rewrite E1; lra|exact E2].
Qed.
Lemma kept_example prim pq near r ypr fuel : exact_prim prim -> pq_ok pq -> (forall x y z, pt_samples ypr fuel 1 (PFree [x; y; z] [r]) = Ok [M4 (rot (tframe 0)) (V3 x y z) v0 1]) ->
  exists rows c, snd (kuka_it_plan prim (fun x => x) (K := RCost) rsq pq (cur_samples ypr fuel near) (Some (Coll [] [])) [PFree [0.78; -0.115; -0.62] [r]] 1 1 bare) = Ok (@ItOk RCost R rows c [c] [rows] 1) /\ Forall unstretched rows.
Proof.
  intros X Hq Hr. set (tp := PFree [0.78; -0.115; -0.62] [r]). assert (Rch : Forall (reachable 0.18 0.6 0.62 bare (Coll [] []) (pt_samples ypr fuel 1)) [tp]) by (constructor; [apply side_reachable; auto|constructor]).
  destruct (it_first prim (fun x => x) 0.18 0.6 0.62 0.115 default_ne bare (new_kuka_ok _ _ _ _) ypr fuel near (Coll [] []) [tp] 1 pq X bare_solid (Forall_nil _) ltac:(discriminate) (Forall_cons tp (I : is_free tp) (Forall_nil is_free)) Rch Hq) as (rows & c & E1 & E2).
  exists rows, c. split; auto.
  destruct (kuka_plan_complete_dijkstra prim (fun x => x) 0.18 0.6 0.62 0.115 default_ne bare (new_kuka_ok _ _ _ _) (Coll [] []) (pt_samples ypr fuel 1) [tp] None X bare_solid (Forall_nil _) ltac:(discriminate) Rch pq Hq) as (rows' & E & F).
  cbv zeta in E. rewrite E1 in E. injection E as <- _. inversion F as [|? row ? rows0 (q & (Ts & T & Et & It & Iq) & ->) F0]; subst. inversion F0; subst. constructor; [|constructor].
  unfold tp in Et. rewrite Hr in Et. injection Et as <-. destruct It as [<-|[]]. destruct (kuka_free_bounded 0.18 0.6 0.62 0.115 default_ne bare (new_kuka_ok _ _ _ _) prim (Coll [] []) _ q Iq) as [B L]. rewrite (bare_free prim _ X) in Iq.
  assert (Rg : regular (map f32 q)) by (apply (side_regular 0); auto). rewrite map_id. destruct q as [|q1 [|q2 [|q3 [|q4 [|q5 [|q6 [|? ?]]]]]]]; try discriminate. apply (regular_round _ _ _ _ _ _ B Rg).
Qed.
