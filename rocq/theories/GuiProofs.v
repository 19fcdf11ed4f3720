(** * Proofs about the task editor. *)
From Coq Require Import String List Arith Bool Lia Reals Lra ZArith.
From Verif Require Import PyBase Cost SpecPath GraphCommon CppGraph CppGraphProofs CppSearch CppHeap CppMain CppExamples Mat Util Geometry GeometryProofs Robot RobotProofs Ik IkProofs KukaProofs RailProofs Path PathProofs Planning PlanningProofs PlanningCart Plot PlotProofs Io Pipeline PipelineProofs PipelineRail PipelineExamples Gui.
Import ListNotations.
Local Open Scope R_scope.

(** ** Layout *)
(** a rectangle (left, bottom, width, height) with positive sides, inside the unit square *)
Definition good_slot (s : R * R * R * R) : Prop :=
  let '(l, b, w, h) := s in 0 < w /\ 0 < h /\ 0 <= l /\ 0 <= b /\ l + w <= 1 /\ b + h <= 1.
(** no common point *)
Definition apart (s t : R * R * R * R) : Prop :=
  let '(l, b, w, h) := s in let '(l', b', w', h') := t in l + w < l' \/ l' + w' < l \/ b + h < b' \/ b' + h' < b.
Definition slot_at (ss : list (list (R * R * R * R))) (i j : nat) : option (R * R * R * R) :=
  match nth_error ss i with Some row => nth_error row j | None => None end.

Lemma nth_error_mapseq {A} (f : nat -> A) n i : nth_error (map f (seq 0 n)) i = if (i <? n)%nat then Some (f i) else None.
Proof.
  destruct (Nat.ltb_spec i n).
  - rewrite (map_nth_error f i (seq 0 n) (d := i)); auto. rewrite (nth_error_nth' _ 0%nat) by (rewrite seq_length; auto). rewrite seq_nth by auto. reflexivity.
  - apply nth_error_None. rewrite map_length, seq_length. auto.
Qed.
Lemma slots_form rows cols margin : (1 <= rows)%nat -> (1 <= cols)%nat -> exists ss, create_layout_slots rows cols margin = Ok ss /\
  forall i j, slot_at ss i j = if (i <? rows)%nat then if (j <? cols)%nat then
    Some (INR j * (1.0 / INR cols) + margin, INR i * (1.0 / INR rows) + margin, 1.0 / INR cols - 2 * margin, 1.0 / INR rows - 2 * margin) else None else None.
Proof.
  intros Hr Hc. destruct rows as [|rows]; [lia|]. destruct cols as [|cols]; [lia|]. eexists. split; [reflexivity|]. intros i j. unfold slot_at. rewrite nth_error_mapseq.
  destruct (i <? S rows)%nat; auto. rewrite nth_error_mapseq. reflexivity.
Qed.
Lemma inr_step j n s : (j < n)%nat -> s * INR n = 1 -> 0 < s -> INR j * s + s <= 1.
Proof. intros H E P. apply le_INR in H. rewrite S_INR in H. rewrite <- E. nra. Qed.
Lemma inr_slot n : (1 <= n)%nat -> 1.0 / INR n * INR n = 1 /\ 0 < 1.0 / INR n.
Proof. intros H. assert (0 < INR n) by (apply lt_0_INR; lia). replace 1.0 with 1 by lra. split; [field; lra|]. apply Rdiv_lt_0_compat; lra. Qed.
Lemma slots_good rows cols margin ss : (1 <= rows)%nat -> (1 <= cols)%nat -> 0 < margin -> 2 * margin < 1 / INR rows -> 2 * margin < 1 / INR cols ->
  create_layout_slots rows cols margin = Ok ss ->
  (forall i j, (i < rows)%nat -> (j < cols)%nat -> exists s, slot_at ss i j = Some s /\ good_slot s) /\
  (forall i j i' j' s s', slot_at ss i j = Some s -> slot_at ss i' j' = Some s' -> (i, j) <> (i', j') -> apart s s').
Proof.
  intros Hr Hc Hm H1 H2 E. destruct (slots_form rows cols margin Hr Hc) as (ss' & E' & F). rewrite E in E'. injection E' as <-.
  destruct (inr_slot rows Hr) as [R1 R2]. destruct (inr_slot cols Hc) as [C1 C2]. replace (1 / INR rows) with (1.0 / INR rows) in H1 by (f_equal; lra). replace (1 / INR cols) with (1.0 / INR cols) in H2 by (f_equal; lra).
  set (sh := 1.0 / INR rows) in *. set (sw := 1.0 / INR cols) in *. split.
  - intros i j Hi Hj. rewrite F. apply Nat.ltb_lt in Hi as Bi. apply Nat.ltb_lt in Hj as Bj. rewrite Bi, Bj. eexists. split; [reflexivity|].
    pose proof (inr_step i rows sh Hi R1 R2). pose proof (inr_step j cols sw Hj C1 C2). pose proof (pos_INR i). pose proof (pos_INR j).
    assert (0 <= INR i * sh) by (apply Rmult_le_pos; lra). assert (0 <= INR j * sw) by (apply Rmult_le_pos; lra). cbn. lra.
  - intros i j i' j' s s' Hs Hs' N. rewrite F in Hs, Hs'. destruct (i <? rows)%nat; [|discriminate]. destruct (j <? cols)%nat; [|discriminate].
    destruct (i' <? rows)%nat; [|discriminate]. destruct (j' <? cols)%nat; [|discriminate]. injection Hs as <-. injection Hs' as <-. cbn.
    assert (Hlt : forall a b, (a < b)%nat -> INR a + 1 <= INR b) by (intros a b Hab; rewrite <- S_INR; apply le_INR; lia).
    destruct (Nat.lt_trichotomy j j') as [L|[L|L]]; [left; specialize (Hlt _ _ L); nra| |right; left; specialize (Hlt _ _ L); nra].
    right. right. destruct (Nat.lt_trichotomy i i') as [L'|[L'|L']]; [left; specialize (Hlt _ _ L'); nra|subst; congruence|right; specialize (Hlt _ _ L'); nra].
Qed.

(** ** Runs *)
Section Ed.
Context {O : Type} (get : O -> robot) (put : O -> robot -> O).
Context (ik6 : O -> mat4 -> O * res (option (list (list R)))) (ik7 : O -> mat4 -> R -> O * res (option (list (list R)))).
Context (prim : shape -> mat3 -> vec3 -> shape -> mat3 -> vec3 -> bool) (to32 : R -> R).
Context {K : CostStruct} (sq_acc : K -> R -> R -> R -> K) (pq : pqueue K R).
Context (ypr : quat -> vec3) (fuel : nat).
Context (scene_at : string -> res coll) (paths_at : string -> res (list (list ppt))).
Local Notation step_ := (step get put ik6 ik7 prim to32 sq_acc pq ypr fuel scene_at paths_at).
Local Notation run_ := (run get put ik6 ik7 prim to32 sq_acc pq ypr fuel scene_at paths_at).
Local Notation columns_ := (columns get put ik6 ik7 prim to32 ypr fuel).
Local Notation plan_ := (plan get put ik6 ik7 prim to32 sq_acc pq ypr fuel).
Definition ones7 : list R := [1; 1; 1; 1; 1; 1; 1].

(** rows are what planning computes for the robot, scene and path of e *)
Definition computed (e : editor O) (draws : nat -> list (list R)) (rows : list (list R)) : Prop :=
  exists Q c, snd (columns_ (e_robot e) (e_scene e) (as_path draws (e_path e))) = Ok Q /\
    get_shortest_path 1 sq_acc pq to32 Q "dijkstra" (Some ones7) = Ok (GspOk rows c).

Lemma plan_cases draws e : let e' := fst (plan_ draws e) in
  e_robot e' = fst (columns_ (e_robot e) (e_scene e) (as_path draws (e_path e))) /\ e_scene e' = e_scene e /\ e_paths e' = e_paths e /\ e_path e' = e_path e /\
  ((snd (plan_ draws e) <> Ok tt /\ e_solution e' = e_solution e) \/
   (snd (plan_ draws e) = Ok tt /\ exists rows, computed e draws rows /\ e_solution e' = Some rows)).
Proof.
  cbv zeta. unfold plan, computed. cbn [log e_robot e_scene e_path]. destruct (columns_ (e_robot e) (e_scene e) (as_path draws (e_path e))) as [o q]. cbn [fst snd].
  destruct q as [Q|x|].
  2,3: cbn [set_robot log e_robot e_scene e_paths e_path e_solution fst snd]; repeat (split; [reflexivity|]); left; split; [discriminate|reflexivity].
  destruct (get_shortest_path 1 sq_acc pq to32 Q "dijkstra" (Some [1; 1; 1; 1; 1; 1; 1])) as [[|rows c]|x|] eqn:E;
    cbn [set_robot log e_robot e_scene e_paths e_path e_solution fst snd]; repeat (split; [reflexivity|]).
  1,3,4: left; split; [discriminate|reflexivity].
  right. split; auto. exists rows. split; auto. exists Q, c. auto.
Qed.
Lemma setup_fields e : let e' := fst (plot_setup get put e) in
  e_robot e' = put (e_robot e) (fst (robot_plot (get (e_robot e)) [0; 0; 1.5; 0; 0; 0; 0])) /\
  e_scene e' = e_scene e /\ e_paths e' = e_paths e /\ e_path e' = e_path e /\ e_solution e' = e_solution e.
Proof. cbv zeta. unfold plot_setup. destruct (robot_plot (get (e_robot e)) [0; 0; 1.5; 0; 0; 0; 0]) as [r p]. cbn. auto. Qed.
Lemma scene_cases e : let e' := fst (load_scene get put scene_at e) in
  e_paths e' = e_paths e /\ e_path e' = e_path e /\ e_solution e' = e_solution e /\
  (e' = e \/ (exists sc, scene_at (full_name e (e_filename e)) = Ok sc /\ e_scene e' = Some sc /\ e_robot e' = put (e_robot e) (fst (robot_plot (get (e_robot e)) [0; 0; 1.5; 0; 0; 0; 0])))).
Proof.
  cbv zeta. unfold load_scene. destruct (scene_at (full_name e (e_filename e))) as [sc| |]; cbn [fst]; auto.
  match goal with |- context [plot_setup get put ?x] => destruct (setup_fields x) as (A & B & C & D & E); destruct (plot_setup get put x) as [e' r] end. cbn in *.
  split; auto. split; auto. split; auto. right. exists sc. auto.
Qed.
Lemma paths_cases e : let e' := fst (load_paths get put paths_at e) in e_scene e' = e_scene e /\ e_solution e' = e_solution e /\
  (e_robot e' = e_robot e \/ e_robot e' = put (e_robot e) (fst (robot_plot (get (e_robot e)) [0; 0; 1.5; 0; 0; 0; 0]))) /\
  (e_path e' = e_path e \/ exists ps, paths_at (full_name e (e_paths_filename e)) = Ok ps /\ In (e_path e') ps).
Proof.
  cbv zeta. unfold load_paths. destruct (paths_at (full_name e (e_paths_filename e))) as [ps| |]; cbn [fst]; auto.
  destruct (py_index ps 0) as [p| |] eqn:E0; cbn; auto.
  match goal with |- context [plot_setup get put ?x] => destruct (setup_fields x) as (A & B & C & D & E); destruct (plot_setup get put x) as [e' r] end. cbn in *.
  split; auto. split; auto. split; auto. right. exists ps. split; auto. rewrite D. apply py_index_Ok in E0. eapply nth_error_In; eauto.
Qed.
Lemma show_cases e : let e' := fst (show_path get put e) in e_scene e' = e_scene e /\ e_path e' = e_path e /\ e_solution e' = e_solution e /\
  (e_robot e' = e_robot e \/ e_robot e' = put (e_robot e) (fst (robot_plot (get (e_robot e)) [0; 0; 1.5; 0; 0; 0; 0]))).
Proof.
  cbv zeta. unfold show_path. destruct (e_solution e) eqn:Es; [|cbn; auto].
  destruct (setup_fields e) as (A & B & C & D & E); destruct (plot_setup get put e) as [e' r]. cbn in *. rewrite E. auto.
Qed.

(** the solution changes by a successful plan only *)
Lemma step_solution e v : let e' := fst (step_ e v) in
  (e_solution e' = e_solution e /\ forall draws, v = Plan draws -> snd (step_ e v) <> Ok tt) \/
  (exists draws rows, v = Plan draws /\ snd (step_ e v) = Ok tt /\ computed e draws rows /\ e_solution e' = Some rows /\ e_scene e' = e_scene e /\ e_path e' = e_path e).
Proof.
  cbv zeta. destruct v as [name|name| | |draws|]; cbn [step].
  - left. split; [reflexivity|discriminate].
  - left. split; [reflexivity|discriminate].
  - left. split; [apply (scene_cases e)|discriminate].
  - left. split; [apply (paths_cases e)|discriminate].
  - destruct (plan_cases draws e) as (_ & B & _ & D & [[P S]|[P (rows & Q & S)]]).
    + left. split; auto.
    + right. exists draws, rows. repeat (split; [auto|]). auto.
  - left. pose proof (show_cases e) as H. destruct (show_path get put e) as [e' r]. split; [apply H|discriminate].
Qed.
Lemma run_app e vs vs' : run_ e (vs ++ vs') = run_ (run_ e vs) vs'.
Proof. apply fold_left_app. Qed.
Definition no_load (v : event) : Prop := v <> LoadScene /\ v <> LoadPaths.
Lemma step_keep e v : no_load v -> e_scene (fst (step_ e v)) = e_scene e /\ e_path (fst (step_ e v)) = e_path e.
Proof.
  intros [A B]. destruct v as [name|name| | |draws|]; cbn [step]; try congruence; auto.
  - destruct (plan_cases draws e) as (_ & C & _ & D & _). auto.
  - pose proof (show_cases e) as H. destruct (show_path get put e) as [e' r]. cbn in *. tauto.
Qed.
Lemma run_keep vs : forall e, Forall no_load vs -> e_scene (run_ e vs) = e_scene e /\ e_path (run_ e vs) = e_path e.
Proof.
  induction vs as [|v vs IH]; intros e H; [auto|]. inversion H as [|? ? H1 H2]; subst. change (run_ e (v :: vs)) with (run_ (fst (step_ e v)) vs).
  destruct (IH (fst (step_ e v)) H2) as [A B]. destruct (step_keep e v H1). split; congruence.
Qed.
(** no successful plan in vs, run from e *)
Definition no_plan (e : editor O) (vs : list event) : Prop :=
  forall us draws ws, vs = us ++ Plan draws :: ws -> snd (step_ (run_ e us) (Plan draws)) <> Ok tt.
Lemma solution_origin e0 vs rows : e_solution e0 = None -> e_solution (run_ e0 vs) = Some rows ->
  exists before draws after, vs = before ++ Plan draws :: after /\ snd (step_ (run_ e0 before) (Plan draws)) = Ok tt /\
    computed (run_ e0 before) draws rows /\ no_plan (run_ e0 (before ++ [Plan draws])) after.
Proof.
  intros E0. induction vs as [|v vs IH] using rev_ind; [cbn; congruence|]. rewrite run_app. cbn [run fold_left]. intros H.
  destruct (step_solution (run_ e0 vs) v) as [[A B]|(draws & rows' & -> & A & B & C & _)].
  - rewrite A in H. destruct (IH H) as (before & draws & after & E1 & E2 & E3 & E4). subst vs. exists before, draws, (after ++ [v]).
    rewrite <- app_assoc. split; [reflexivity|]. split; auto. split; auto. intros us d ws Eu.
    destruct ws as [|w ws] using rev_ind.
    + apply app_inj_tail in Eu. destruct Eu as [<- Ev]. rewrite <- run_app, <- app_assoc. cbn [app]. rewrite <- Ev. apply (B d Ev).
    + clear IHws. rewrite app_comm_cons, app_assoc in Eu. apply app_inj_tail in Eu. destruct Eu as [Eu _]. apply (E4 us d ws Eu).
  - rewrite C in H. injection H as ->. exists vs, draws, []. split; auto. split; auto. split; auto. intros us d ws Eu. destruct us; discriminate.
Qed.

(** ** Without a scene *)
Lemma no_scene_cases (call : O * res (option (list (list R)))) : match snd (no_scene get put call) with Ok (Some (_ :: _)) => False | _ => True end.
Proof. destruct call as [o [[[|q qs]|]| |]]; cbn; auto. Qed.
Lemma no_scene_one sc call : match snd (solve_one get put prim sc (no_scene get put call) []) with Ok (_ :: _) => False | _ => True end.
Proof. pose proof (no_scene_cases call) as H. destruct (no_scene get put call) as [o [[[|q qs]|]| |]]; cbn [snd] in H; [exact I|contradiction|exact I|exact I|exact I]. Qed.
Lemma no_scene_frames sc Ts : forall o, match snd (solve_frames get put prim (fun o T => no_scene get put (ik6 o T)) sc Ts o []) with Ok (_ :: _) => False | _ => True end.
Proof.
  induction Ts as [|T Ts IH]; intros o; cbn [solve_frames]; [exact I|]. pose proof (no_scene_one sc (ik6 o T)) as H.
  destruct (solve_one get put prim sc (no_scene get put (ik6 o T)) []) as [o' [[|q l]| |]]; cbn [snd] in H; [apply IH; auto|contradiction|exact I|exact I].
Qed.
Lemma no_scene_grid sc samples path : forall o Q, snd (grid_columns get put prim to32 (fun o T => no_scene get put (ik6 o T)) samples sc path o) = Ok Q -> Forall (eq QNil) Q.
Proof.
  induction path as [|tp path IH]; intros o Q; cbn [grid_columns]; [intros E; injection E as <-; constructor|]. destruct (samples tp) as [Ts| |]; try discriminate.
  pose proof (no_scene_frames sc Ts o) as H. destruct (solve_frames get put prim _ sc Ts o []) as [o' [[|q l]| |]]; cbn [snd] in *; try discriminate; try contradiction.
  cbn [pack]. specialize (IH o'). destruct (grid_columns get put prim to32 _ samples sc path o') as [o'' [Q'| |]]; cbn [snd bind] in *; try discriminate.
  intros E. injection E as <-. constructor; auto.
Qed.
Lemma no_scene_fixed sc s qf : forall o, match snd (solve_fixed get put prim (fun o T g => no_scene get put (ik7 o T g)) sc s qf o []) with Ok (_ :: _) => False | _ => True end.
Proof.
  induction qf as [|g qf IH]; intros o; cbn [solve_fixed]; [exact I|]. destruct s as [T|]; [|exact I]. pose proof (no_scene_one sc (ik7 o T g)) as H.
  destruct (solve_one get put prim sc (no_scene get put (ik7 o T g)) []) as [o' [[|q l]| |]]; cbn [snd] in H; [apply IH; auto|contradiction|exact I|exact I].
Qed.
Lemma no_scene_sframes sc qf Ts : forall o q_sol, match q_sol with Some (_ :: _) => False | _ => True end ->
  match snd (simple_frames get put prim (fun o T g => no_scene get put (ik7 o T g)) sc Ts qf o q_sol) with Ok (Some (_ :: _)) => False | _ => True end.
Proof.
  induction Ts as [|T Ts IH]; intros o q_sol H0; cbn [simple_frames]; [destruct q_sol; exact H0|]. pose proof (no_scene_fixed sc T qf o) as H.
  destruct (solve_fixed get put prim _ sc T qf o []) as [o' [[|q l]| |]]; cbn [snd] in H; [apply IH; auto|contradiction|exact I|exact I].
Qed.
Lemma no_scene_simple sc disc qf path : forall o q_sol Q, match q_sol with Some (_ :: _) => False | _ => True end ->
  snd (simple_columns get put prim to32 (fun o T g => no_scene get put (ik7 o T g)) disc sc path qf o q_sol) = Ok Q -> Forall (eq QNil) Q.
Proof.
  induction path as [|tp path IH]; intros o q_sol Q H0; cbn [simple_columns]; [intros E; injection E as <-; constructor|]. destruct (disc tp) as [Ts| |]; try discriminate.
  pose proof (no_scene_sframes sc qf Ts o q_sol H0) as H. destruct (simple_frames get put prim _ sc Ts qf o q_sol) as [o' [[[|q l]|]| |]]; cbn [snd] in *; try discriminate; try contradiction.
  cbn [pack]. specialize (IH o' (Some [])). destruct (simple_columns get put prim to32 _ disc sc path qf o' (Some [])) as [o'' [Q'| |]]; cbn [snd bind] in *; try discriminate.
  intros E. injection E as <-. constructor; auto.
Qed.
Lemma computed_scene e draws rows : computed e draws rows -> e_scene e <> None.
Proof.
  intros (Q & c & E & G) Z. rewrite Z in E. assert (H : Forall (eq QNil) Q).
  { unfold columns in E. destruct (6 <? ndof (get (e_robot e)))%nat; [eapply no_scene_simple; [|exact E]; exact I|eapply no_scene_grid; exact E]. }
  destruct Q as [|x Q]; [discriminate|]. inversion H; subst. discriminate.
Qed.
Lemma setup_none e : e_scene e = None -> snd (plot_setup get put e) <> Ok tt.
Proof. intros Z. unfold plot_setup. destruct (robot_plot _ _) as [r p]. cbn [snd]. rewrite Z. destruct p; discriminate. Qed.
Lemma without_scene e : e_scene e = None -> snd (step_ e LoadPaths) <> Ok tt /\ forall draws, snd (step_ e (Plan draws)) <> Ok tt.
Proof.
  intros Z. cbn [step]. split.
  - unfold load_paths. destruct (paths_at _) as [ps| |]; try discriminate. destruct (py_index ps 0); try discriminate. apply setup_none. exact Z.
  - intros draws. destruct (plan_cases draws e) as (_ & _ & _ & _ & [[P _]|[_ (rows & Q & _)]]); auto. exfalso. eapply computed_scene; eauto.
Qed.
(** ** A path with a position tolerance *)
Lemma mapM_raise {A B} (f : A -> res B) l x : In x l -> (forall y, f x <> Ok y) -> forall y, mapM f l <> Ok y.
Proof.
  intros I H. induction l as [|a l IH]; intros y; [destruct I|]. cbn [mapM]. destruct I as [->|I].
  - destruct (f x) eqn:E; cbn; [exfalso; eapply H; eauto|discriminate|discriminate].
  - destruct (f a); cbn; try discriminate. specialize (IH I). destruct (mapM f l) as [z| |]; cbn; try discriminate. intros _. eapply IH; eauto.
Qed.
Definition has_pos (ps : list (list ppt)) : Prop := exists path p, In path ps /\ In (Io.PPos p) path.
Lemma setup_pos e : has_pos (e_paths e) -> snd (plot_setup get put e) <> Ok tt.
Proof.
  intros (path & p & I1 & I2). unfold plot_setup. destruct (robot_plot _ _) as [r l]. cbn [snd]. destruct l; try discriminate. cbn [bind]. destruct (e_scene e) as [sc|]; try discriminate. cbn [bind].
  destruct (coll_plot sc None); try discriminate. cbn [bind]. unfold drawn_frames.
  match goal with |- context [mapM ?f ?l] => pose proof (mapM_raise f l path I1) as H; destruct (mapM f l) as [y| |] eqn:E; cbn; try discriminate end.
  exfalso. eapply (H ltac:(intros z; apply (mapM_raise _ _ _ I2); cbn; discriminate)). reflexivity.
Qed.
Lemma with_position e : has_pos (e_paths e) -> snd (step_ e LoadScene) <> Ok tt /\ (e_solution e <> None -> snd (step_ e ShowPath) <> Ok tt).
Proof.
  intros H. cbn [step]. split.
  - unfold load_scene. destruct (scene_at _); try discriminate. apply setup_pos. exact H.
  - intros N. unfold show_path. destruct (e_solution e); [|congruence]. pose proof (setup_pos e H) as P. destruct (plot_setup get put e) as [e' r]. cbn [snd] in *. destruct r as [[]| |]; cbn; try discriminate. congruence.
Qed.
Lemma load_position e ps : paths_at (full_name e (e_paths_filename e)) = Ok ps -> has_pos ps -> snd (step_ e LoadPaths) <> Ok tt.
Proof. intros E H. cbn [step]. unfold load_paths. rewrite E. destruct (py_index ps 0); try discriminate. apply setup_pos. exact H. Qed.

(** ** What works *)
(** tp.p_nominal exists and is a pose *)
Definition drawable (p : ppt) : Prop := match p with Io.PFree x => (3 <= length x)%nat | Io.PPos _ => False | Io.PEuler e => (6 <= length (e_nominal e))%nat end.
Lemma drawable_frame p : drawable p -> exists T, (x <- p_nominal p ;; point_to_frame x) = Ok T.
Proof.
  assert (H6 : forall x, (6 <= length x)%nat -> exists T, point_to_frame x = Ok T) by (intros [|? [|? [|? [|? [|? [|? ?]]]]]]; cbn; intros; try lia; eauto).
  destruct p as [x|x|x]; cbn; intros H; [apply H6; rewrite app_length; cbn; lia|destruct H|apply H6; auto].
Qed.
Lemma mapM_total {A B} (f : A -> res B) l : Forall (fun x => exists y, f x = Ok y) l -> exists y, mapM f l = Ok y.
Proof. induction 1 as [|x l (y & E) _ (ys & IH)]; cbn [mapM]; [eauto|]. rewrite E, IH. cbn. eauto. Qed.
Lemma setup_ok e sc : good (get (e_robot e)) -> joints_ok (get (e_robot e)) -> (1 <= ndof (get (e_robot e)) <= 7)%nat -> e_scene e = Some sc -> Forall (Forall drawable) (e_paths e) ->
  snd (plot_setup get put e) = Ok tt.
Proof.
  intros G J N S D. unfold plot_setup. pose proof (robot_plot_pic (get (e_robot e)) [0; 0; 1.5; 0; 0; 0; 0] G J N) as E. destruct (robot_plot _ _) as [r p]. cbn [snd] in *. subst p. cbn [bind]. rewrite S. cbn [bind].
  rewrite coll_plot_pic. cbn [bind]. unfold drawn_frames. match goal with |- context [mapM ?f ?l] => destruct (mapM_total f l) as (y & ->) end; auto.
  eapply Forall_impl; [|exact D]. intros path H. apply mapM_total. eapply Forall_impl; [|exact H]. apply drawable_frame.
Qed.

(** ** What a run leaves of the robot *)
Section Keep.
Context (Inv : O -> Prop).
Context (Hgood : forall o, Inv o -> good (get o)).
Context (Hput : forall o r, Inv o -> good r -> reset r = reset (get o) -> Inv (put o r)).
Context (H6 : forall o T, Inv o -> Inv (fst (ik6 o T))) (H7 : forall o T g, Inv o -> Inv (fst (ik7 o T g))).
Lemma inv_put o q : Inv o -> Inv (put o (fst (fk_all_links (get o) q))).
Proof. intros I. destruct (frames_fst (get o) q (Hgood o I)). apply Hput; auto. Qed.
Lemma inv_plot o q : Inv o -> Inv (put o (fst (robot_plot (get o) q))).
Proof.
  intros I. unfold robot_plot. destruct (match r_base (get o) with Some b => coll_plot b None | None => Ok [] end).
  - pose proof (inv_put o q I) as H. destruct (fk_all_links (get o) q). exact H.
  - cbn. apply Hput; auto.
  - cbn. apply Hput; auto.
Qed.
Lemma inv_none call : Inv (fst call) -> Inv (fst (no_scene get put call)).
Proof. destruct call as [o [[[|q qs]|]| |]]; cbn; auto. intros I. destruct (r_base (get o)); auto. apply inv_put. auto. Qed.
Lemma inv_check sc qs : forall o acc, Inv o -> Inv (fst (check_sols get put prim sc qs o acc)).
Proof.
  induction qs as [|q qs IH]; intros o acc I; cbn [check_sols]; auto. destruct (robot_collision_fst prim (get o) q sc (Hgood o I)) as [G E].
  destruct (robot_collision prim (get o) q sc) as [r [[]| |]]; cbn [fst] in *; auto.
Qed.
Lemma inv_one sc call acc : Inv (fst call) -> Inv (fst (solve_one get put prim sc call acc)).
Proof. destruct call as [o [[qs|]| |]]; cbn; auto. apply inv_check. Qed.
Lemma inv_grid ik sc samples : (forall o T, Inv o -> Inv (fst (ik o T))) -> forall path o, Inv o -> Inv (fst (grid_columns get put prim to32 ik samples sc path o)).
Proof.
  intros Hik. assert (F : forall Ts o acc, Inv o -> Inv (fst (solve_frames get put prim ik sc Ts o acc))).
  { induction Ts as [|T Ts IH]; intros o acc I; cbn [solve_frames]; auto. pose proof (inv_one sc (ik o T) acc (Hik o T I)) as H. destruct (solve_one get put prim sc (ik o T) acc) as [o' [l| |]]; cbn [fst] in *; auto. }
  induction path as [|tp path IH]; intros o I; cbn [grid_columns]; auto. destruct (samples tp) as [Ts| |]; auto. pose proof (F Ts o [] I) as H. destruct (solve_frames get put prim ik sc Ts o []) as [o' [l| |]]; cbn [fst] in *; auto.
  destruct (pack to32 l); auto. specialize (IH o' H). destruct (grid_columns get put prim to32 ik samples sc path o'). exact IH.
Qed.
Lemma inv_simple ik sc disc qf : (forall o T g, Inv o -> Inv (fst (ik o T g))) -> forall path o q_sol, Inv o -> Inv (fst (simple_columns get put prim to32 ik disc sc path qf o q_sol)).
Proof.
  intros Hik. assert (F : forall s l o acc, Inv o -> Inv (fst (solve_fixed get put prim ik sc s l o acc))).
  { intros s. induction l as [|g l IH]; intros o acc I; cbn [solve_fixed]; auto. destruct s as [T|]; auto. pose proof (inv_one sc (ik o T g) acc (Hik o T g I)) as H. destruct (solve_one get put prim sc (ik o T g) acc) as [o' [l'| |]]; cbn [fst] in *; auto. }
  assert (F2 : forall Ts o q_sol, Inv o -> Inv (fst (simple_frames get put prim ik sc Ts qf o q_sol))).
  { induction Ts as [|s Ts IH]; intros o q_sol I; cbn [simple_frames]; auto. pose proof (F s qf o [] I) as H. destruct (solve_fixed get put prim ik sc s qf o []) as [o' [l'| |]]; cbn [fst] in *; auto. }
  induction path as [|tp path IH]; intros o q_sol I; cbn [simple_columns]; auto. destruct (disc tp) as [Ts| |]; auto. pose proof (F2 Ts o q_sol I) as H. destruct (simple_frames get put prim ik sc Ts qf o q_sol) as [o' [[l|]| |]]; cbn [fst] in *; auto.
  destruct (pack to32 l); auto. specialize (IH o' (Some l) H). destruct (simple_columns get put prim to32 ik disc sc path qf o' (Some l)). exact IH.
Qed.
Lemma inv_columns o sc path : Inv o -> Inv (fst (columns_ o sc path)).
Proof.
  intros I. unfold columns. destruct (6 <? ndof (get o))%nat, sc as [sc|].
  - apply inv_simple; auto.
  - apply inv_simple; auto. intros o' T g I'. apply inv_none. auto.
  - apply inv_grid; auto.
  - apply inv_grid; auto. intros o' T I'. apply inv_none. auto.
Qed.
Lemma inv_step e v : Inv (e_robot e) -> Inv (e_robot (fst (step_ e v))).
Proof.
  intros I. destruct v as [name|name| | |draws|]; cbn [step]; auto.
  - destruct (scene_cases e) as (_ & _ & _ & [->|(sc & _ & _ & ->)]); auto. apply inv_plot. auto.
  - destruct (paths_cases e) as (_ & _ & [->| ->] & _); auto. apply inv_plot. auto.
  - destruct (plan_cases draws e) as (-> & _). apply inv_columns. auto.
  - pose proof (show_cases e) as H. destruct (show_path get put e) as [e' r]. destruct H as (_ & _ & _ & [H|H]); cbn in *; rewrite H; auto. apply inv_plot. auto.
Qed.
Lemma inv_run vs : forall e, Inv (e_robot e) -> Inv (e_robot (run_ e vs)).
Proof. induction vs as [|v vs IH]; intros e I; auto. apply (IH (fst (step_ e v))). apply inv_step. auto. Qed.
End Keep.
End Ed.
