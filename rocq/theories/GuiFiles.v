(** * The task editor: the files it reads, the frames it draws, the messages it logs. *)
From Coq Require Import String List Arith Bool Lia Reals Lra ZArith.
From Verif Require Import PyBase Cost SpecPath GraphCommon CppGraph Mat Util Geometry Robot Ik Path PathProofs Planning Plot Io Pipeline Gui GuiProofs GuiKuka.
Import ListNotations.
Local Open Scope R_scope.

(** the name last submitted, [d] if none was *)
Fixpoint last_file (d : string) (vs : list event) : string :=
  match vs with [] => d | SubmitFileName n :: vs => last_file n vs | _ :: vs => last_file d vs end.
Fixpoint last_paths_file (d : string) (vs : list event) : string :=
  match vs with [] => d | SubmitPathFileName n :: vs => last_paths_file n vs | _ :: vs => last_paths_file d vs end.
(** T is the frame of the point: its position with no rotation if the orientation is free, the nominal values if they have tolerances *)
Definition shown (tp : ppt) (T : mat4) : Prop :=
  (exists x y z, tp = Io.PFree [x; y; z] /\ T = M4 mid (V3 x y z) v0 1) \/
  (exists p1 p2 p3 a1 a2 a3 e, new_eulerpt [p1; p2; p3] [a1; a2; a3] = Ok e /\ tp = Io.PEuler e /\
     T = M4 (rot_xyz (nominal_of a1) (nominal_of a2) (nominal_of a3)) (V3 (nominal_of p1) (nominal_of p2) (nominal_of p3)) v0 1).

(** the number of Plan and of ShowPath events *)
Definition plans (vs : list event) : nat := length (filter (fun v => match v with Plan _ => true | _ => false end) vs).
Definition shows (vs : list event) : nat := length (filter (fun v => match v with ShowPath => true | _ => false end) vs).

Lemma rot_xyz_0 : rot_xyz 0 0 0 = mid.
Proof. unfold rot_xyz, rot_x, rot_y, rot_z, mid, mmul. cbn. rewrite cos_0, sin_0. f_equal; lra. Qed.
Lemma shown_frame tp T : shown tp T -> (p <- p_nominal tp ;; point_to_frame p) = Ok T.
Proof.
  intros [(x & y & z & -> & ->)|(p1 & p2 & p3 & a1 & a2 & a3 & e & H & -> & ->)].
  - cbn. rewrite rot_xyz_0. reflexivity.
  - cbn in H. injection H as <-. reflexivity.
Qed.
Lemma shown_path path Ts : Forall2 shown path Ts -> mapM (fun tp => p <- p_nominal tp ;; point_to_frame p) path = Ok Ts.
Proof. induction 1 as [|tp T path Ts H _ IH]; [reflexivity|]. cbn [mapM]. rewrite (shown_frame _ _ H). cbn [bind]. rewrite IH. reflexivity. Qed.
Lemma shown_frames paths Tss : Forall2 (Forall2 shown) paths Tss -> drawn_frames paths = Ok Tss.
Proof. unfold drawn_frames. induction 1 as [|p Ts ps Tss H _ IH]; [reflexivity|]. cbn [mapM]. rewrite (shown_path _ _ H). cbn [bind]. rewrite IH. reflexivity. Qed.

Lemma split_last {A} (l after l' : list A) x y : l ++ [x] = l' ++ y :: after ->
  (after = [] /\ l = l' /\ x = y) \/ exists after', after = after' ++ [x] /\ l = l' ++ y :: after'.
Proof.
  destruct after as [|z after _] using rev_ind; intros E.
  - left. apply app_inj_tail in E. tauto.
  - right. rewrite app_comm_cons, app_assoc in E. apply app_inj_tail in E. destruct E as [-> ->]. eauto.
Qed.

Section Files.
Context {O : Type} (get : O -> robot) (put : O -> robot -> O).
Context (ik6 : O -> mat4 -> O * res (option (list (list R)))) (ik7 : O -> mat4 -> R -> O * res (option (list (list R)))).
Context (prim : shape -> mat3 -> vec3 -> shape -> mat3 -> vec3 -> bool) (to32 : R -> R).
Context (K : CostStruct) (sq_acc : K -> R -> R -> R -> K) (pq : pqueue K R).
Context (ypr : quat -> vec3) (fuel : nat).
Context (scene_at : string -> res coll) (paths_at : string -> res (list (list ppt))).
Local Notation step_ := (step get put ik6 ik7 prim to32 sq_acc pq ypr fuel scene_at paths_at).
Local Notation run_ := (run get put ik6 ik7 prim to32 sq_acc pq ypr fuel scene_at paths_at).
Local Notation columns_ := (columns get put ik6 ik7 prim to32 ypr fuel).
Local Notation names_step := (step_names get put ik6 ik7 prim to32 sq_acc pq ypr fuel scene_at paths_at).
Local Notation default := "scenes/path_in_box.urdf"%string.
Local Notation pdefault := "tasks/path_in_box.json"%string.

Lemma run_names vs : forall e : editor O, e_wdir (run_ e vs) = e_wdir e /\ e_filename (run_ e vs) = last_file (e_filename e) vs /\ e_paths_filename (run_ e vs) = last_paths_file (e_paths_filename e) vs.
Proof.
  induction vs as [|v vs IH]; intros e; [auto|]. change (run_ e (v :: vs)) with (run_ (fst (step_ e v)) vs). destruct (IH (fst (step_ e v))) as (A & B & C).
  rewrite A, B, C. pose proof (names_step e v) as H. destruct v as [n|n| | |draws|]; cbn [last_file last_paths_file].
  1,2: cbn; auto.
  all: cbn [step] in *; unfold names in H; injection H as H1 H2 H3; rewrite H1, H2, H3; auto.
Qed.
Lemma editor_names robot wdir vs : let e := run_ (new_editor robot wdir) vs in
  e_wdir e = wdir /\ e_filename e = last_file default vs /\ e_paths_filename e = last_paths_file pdefault vs.
Proof. apply run_names. Qed.

(** [read e vs]: the file of the last LoadScene of vs that found one *)
Lemma step_scene e v sc : e_scene (fst (step_ e v)) = Some sc ->
  (v = LoadScene /\ scene_at (full_name e (e_filename e)) = Ok sc) \/
  (e_scene e = Some sc /\ (v = LoadScene -> forall sc', scene_at (full_name e (e_filename e)) <> Ok sc')).
Proof.
  destruct v as [n|n| | |draws|]; cbn [step]; try (cbn; intros H; right; split; [exact H|discriminate]).
  - unfold load_scene. destruct (scene_at (full_name e (e_filename e))) as [s| |] eqn:E; cbn [fst]; [|right; split; [auto|congruence]..].
    match goal with |- context [plot_setup get put ?x] => destruct (setup_fields get put x) as (_ & B & _) end. rewrite B. cbn. intros H. injection H as ->. auto.
  - intros H. right. split; [|discriminate]. destruct (paths_cases get put paths_at e) as (A & _). rewrite <- H. symmetry. exact A.
  - intros H. right. split; [|discriminate]. destruct (plan_cases get put ik6 ik7 prim to32 sq_acc pq ypr fuel draws e) as (_ & A & _). rewrite <- H. symmetry. exact A.
  - intros H. right. split; [|discriminate]. pose proof (show_cases get put e) as A. destruct (show_path get put e) as [e' r]. cbn [fst] in *. rewrite <- H. symmetry. apply A.
Qed.
Lemma step_read e v sc : v = LoadScene -> scene_at (full_name e (e_filename e)) = Ok sc -> e_scene (fst (step_ e v)) = Some sc.
Proof.
  intros ->. cbn [step]. unfold load_scene. intros ->. match goal with |- context [plot_setup get put ?x] => destruct (setup_fields get put x) as (_ & B & _) end. rewrite B. reflexivity.
Qed.
Lemma step_unread e v sc : (v = LoadScene -> forall sc', scene_at (full_name e (e_filename e)) <> Ok sc') -> e_scene e = Some sc -> e_scene (fst (step_ e v)) = Some sc.
Proof.
  intros N H. destruct v as [n|n| | |draws|]; cbn [step]; auto.
  - unfold load_scene. destruct (scene_at (full_name e (e_filename e))) as [s| |] eqn:E; auto. exfalso. eapply N; eauto.
  - destruct (paths_cases get put paths_at e) as (A & _). congruence.
  - destruct (plan_cases get put ik6 ik7 prim to32 sq_acc pq ypr fuel draws e) as (_ & A & _). congruence.
  - pose proof (show_cases get put e) as A. destruct (show_path get put e) as [e' r]. cbn [fst] in *. rewrite <- H. apply A.
Qed.
Lemma file_at robot wdir vs : let e := run_ (new_editor robot wdir) vs in full_name e (e_filename e) = (wdir ++ "/" ++ last_file default vs)%string.
Proof. cbv zeta. destruct (editor_names robot wdir vs) as (A & B & _). unfold full_name. rewrite A, B. reflexivity. Qed.
Lemma scene_read robot wdir vs sc : e_scene (run_ (new_editor robot wdir) vs) = Some sc <->
  exists before after, vs = before ++ LoadScene :: after /\ scene_at (wdir ++ "/" ++ last_file default before)%string = Ok sc /\
    forall us ws sc', after = us ++ LoadScene :: ws -> scene_at (wdir ++ "/" ++ last_file default (before ++ LoadScene :: us))%string <> Ok sc'.
Proof.
  revert sc. induction vs as [|v vs IH] using rev_ind; intros sc.
  - split; [discriminate|]. intros (b & a & E & _). destruct b; discriminate.
  - rewrite run_app. change (run_ (run_ (new_editor robot wdir) vs) [v]) with (fst (step_ (run_ (new_editor robot wdir) vs) v)). split.
    + intros H. apply step_scene in H. rewrite file_at in H. destruct H as [[-> H]|[H N]].
      * exists vs, []. split; auto. split; auto. intros us ws sc' E. destruct us; discriminate.
      * apply IH in H. destruct H as (b & a & -> & H1 & H2). exists b, (a ++ [v]). rewrite <- app_assoc. split; [reflexivity|]. split; auto. intros us ws sc' E.
        apply split_last in E. destruct E as [(_ & <- & E)|(a' & -> & E)]; [apply N; auto|eapply H2; eauto].
    + intros (b & a & E & H1 & H2). apply split_last in E. destruct E as [(-> & <- & ->)|(a' & -> & ->)].
      * apply step_read; auto. rewrite file_at. exact H1.
      * apply step_unread.
        { rewrite file_at. intros -> sc'. apply (H2 a' []). reflexivity. }
        apply IH. exists b, a'. split; auto. split; auto. intros us ws sc' ->. apply (H2 us (ws ++ [v])). rewrite <- app_assoc. reflexivity.
Qed.

(** ** paths *)
Definition has_path (e : editor O) (ps : list (list ppt)) : Prop := e_paths e = ps /\ forall p, nth_error ps 0 = Some p -> e_path e = p.
Lemma step_paths e v : (v = LoadPaths /\ exists ps, paths_at (full_name e (e_paths_filename e)) = Ok ps /\ has_path (fst (step_ e v)) ps /\ (ps = [] -> e_path (fst (step_ e v)) = e_path e)) \/
  (e_paths (fst (step_ e v)) = e_paths e /\ e_path (fst (step_ e v)) = e_path e /\ (v = LoadPaths -> forall ps, paths_at (full_name e (e_paths_filename e)) <> Ok ps)).
Proof.
  destruct v as [n|n| | |draws|]; cbn [step]; try (right; cbn; split; [reflexivity|split; [reflexivity|discriminate]]).
  - right. destruct (scene_cases get put scene_at e) as (A & B & _). split; auto. split; auto. discriminate.
  - unfold load_paths. destruct (paths_at (full_name e (e_paths_filename e))) as [ps| |] eqn:E; [|right; split; [auto|split; [auto|congruence]]..].
    left. split; auto. exists ps. split; auto. destruct ps as [|p ps]; cbn [py_index nth_error].
    + split; [split; [reflexivity|discriminate]|reflexivity].
    + match goal with |- context [plot_setup get put ?x] => destruct (setup_fields get put x) as (_ & _ & C & D & _) end. split; [|discriminate]. split; [exact C|]. intros q Eq. injection Eq as <-. exact D.
  - right. destruct (plan_cases get put ik6 ik7 prim to32 sq_acc pq ypr fuel draws e) as (_ & _ & A & B & _). split; auto. split; auto. discriminate.
  - right. pose proof (show_cases get put e) as A. unfold show_path in *. destruct (e_solution e) eqn:Es; [|cbn; repeat (split; [reflexivity|]); discriminate].
    destruct (setup_fields get put e) as (_ & _ & C & D & _). destruct (plot_setup get put e) as [e' r]. cbn [fst] in *. split; auto. split; auto. discriminate.
Qed.
Lemma pfile_at robot wdir vs : let e := run_ (new_editor robot wdir) vs in full_name e (e_paths_filename e) = (wdir ++ "/" ++ last_paths_file pdefault vs)%string.
Proof. cbv zeta. destruct (editor_names robot wdir vs) as (A & _ & B). unfold full_name. rewrite A, B. reflexivity. Qed.
Lemma paths_read robot wdir vs ps : ps <> [] -> (e_paths (run_ (new_editor robot wdir) vs) = ps <->
  exists before after, vs = before ++ LoadPaths :: after /\ paths_at (wdir ++ "/" ++ last_paths_file pdefault before)%string = Ok ps /\
    forall us ws ps', after = us ++ LoadPaths :: ws -> paths_at (wdir ++ "/" ++ last_paths_file pdefault (before ++ LoadPaths :: us))%string <> Ok ps').
Proof.
  intros NE. induction vs as [|v vs IH] using rev_ind.
  - split; [cbn; congruence|]. intros (b & a & E & _). destruct b; discriminate.
  - rewrite run_app. change (run_ (run_ (new_editor robot wdir) vs) [v]) with (fst (step_ (run_ (new_editor robot wdir) vs) v)).
    pose proof (step_paths (run_ (new_editor robot wdir) vs) v) as S. rewrite pfile_at in S. split.
    + intros H. destruct S as [(-> & ps' & E & [A _] & _)|(A & _ & N)].
      * exists vs, []. split; auto. split; [rewrite E; congruence|]. intros us ws sc' Eu. destruct us; discriminate.
      * rewrite A in H. apply IH in H. destruct H as (b & a & -> & H1 & H2). exists b, (a ++ [v]). rewrite <- app_assoc. split; [reflexivity|]. split; auto. intros us ws ps' E.
        apply split_last in E. destruct E as [(_ & <- & E)|(a' & -> & E)]; [apply N; auto|eapply H2; eauto].
    + intros (b & a & E & H1 & H2). apply split_last in E. destruct E as [(-> & <- & ->)|(a' & -> & ->)].
      * destruct S as [(_ & ps' & E & [A _] & _)|(_ & _ & N)]; [rewrite A; congruence|]. exfalso. eapply (N eq_refl). exact H1.
      * destruct S as [(-> & ps' & E & _)|(A & _)].
        { exfalso. eapply (H2 a' []); [reflexivity|exact E]. }
        rewrite A. apply IH. exists b, a'. split; auto. split; auto. intros us ws ps' ->. apply (H2 us (ws ++ [v])). rewrite <- app_assoc. reflexivity.
Qed.
Lemma path_first robot wdir vs : (forall name, paths_at name <> Ok []) ->
  let e := run_ (new_editor robot wdir) vs in e_path e = match e_paths e with [] => [] | p :: _ => p end.
Proof.
  intros N. cbv zeta. induction vs as [|v vs IH] using rev_ind; [reflexivity|].
  rewrite run_app. change (run_ (run_ (new_editor robot wdir) vs) [v]) with (fst (step_ (run_ (new_editor robot wdir) vs) v)).
  destruct (step_paths (run_ (new_editor robot wdir) vs) v) as [(_ & ps & E & [A B] & _)|(A & B & _)].
  - rewrite A. destruct ps as [|p ps]; [exfalso; eapply N; eauto|]. apply B. reflexivity.
  - rewrite A, B. exact IH.
Qed.

(** ** messages *)
Lemma step_logged e v : exists n, e_logged (fst (step_ e v)) = (e_logged e + n)%nat /\
  match v with
  | Plan draws => (1 <= n <= 3)%nat /\ ((2 <= n)%nat <-> exists Q, snd (columns_ (e_robot e) (e_scene e) (as_path draws (e_path e))) = Ok Q) /\
                  ((3 <= n)%nat <-> exists Q g, snd (columns_ (e_robot e) (e_scene e) (as_path draws (e_path e))) = Ok Q /\ get_shortest_path 1 sq_acc pq to32 Q "dijkstra" (Some ones7) = Ok g) /\
                  (snd (step_ e v) = Ok tt -> n = 3)%nat
  | ShowPath => n = (if e_solution e then 0 else 1)%nat
  | _ => n = 0%nat
  end.
Proof.
  assert (L : forall e : editor O, e_logged (fst (plot_setup get put e)) = e_logged e) by (intros x; unfold plot_setup; destruct (robot_plot _ _); reflexivity).
  destruct v as [n|n| | |draws|]; cbn [step].
  - exists 0%nat. cbn. lia.
  - exists 0%nat. cbn. lia.
  - exists 0%nat. rewrite Nat.add_0_r. split; auto. unfold load_scene. destruct (scene_at _); auto. rewrite L. reflexivity.
  - exists 0%nat. rewrite Nat.add_0_r. split; auto. unfold load_paths. destruct (paths_at _) as [ps| |]; auto. destruct (py_index ps 0); auto. rewrite L. reflexivity.
  - unfold plan. cbn [log e_robot e_scene e_path]. destruct (columns_ (e_robot e) (e_scene e) (as_path draws (e_path e))) as [o q]. cbn [snd].
    destruct q as [Q|x|].
    + fold ones7. destruct (get_shortest_path 1 sq_acc pq to32 Q "dijkstra" (Some ones7)) as [[|rows c]|x|] eqn:E; cbn [fst snd set_robot log e_logged].
      * exists 3%nat. repeat (split; try lia); eauto; try discriminate.
      * exists 3%nat. repeat (split; try lia); eauto.
      * exists 2%nat. repeat (split; try lia); eauto; try discriminate. intros (Q' & g & E1 & E2). injection E1 as <-. congruence.
      * exists 2%nat. repeat (split; try lia); eauto; try discriminate. intros (Q' & g & E1 & E2). injection E1 as <-. congruence.
    + exists 1%nat. cbn [fst snd set_robot log e_logged]. repeat (split; try lia); try discriminate; intros (Q' & H); try discriminate; destruct H as (g & H & _); discriminate.
    + exists 1%nat. cbn [fst snd set_robot log e_logged]. repeat (split; try lia); try discriminate; intros (Q' & H); try discriminate; destruct H as (g & H & _); discriminate.
  - unfold show_path. specialize (L e). destruct (e_solution e); [exists 0%nat|exists 1%nat; cbn; split; auto; lia].
    destruct (plot_setup get put e) as [e' r]. cbn [fst] in *. split; auto. lia.
Qed.
Lemma run_logged robot wdir vs : (plans vs <= e_logged (run_ (new_editor robot wdir) vs) <= 3 * plans vs + shows vs)%nat.
Proof.
  assert (G : forall vs e, (e_logged e + plans vs <= e_logged (run_ e vs) <= e_logged e + 3 * plans vs + shows vs)%nat).
  { clear vs. induction vs as [|v vs IH]; intros e; [cbn; lia|]. specialize (IH (fst (step_ e v))). destruct (step_logged e v) as (n & E & H). rewrite E in IH.
    change (run_ e (v :: vs)) with (run_ (fst (step_ e v)) vs). destruct v; unfold plans, shows in *; cbn [filter length] in *; try lia. destruct (e_solution e); lia. }
  specialize (G vs (new_editor robot wdir)). cbn [new_editor e_logged] in G. lia.
Qed.
Lemma load_empty e : paths_at (full_name e (e_paths_filename e)) = Ok [] ->
  snd (step_ e LoadPaths) = Raise IndexError /\ e_paths (fst (step_ e LoadPaths)) = [] /\ e_path (fst (step_ e LoadPaths)) = e_path e.
Proof. intros E. cbn [step]. unfold load_paths. rewrite E. cbn. auto. Qed.
Lemma load_missing e :
  (forall x, scene_at (full_name e (e_filename e)) = Raise x -> step_ e LoadScene = (e, Raise x)) /\
  (forall x, paths_at (full_name e (e_paths_filename e)) = Raise x -> step_ e LoadPaths = (e, Raise x)) /\
  (forall d p ps, snd (robot_plot (get (e_robot e)) [0; 0; 1.5; 0; 0; 0; 0]) = Ok d -> e_scene e = None ->
     paths_at (full_name e (e_paths_filename e)) = Ok (p :: ps) ->
     snd (step_ e LoadPaths) = Raise AttributeError /\ e_paths (fst (step_ e LoadPaths)) = p :: ps /\ e_path (fst (step_ e LoadPaths)) = p).
Proof.
  split; [|split].
  - intros x E. cbn [step]. unfold load_scene. rewrite E. reflexivity.
  - intros x E. cbn [step]. unfold load_paths. rewrite E. reflexivity.
  - intros d p ps Hd Hs E. cbn [step]. unfold load_paths. rewrite E. cbn [py_index nth_error].
    unfold plot_setup. cbn [e_robot e_scene e_paths]. rewrite Hs.
    destruct (robot_plot (get (e_robot e)) [0; 0; 1.5; 0; 0; 0; 0]) as [r q]. cbn [snd] in Hd. rewrite Hd.
    cbn [bind fst snd set_robot e_paths e_path]. auto.
Qed.
End Files.

(** one path of one point, then an empty list *)
Lemma empty_paths (O : Type) (get : O -> robot) put ik6 ik7 prim to32 (K : CostStruct) (sq_acc : K -> R -> R -> R -> K) pq ypr fuel scene_at robot wdir :
  exists paths_at vs p, let e := run get put ik6 ik7 prim to32 sq_acc pq ypr fuel scene_at paths_at (new_editor robot wdir) vs in
  e_paths e = [] /\ e_path e = [p].
Proof.
  set (tp := Io.PFree [1; 2; 3]). set (na := (wdir ++ "/" ++ "tasks/path_in_box.json")%string).
  exists (fun n => if String.eqb n na then Ok [[tp]] else Ok []), [LoadPaths; SubmitPathFileName "x"; LoadPaths], tp. cbv zeta. cbn [run fold_left].
  set (pa := fun n => if String.eqb n na then Ok [[tp]] else Ok []).
  assert (P1 : pa (wdir ++ "/" ++ "tasks/path_in_box.json")%string = Ok [[tp]]) by (unfold pa; rewrite String.eqb_refl; reflexivity).
  assert (P2 : pa (wdir ++ "/" ++ "x")%string = Ok []).
  { unfold pa. replace (String.eqb (wdir ++ "/" ++ "x") na) with false; [reflexivity|]. symmetry. unfold na. clear. induction wdir as [|c w IH]; [reflexivity|]. cbn. rewrite Ascii.eqb_refl. exact IH. }
  pose proof (run_names get put ik6 ik7 prim to32 K sq_acc pq ypr fuel scene_at pa [LoadPaths; SubmitPathFileName "x"] (new_editor robot wdir)) as (A & _ & B).
  cbn [run fold_left last_paths_file] in A, B.
  set (e0 := new_editor robot wdir) in *.
  pose proof (step_paths get put ik6 ik7 prim to32 K sq_acc pq ypr fuel scene_at pa e0 LoadPaths) as S1. change (full_name e0 (e_paths_filename e0)) with (wdir ++ "/" ++ "tasks/path_in_box.json")%string in S1.
  destruct S1 as [(_ & ps & E1 & [_ H1] & _)|(_ & _ & N)]; [|exfalso; apply (N eq_refl _ P1)]. rewrite P1 in E1. injection E1 as <-. specialize (H1 _ eq_refl).
  set (e1 := fst (step get put ik6 ik7 prim to32 sq_acc pq ypr fuel scene_at pa e0 LoadPaths)) in *.
  change (e_path e1) with (e_path (fst (step get put ik6 ik7 prim to32 sq_acc pq ypr fuel scene_at pa e1 (SubmitPathFileName "x")))) in H1.
  set (e2 := fst (step get put ik6 ik7 prim to32 sq_acc pq ypr fuel scene_at pa e1 (SubmitPathFileName "x"))) in *.
  pose proof (step_paths get put ik6 ik7 prim to32 K sq_acc pq ypr fuel scene_at pa e2 LoadPaths) as S2.
  assert (F : full_name e2 (e_paths_filename e2) = (wdir ++ "/" ++ "x")%string) by (unfold full_name; rewrite A, B; reflexivity). rewrite F in S2.
  destruct S2 as [(_ & ps & E2 & [H2 _] & H3)|(_ & _ & N)]; [|exfalso; apply (N eq_refl _ P2)]. rewrite P2 in E2. injection E2 as <-. split; [exact H2|]. rewrite (H3 eq_refl). exact H1.
Qed.
