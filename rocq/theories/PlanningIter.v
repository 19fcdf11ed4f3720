(** * Proofs about planning.py: iterative refinement, get_new_bounds, PlanningTask. *)
From Coq Require Import String List Arith ZArith Lia Bool Reals Lra.
From Verif Require Import PyBase Cost SpecPath GraphCommon CppGraph CppMain CppFinal Planning PlanningProofs PlanningCart.
Import ListNotations.
Local Open Scope nat_scope.

Section NF.
Context {K : CostStruct} {F : Type} (f1 : F) (sq_acc : K -> F -> F -> F -> K) (pq : pqueue K F) (to32 : F -> F).

Lemma add_columns_None : forall Q (g : cgraph K F), add_columns Q g = Ok None -> Exists (fun e => qlen e = 0) Q.
Proof.
  induction Q as [|e Q IH]; intros g H; cbn [add_columns] in H; [discriminate|].
  destruct (Nat.eqb_spec (qlen e) 0); [left; auto|]. destruct e as [[|] nc rows|]; try discriminate.
  destruct (add_data_column _ _ _ _); cbn [bind] in H; try discriminate. right. eauto.
Qed.
Lemma check_dtype_qlen Q Q' : check_dtype to32 Q = Ok Q' -> map qlen Q' = map qlen Q.
Proof.
  unfold check_dtype. destruct Q as [|[[|] nc rows|] Q]; try discriminate.
  - intros H. injection H as <-. reflexivity.
  - intros H. apply mapM_Ok_Forall2 in H. induction H as [|e e' l l' He _ IH]; [reflexivity|]. cbn [map]. f_equal; auto.
    destruct e as [[|] a b|]; cbn [astype32] in He; try discriminate; injection He as <-; cbn [qlen]; auto. apply map_length.
Qed.
Lemma run_bfs_found (g g' : cgraph K F) : run_bfs sq_acc g = Ok g' -> path_found g' = true.
Proof.
  intros H1. unfold run_bfs in H1.
  destruct (multi_source_bfs _ _ _) as [a| |]; cbn [bind] in H1; try discriminate.
  destruct (get_path_nodes true a) as [l| |]; cbn [bind] in H1; try discriminate.
  destruct (path_cost _ _ a l); cbn [bind] in H1; try discriminate. injection H1 as <-. reflexivity.
Qed.
(** success False comes only from an empty entry: the test p_i[0] == -1 never succeeds *)
Lemma gsp_fail_empty Q method ow : get_shortest_path f1 sq_acc pq to32 Q method ow = Ok GspFail -> Exists (fun e => qlen e = 0) Q.
Proof.
  unfold get_shortest_path. destruct (check_dtype to32 Q) as [Q'| |] eqn:Ed; cbn [bind]; try discriminate.
  apply check_dtype_qlen in Ed. intros H.
  destruct (add_columns Q' _) as [[g|]| |] eqn:Ea; cbn [bind] in H; try discriminate.
  2:{ apply add_columns_None in Ea. apply Exists_exists in Ea. destruct Ea as (e & Hin & He).
      assert (In 0 (map qlen Q)) as Hi by (rewrite <- Ed; rewrite <- He; apply in_map; auto).
      apply in_map_iff in Hi. destruct Hi as (x & Hx & Hi). apply Exists_exists. eauto. }
  exfalso. destruct (init f1 g) as [g1| |]; cbn [bind] in H; try discriminate.
  match type of H with bind ?x _ = _ => destruct x as [g2| |] eqn:Er; cbn [bind] in H; try discriminate end.
  assert (Hf : path_found g2 = true).
  { destruct (String.eqb method "bfs"); [eapply run_bfs_found; eauto|].
    destruct (String.eqb method "dijkstra"); [eapply run_dij_found; eauto|discriminate]. }
  destruct (get_path_nodes _ _); cbn [bind] in H; try discriminate.
  destruct (get_path _ g2) as [[p_i|]| |] eqn:Ep; cbn [bind] in H; try discriminate.
  unfold get_path in Ep. rewrite Hf in Ep. destruct (get_path_nodes true (na g2)) as [l| |]; cbn [bind] in Ep; try discriminate.
  destruct (_ =? _); try discriminate. destruct (mapM _ l) as [idx| |]; cbn [bind] in Ep; try discriminate. injection Ep as <-.
  unfold py_index in H. destruct idx as [|i idx]; cbn [map nth_error bind] in H; [discriminate|].
  destruct (Z.eqb_spec (Z.of_nat i) (-1)); [lia|]. destruct (mapM pick_row _); discriminate.
Qed.
End NF.

Section Iter.
Context {K : CostStruct} {F T P S D : Type} (f1 : F) (sq_acc : K -> F -> F -> F -> K) (pq : pqueue K F) (to32 : F -> F).
Context (ik : T -> option (list (list F))) (coll : list F -> S -> bool * S).
Context (class_of : P -> pclass) (samples_near : P -> nat -> D -> S -> res (list T * S)).
Context (fk : list F -> res T) (tol_ori_at : T -> P) (dist0 : D) (halve : D -> D).
Context (cc : list F -> bool) (Hcc : forall q s, fst (coll q s) = cc q).
Notation cols_ := (iter_columns to32 ik coll samples_near).
Notation loop_ := (iter_loop f1 sq_acc pq to32 ik coll samples_near fk tol_ori_at halve).
Notation iter_ := (cart_to_joint_iterative f1 sq_acc pq to32 ik coll class_of samples_near fk tol_ori_at dist0 halve).
Notation sols_ := (sols ik cc).

(** q is the float32 rounding of a collision-free ik solution of a pose drawn from tp within distance d *)
Definition reached (num : nat) (tp : P) (d : D) (q : list F) : Prop :=
  exists s Ts s' t qs q0, samples_near tp num d s = Ok (Ts, s') /\ In t Ts /\ ik t = Some qs /\ In q0 qs /\ cc q0 = false /\ q = map to32 q0.
(** some draw from tp within d has no collision-free solution at all *)
Definition blocked (num : nat) (tp : P) (d : D) : Prop :=
  exists s Ts s', samples_near tp num d s = Ok (Ts, s') /\ sols_ Ts = [].

Definition iter_entry (l : list (list F)) : qent F := match l with [] => QArr F32 0 [] | q :: _ => QArr F32 (length q) (map (map to32) l) end.

Lemma calc_spec hs Ts st e st' : calc_joint_solutions to32 ik coll hs Ts st = Ok (e, st') -> hs = true /\ e = iter_entry (sols_ Ts).
Proof.
  unfold calc_joint_solutions. destruct hs; [|discriminate].
  pose proof (collect_spec ik coll cc Hcc Ts st []) as Ec. destruct (collect ik coll Ts st []) as [l s2]. cbn in Ec. subst l.
  fold (sols_ Ts). unfold iter_entry. destruct (sols_ Ts) as [|q l]; [intros H; injection H as <- _; auto|].
  destruct (forallb _ _); [|discriminate]. intros H; injection H as <- _; auto.
Qed.

Lemma cols_spec hs num : forall sps st Q st', cols_ hs sps num st = Ok (Q, st') ->
  Forall2 (fun sp e => exists s Ts s', samples_near (sp_cur sp) num (sp_dist sp) s = Ok (Ts, s') /\ e = iter_entry (sols_ Ts)) sps Q.
Proof.
  induction sps as [|sp sps IH]; intros st Q st' H; cbn [iter_columns] in H.
  - injection H as <- _. constructor.
  - destruct (samples_near _ _ _ st) as [[Ts s1]| |] eqn:Es; cbn [bind] in H; try discriminate.
    destruct (calc_joint_solutions _ _ _ hs Ts s1) as [[e s2]| |] eqn:Ec; cbn [bind] in H; try discriminate.
    destruct (cols_ hs sps num s2) as [[Q' s3]| |] eqn:Er; cbn [bind] in H; try discriminate. injection H as <- _.
    constructor; [|eapply IH; eauto]. apply calc_spec in Ec. destruct Ec as [_ ->]. exists st, Ts, s1. auto.
Qed.

Lemma iter_entry_row Ts q : row_of (iter_entry (sols_ Ts)) q -> exists t qs q0, In t Ts /\ ik t = Some qs /\ In q0 qs /\ cc q0 = false /\ q = map to32 q0.
Proof.
  intros H. assert (Hin : exists q0, In q0 (sols_ Ts) /\ q = map to32 q0).
  { destruct (sols_ Ts) as [|x l] eqn:E; cbn [iter_entry row_of] in H; [destruct H|]. apply in_map_iff in H. destruct H as (q0 & <- & H). eauto. }
  destruct Hin as (q0 & Hin & ->). apply in_flat_map in Hin. destruct Hin as (t & Ht & Hq).
  destruct (ik t) as [qs|] eqn:E; cbn [free] in Hq; [|destruct Hq]. apply filter_In in Hq. destruct Hq as [Hq Hc].
  apply negb_true_iff in Hc. eauto 10.
Qed.

Lemma check32 Q : (forall e, In e Q -> exists nc rows, e = QArr F32 nc rows) -> forall Q', check_dtype to32 Q = Ok Q' -> Q' = Q.
Proof.
  intros H Q' E. destruct Q as [|e Q]; [discriminate|]. destruct (H e (or_introl eq_refl)) as (nc & rows & ->). cbn [check_dtype] in E. congruence.
Qed.

(** the points of the next iteration *)
Definition next_points (p : list (list F)) (sps sps' : list (spoint (F:=F) (P:=P) (D:=D))) : Prop :=
  resample_all fk tol_ori_at halve p sps = Ok sps'.
Fixpoint good (num : nat) (sps : list (spoint (F:=F) (P:=P) (D:=D))) (ps : list (list (list F))) (fin : list spoint) : Prop :=
  match ps with
  | [] => fin = sps
  | p :: ps' => Forall2 (fun sp q => reached num (sp_cur sp) (sp_dist sp) q) sps p /\ exists sps', next_points p sps sps' /\ good num sps' ps' fin
  end.

Lemma loop_spec hs num : forall k sps st costs paths nt lst r st', loop_ k hs sps num st costs paths nt lst = Ok (r, st') ->
  match r with
  | ItOk p c costs' paths' nt' => nt' = nt + k /\ exists cs ps fin, costs' = costs ++ cs /\ paths' = paths ++ ps /\ length cs = k /\ length ps = k /\
      (k = 0 -> lst = Some (p, c)) /\ (0 < k -> exists ps1 cs1, ps = ps1 ++ [p] /\ cs = cs1 ++ [c]) /\ good num sps ps fin
  | ItFail => exists ps fin, length ps < k /\ good num sps ps fin /\ Exists (fun sp => blocked num (sp_cur sp) (sp_dist sp)) fin
  end.
Proof.
  induction k as [|k IH]; intros sps st costs paths nt lst r st' H; cbn [iter_loop] in H.
  - destruct lst as [[p c]|]; [|discriminate]. injection H as <- _. split; [lia|]. exists [], [], sps. rewrite !app_nil_r.
    repeat split; auto; lia.
  - destruct (cols_ hs sps num st) as [[Q s1]| |] eqn:Ec; cbn [bind] in H; try discriminate. apply cols_spec in Ec.
    destruct (forallb _ Q) eqn:Ef.
    2:{ injection H as <- _. exists [], sps. split; [cbn; lia|]. split; [reflexivity|].
        assert (He : exists e, In e Q /\ qlen e = 0).
        { clear -Ef. induction Q as [|e Q IH]; [discriminate|]. cbn [forallb] in Ef. destruct (Nat.eqb_spec (qlen e) 0).
          - exists e. split; auto. left; auto.
          - cbn in Ef. destruct (IH Ef) as (e' & ? & ?). exists e'. split; auto. right; auto. }
        destruct He as (e & Hin & He). clear -Ec Hin He. induction Ec as [|sp e' sps Q H _ IH]; [destruct Hin|]. destruct Hin as [->|Hin].
        - left. destruct H as (s & Ts & s' & H & ->). exists s, Ts, s'. split; auto. destruct (sols_ Ts); auto. cbn [iter_entry qlen] in He. discriminate.
        - right. auto. }
    destruct (get_shortest_path f1 sq_acc pq to32 Q "dijkstra" None) as [[|p c]| |] eqn:Eg; cbn [bind] in H; try discriminate.
    { exfalso. apply gsp_fail_empty in Eg. apply Exists_exists in Eg. destruct Eg as (e & Hin & He).
      rewrite forallb_forall in Ef. apply Ef in Hin. rewrite He in Hin. discriminate. }
    apply gsp_rows in Eg. destruct Eg as (Q' & Hd & Hrows). apply check32 in Hd.
    2:{ clear -Ec. induction Ec as [|sp e sps Q H _ IH]; intros x Hx; [destruct Hx|].
        destruct Hx as [<-|Hx]; [|apply IH; exact Hx].
        destruct H as (s & Ts & s' & _ & ->). unfold iter_entry. destruct (sols_ Ts); eauto. }
    subst Q'.
    assert (Hr : Forall2 (fun sp q => reached num (sp_cur sp) (sp_dist sp) q) sps p).
    { clear -Ec Hrows. revert p Hrows. induction Ec as [|sp e sps Q H _ IH]; intros p Hr; inversion Hr; subst; constructor; auto.
      destruct H as (s & Ts & s' & H & ->). destruct (iter_entry_row _ _ H2) as (t & qs & q0 & ? & ? & ? & ? & ?).
      exists s, Ts, s', t, qs, q0. auto 10. }
    destruct (resample_all _ _ _ p sps) as [sps'| |] eqn:En; cbn [bind] in H; try discriminate.
    apply IH in H. destruct r as [|p' c' costs' paths' nt'].
    + destruct H as (ps & fin & H1 & H2 & H3). exists (p :: ps), fin. split; [cbn; lia|]. split; auto. cbn [good]. split; auto. exists sps'. auto.
    + destruct H as (H0 & cs & ps & fin & H1 & H2 & H3 & H4 & H5 & H6 & H7). split; [lia|]. exists (c :: cs), (p :: ps), fin.
      rewrite H1, H2, <- !app_assoc. cbn [app length good]. repeat split; auto; try lia; [|exists sps'; auto].
      intros _. destruct k as [|k].
      * destruct cs; [|discriminate]. destruct ps; [|discriminate]. specialize (H5 eq_refl). injection H5 as <- <-. exists [], []. auto.
      * destruct (H6 ltac:(lia)) as (ps1 & cs1 & -> & ->). exists (p :: ps1), (c :: cs1). auto.
Qed.

(** closed form of the points of iteration k *)
Definition point_at (path : list P) (paths : list (list (list F))) (k i : nat) (tp : P) : Prop :=
  match k with
  | O => nth_error path i = Some tp
  | Datatypes.S k' => exists p q t, nth_error paths k' = Some p /\ nth_error p i = Some q /\ fk q = Ok t /\ tp = tol_ori_at t
  end.

Lemma resample_all_spec : forall p sps sps', resample_all fk tol_ori_at halve p sps = Ok sps' -> length p = length sps ->
  Forall (fun sp => sp_class sp = CFree) sps ->
  Forall2 (fun sp' qsp => exists t, fk (fst qsp) = Ok t /\ sp_cur sp' = tol_ori_at t /\ sp_class sp' = CFree /\ sp_dist sp' = halve (sp_dist (snd qsp))) sps' (combine p sps).
Proof.
  induction p as [|q p IH]; intros [|sp sps] sps' H Hl Hc; cbn [resample_all] in H; try discriminate.
  - injection H as <-. constructor.
  - inversion Hc; subst. unfold resample in H. rewrite H2 in H. destruct (fk q) as [t| |] eqn:Ef; cbn [bind] in H; try discriminate.
    destruct (resample_all _ _ _ p sps) as [rest| |] eqn:E; cbn [bind] in H; try discriminate. injection H as <-.
    cbn [combine]. constructor; [|apply IH; auto]. exists t. cbn. auto.
Qed.

Lemma Forall2_length {A B} (R : A -> B -> Prop) l l' : Forall2 R l l' -> length l = length l'.
Proof. induction 1; cbn; auto. Qed.
Lemma Forall2_nth {A B} (R : A -> B -> Prop) l l' : Forall2 R l l' -> forall i b, nth_error l' i = Some b -> exists a, nth_error l i = Some a /\ R a b.
Proof. intros H. induction H; intros [|i] b0 E; cbn in E; try discriminate; [injection E as <-; cbn; eauto|]. apply IHForall2; auto. Qed.
Lemma Forall2_nth_l {A B} (R : A -> B -> Prop) l l' : Forall2 R l l' -> forall i a, nth_error l i = Some a -> exists b, nth_error l' i = Some b /\ R a b.
Proof. intros H. induction H; intros [|i] b0 E; cbn in E; try discriminate; [injection E as <-; cbn; eauto|]. apply IHForall2; auto. Qed.
Lemma combine_nth_error {A B} : forall (l : list A) (l' : list B) i a b, nth_error (combine l l') i = Some (a, b) -> nth_error l i = Some a /\ nth_error l' i = Some b.
Proof. induction l as [|x l IH]; intros [|y l'] [|i] a b E; cbn in *; try discriminate; [injection E as <- <-; auto|auto]. Qed.

(** every point of the k-th iteration from here on *)
Lemma good_points num : forall ps (sps fin : list spoint), good num sps ps fin -> Forall (fun sp => sp_class sp = CFree) sps ->
  forall d, Forall (fun sp => sp_dist sp = d) sps ->
  (forall k i p q, nth_error ps k = Some p -> nth_error p i = Some q ->
     exists tp, point_at (map sp_cur sps) ps k i tp /\ reached num tp (Nat.iter k halve d) q) /\
  (forall i sp, nth_error fin i = Some sp -> point_at (map sp_cur sps) ps (length ps) i (sp_cur sp) /\ sp_dist sp = Nat.iter (length ps) halve d) /\
  Forall (fun p => length p = length sps) ps.
Proof.
  induction ps as [|p ps IH]; intros sps fin H Hc d Hd; cbn [good] in H.
  - subst fin. split; [intros [|]; discriminate|]. split; [|constructor]. intros i sp E. cbn. rewrite nth_error_map, E. cbn. split; auto.
    rewrite Forall_forall in Hd. apply Hd. eapply nth_error_In; eauto.
  - destruct H as (Hr & sps' & Hn & Hg).
    assert (Hl : length p = length sps) by (symmetry; eapply Forall2_length; eauto).
    pose proof (resample_all_spec _ _ _ Hn Hl Hc) as Hs.
    assert (Hl' : length sps' = length sps) by (rewrite (Forall2_length _ _ _ Hs), combine_length; lia).
    assert (Hc' : Forall (fun sp => sp_class sp = CFree) sps').
    { clear -Hs. induction Hs; constructor; auto. destruct H as (t & _ & _ & ? & _). auto. }
    assert (Hd' : Forall (fun sp => sp_dist sp = halve d) sps').
    { apply Forall_forall. intros sp Hin. apply In_nth_error in Hin. destruct Hin as (i & Hi).
      destruct (Forall2_nth_l _ _ _ Hs _ _ Hi) as ([q sp0] & E & t & _ & _ & _ & Ed). rewrite Ed. cbn [snd].
      apply combine_nth_error in E. destruct E as [_ E]. apply nth_error_In in E. rewrite Forall_forall in Hd. rewrite (Hd _ E). reflexivity. }
    destruct (IH sps' fin Hg Hc' (halve d) Hd') as (H1 & H2 & H3).
    assert (Hpt : forall k i tp, point_at (map sp_cur sps') ps k i tp -> point_at (map sp_cur sps) (p :: ps) (Datatypes.S k) i tp).
    { intros [|k] i tp Hp; cbn [point_at] in Hp |- *.
      - rewrite nth_error_map in Hp. destruct (nth_error sps' i) as [sp'|] eqn:Ei; [|discriminate]. injection Hp as <-.
        destruct (Forall2_nth_l _ _ _ Hs _ _ Ei) as ([q sp0] & E & t & Et & Ec & _). apply combine_nth_error in E. destruct E as [E _].
        exists p, q, t. cbn. auto.
      - exact Hp. }
    assert (Hit : forall k, Nat.iter k halve (halve d) = Nat.iter (Datatypes.S k) halve d).
    { clear. induction k as [|k IHk]; [reflexivity|]. change (halve (Nat.iter k halve (halve d)) = halve (Nat.iter (Datatypes.S k) halve d)). rewrite IHk. reflexivity. }
    split; [|split].
    + intros [|k] i p' q Ep Eq; cbn [nth_error] in Ep.
      * injection Ep as <-. destruct (Forall2_nth _ _ _ Hr _ _ Eq) as (sp & Es & Hre). exists (sp_cur sp). cbn.
        rewrite nth_error_map, Es. split; auto. rewrite Forall_forall in Hd. rewrite <- (Hd sp); auto. eapply nth_error_In; eauto.
      * destruct (H1 _ _ _ _ Ep Eq) as (tp & Htp & Hre). exists tp. split; auto. rewrite <- Hit. auto.
    + intros i sp Ei. destruct (H2 _ _ Ei) as [Ha Hb]. cbn [length]. split; auto. rewrite <- Hit. auto.
    + constructor; [congruence|]. eapply Forall_impl; [|exact H3]. intros a Ha. cbn in Ha. congruence.
Qed.

Lemma solution_points path sps : mapM (solution_point (F:=F) class_of dist0) path = Ok sps ->
  Forall (fun sp => sp_class sp = CFree) sps /\ Forall (fun sp => sp_dist sp = dist0) sps /\ map sp_cur sps = path.
Proof.
  intros H. apply mapM_Ok_Forall2 in H. induction H as [|tp sp l l' H _ (H1 & H2 & H3)]; [auto|].
  unfold solution_point in H. destruct (class_of tp); try discriminate. injection H as <-. repeat split; auto. cbn. congruence.
Qed.

Lemma iterative_success path hs num n st p c costs paths nt st' : iter_ path hs num n st = Ok (ItOk p c costs paths nt, st') ->
  length costs = n /\ length paths = n /\ nt = n /\ (exists ps, paths = ps ++ [p]) /\ (exists cs, costs = cs ++ [c]) /\
  Forall (fun x => length x = length path) paths /\
  forall k i x q, nth_error paths k = Some x -> nth_error x i = Some q ->
    exists tp, point_at path paths k i tp /\ reached num tp (Nat.iter k halve dist0) q.
Proof.
  unfold cart_to_joint_iterative. destruct (mapM _ path) as [sps| |] eqn:Em; cbn [bind]; try discriminate. intros H.
  apply solution_points in Em. destruct Em as (H1 & H2 & H3). apply loop_spec in H.
  destruct H as (Hnt & cs & ps & fin & -> & -> & Hc & Hp & H0 & Hn & Hg). cbn [app].
  destruct (good_points num ps sps fin Hg H1 dist0 H2) as (Ha & _ & Hb). rewrite H3 in Ha.
  destruct n as [|n]; [specialize (H0 eq_refl); discriminate|]. destruct (Hn ltac:(lia)) as (ps1 & cs1 & -> & ->).
  repeat split; eauto. rewrite <- H3, map_length. exact Hb.
Qed.

Lemma iterative_failure path hs num n st st' : iter_ path hs num n st = Ok (ItFail, st') ->
  exists (ps : list (list (list F))) i tp, length ps < n /\ point_at path ps (length ps) i tp /\ blocked num tp (Nat.iter (length ps) halve dist0) /\
  forall k j x q, nth_error ps k = Some x -> nth_error x j = Some q -> exists tp', point_at path ps k j tp' /\ reached num tp' (Nat.iter k halve dist0) q.
Proof.
  unfold cart_to_joint_iterative. destruct (mapM _ path) as [sps| |] eqn:Em; cbn [bind]; try discriminate. intros H.
  apply solution_points in Em. destruct Em as (H1 & H2 & H3). apply loop_spec in H. destruct H as (ps & fin & Hl & Hg & Hb).
  destruct (good_points num ps sps fin Hg H1 dist0 H2) as (Ha & Hf & _). rewrite H3 in Ha, Hf.
  apply Exists_exists in Hb. destruct Hb as (sp & Hin & Hb). apply In_nth_error in Hin. destruct Hin as (i & Hi).
  destruct (Hf _ _ Hi) as [Hp Hd]. exists ps, i, (sp_cur sp). rewrite <- Hd. auto.
Qed.

Lemma iterative_wrong_class path hs num n st : Exists (fun tp => class_of tp <> CFree) path -> iter_ path hs num n st = Raise NameError.
Proof.
  intros H. unfold cart_to_joint_iterative. assert (E : mapM (solution_point (F:=F) class_of dist0) path = Raise NameError).
  { induction path as [|tp path IH]; [inversion H|]. cbn [mapM]. unfold solution_point at 1. inversion H; subst.
    - destruct (class_of tp); [congruence|reflexivity..].
    - destruct (class_of tp); cbn [bind]; auto. rewrite IH; auto. }
  rewrite E. reflexivity.
Qed.
Lemma mapM_free path : Forall (fun tp => class_of tp = CFree) path -> exists sps, mapM (solution_point (F:=F) class_of dist0) path = Ok sps.
Proof.
  intros H. induction H as [|tp path Ht _ [sps IH]]; [eexists; reflexivity|]. cbn [mapM]. unfold solution_point at 1. rewrite Ht. cbn [bind]. rewrite IH. cbn. eauto.
Qed.
Lemma iterative_zero path hs num st : Forall (fun tp => class_of tp = CFree) path -> iter_ path hs num 0 st = Raise UnboundLocalError.
Proof. intros H. unfold cart_to_joint_iterative. destruct (mapM_free path H) as (sps & ->). reflexivity. Qed.
Lemma iterative_no_scene tp path num n st : Forall (fun tp => class_of tp = CFree) (tp :: path) ->
  (forall s, exists Ts s', samples_near tp num dist0 s = Ok (Ts, s')) ->
  iter_ (tp :: path) false num (Datatypes.S n) st = Raise ValueError.
Proof.
  intros H Hs. unfold cart_to_joint_iterative. destruct (mapM_free _ H) as (sps & E). rewrite E. cbn [bind].
  apply solution_points in E. destruct E as (_ & H2 & H3). destruct sps as [|sp sps]; [discriminate|]. cbn in H3. injection H3 as H3 _.
  cbn [iter_loop iter_columns]. inversion H2; subst. destruct (Hs st) as (Ts & s' & ->). reflexivity.
Qed.
End Iter.

(** ** get_new_bounds *)
Local Open Scope R_scope.
Lemma new_bounds_spec l u m red : l <= m <= u -> 0 < red ->
  let '(l', u') := get_new_bounds l u m red in l <= l' <= m /\ m <= u' <= u /\ u' - l' <= 2 / red * (u - l).
Proof.
  intros Hm Hr. unfold get_new_bounds. rewrite (Rabs_right (u - l)) by lra.
  assert (Hd : 0 <= (u - l) / red) by (apply Rmult_le_pos; [lra|left; apply Rinv_0_lt_compat; auto]).
  assert (Ha := Rmax_l (m - (u - l) / red) l). assert (Hb := Rmax_r (m - (u - l) / red) l).
  assert (Hc := Rmin_l (m + (u - l) / red) u). assert (He := Rmin_r (m + (u - l) / red) u).
  assert (Rmax (m - (u - l) / red) l <= m) by (apply Rmax_lub; lra).
  assert (m <= Rmin (m + (u - l) / red) u) by (apply Rmin_glb; lra).
  replace (2 / red * (u - l)) with ((u - l) / red + (u - l) / red) by (field; lra). lra.
Qed.

(** repeated refinement around successive centres, each taken inside the current interval *)
Fixpoint refine (red : R) (ms : list R) (lu : R * R) : R * R :=
  match ms with [] => lu | m :: ms' => refine red ms' (get_new_bounds (fst lu) (snd lu) m red) end.
Fixpoint centred (red : R) (ms : list R) (lu : R * R) : Prop :=
  match ms with [] => True | m :: ms' => fst lu <= m <= snd lu /\ centred red ms' (get_new_bounds (fst lu) (snd lu) m red) end.
Lemma refine_spec : forall ms l u, l <= u -> centred 4 ms (l, u) ->
  let '(l', u') := refine 4 ms (l, u) in l <= l' /\ l' <= u' /\ u' <= u /\ (u' - l') * 2 ^ length ms <= u - l.
Proof.
  induction ms as [|m ms IH]; intros l u Hlu Hc; cbn [refine length pow]; [lra|].
  cbn [centred fst snd] in *. destruct Hc as [Hm Hc].
  pose proof (new_bounds_spec l u m 4 Hm ltac:(lra)) as Hn. destruct (get_new_bounds l u m 4) as [l1 u1].
  specialize (IH l1 u1 ltac:(lra) Hc). destruct (refine 4 ms (l1, u1)) as [l2 u2].
  assert (2 / 4 * (u - l) = (u - l) / 2) by field. 
  rewrite <- Rmult_assoc, (Rmult_comm (u2 - l2) 2), Rmult_assoc. lra.
Qed.
(** exact shrinking for a centre away from the borders *)
Lemma new_bounds_exact l u m red : l <= u -> 0 < red -> l + (u - l) / red <= m <= u - (u - l) / red ->
  get_new_bounds l u m red = (m - (u - l) / red, m + (u - l) / red).
Proof.
  intros Hlu Hr Hm. unfold get_new_bounds. rewrite (Rabs_right (u - l)) by lra.
  rewrite Rmax_left, Rmin_left by lra. reflexivity.
Qed.
Lemma new_bounds_red2 l u : l <= u -> get_new_bounds l u ((l + u) / 2) 2 = (l, u).
Proof. intros H. rewrite new_bounds_exact by lra. f_equal; lra. Qed.
