(** * Walks of the search model are the paths of the specification. *)
From Coq Require Import List Arith Lia Bool.
From Verif Require Import PyBase Cost SpecPath GraphCommon GraphProofs.
Import ListNotations.

Lemma picks_snoc {D} (A : list (list D)) col js j p x :
  picks (A ++ [col]) (js ++ [j]) (p ++ [x]) <-> picks A js p /\ nth_error col j = Some x.
Proof.
  revert js p. induction A as [|c A IH]; intros [|j' js] [|x' p]; simpl; try tauto.
  - destruct p; simpl; tauto.
  - destruct js; simpl; tauto.
  - destruct js, p; simpl; tauto.
  - destruct A; simpl; tauto.
  - destruct A; simpl. + destruct p; simpl; tauto. + destruct p; simpl; tauto.
  - destruct js; destruct A; simpl; tauto.
  - rewrite IH. tauto.
Qed.

Lemma picks_length {D} (A : list (list D)) : forall js p, picks A js p -> length js = length A /\ length p = length A.
Proof.
  induction A as [|c A IH]; intros [|j js] [|x p] H; cbn [picks length] in H |- *; try contradiction; auto.
  destruct H as [_ H]. apply IH in H. destruct H; split; congruence.
Qed.

Lemma picks_snoc_inv {D} (A : list (list D)) col js p :
  picks (A ++ [col]) js p -> exists js' j p' x, js = js' ++ [j] /\ p = p' ++ [x] /\
    picks A js' p' /\ nth_error col j = Some x.
Proof.
  intros H. pose proof (picks_length _ _ _ H) as [L1 L2]. rewrite app_length in *; simpl in *.
  destruct (exists_last (l := js)) as (js' & j & ->); [intros ->; simpl in *; lia|].
  destruct (exists_last (l := p)) as (p' & x & ->); [intros ->; simpl in *; lia|].
  apply picks_snoc in H. destruct H. eexists _, _, _, _; eauto.
Qed.

Section Walks.
Context {K : CostStruct} {D : Type}.
Context (ct : D -> D -> K) (edge : D -> D -> bool) (Q : list (list D)) (s : nat).

Definition datQ (i j : nat) : option D :=
  match nth_error Q i with Some col => nth_error col j | None => None end.

Fixpoint steps_edge (p : list D) : Prop :=
  match p with
  | x :: ((y :: _) as p') => edge x y = true /\ steps_edge p'
  | _ => True
  end.




Lemma walk_cost_from_snoc (c : D -> D -> K) p : forall acc z x y,
  walk_cost_from c acc z (p ++ [x; y]) = cadd (walk_cost_from c acc z (p ++ [x])) (c x y).
Proof. induction p as [|a p IH]; intros; simpl; auto. Qed.

Lemma walk_cost_snoc (c : D -> D -> K) p x y :
  walk_cost c (p ++ [x; y]) = cadd (walk_cost c (p ++ [x])) (c x y).
Proof. destruct p as [|z p]; simpl; auto. apply walk_cost_from_snoc. Qed.

Lemma steps_edge_snoc p x y : steps_edge (p ++ [x; y]) <-> steps_edge (p ++ [x]) /\ edge x y = true.
Proof.
  induction p as [|a p IH]; simpl; [tauto|].
  destruct p as [|b p]; simpl in *; [tauto|]. rewrite IH. tauto.
Qed.

Lemma firstn_S_snoc {A} (l : list A) m x : nth_error l m = Some x -> firstn (S m) l = firstn m l ++ [x].
Proof.
  revert l; induction m as [|m IH]; intros [|y l] H; simpl in *; try discriminate.
  - congruence.
  - f_equal. apply IH; auto.
Qed.

Lemma nth_error_skipn {A} (l : list A) i : forall k, nth_error (skipn k l) i = nth_error l (k + i).
Proof.
  intros k; revert l; induction k as [|k IH]; intros l; simpl; auto.
  destruct l; simpl; auto. destruct i; auto.
Qed.

Lemma datQ_col i j x : datQ i j = Some x -> exists col, nth_error Q i = Some col /\ nth_error col j = Some x.
Proof. unfold datQ. destruct (nth_error Q i); [eauto|discriminate]. Qed.

(** Walk -> path of the specification. *)
Lemma W_picks i j js c : W ct edge datQ s i j js c ->
  exists m p x, i = s + m /\ picks (firstn (S m) (skipn s Q)) js (p ++ [x]) /\ datQ i j = Some x /\
    (exists js', js = js' ++ [j]) /\
    c = walk_cost ct (p ++ [x]) /\ steps_edge (p ++ [x]).
Proof.
  induction 1 as [j x H|i j js c j' x y HW IH Hx Hy He].
  - destruct (datQ_col _ _ _ H) as (col & Hcol & Hj).
    exists 0, [], x. split; [lia|].
    assert (E : nth_error (skipn s Q) 0 = Some col) by (rewrite nth_error_skipn, Nat.add_0_r; auto).
    rewrite (firstn_S_snoc _ _ _ E). split; [simpl; auto|]. split; auto. split; [exists []; auto|]. simpl; auto.
  - destruct IH as (m & p & x' & -> & Hp & Hx' & _ & -> & Hs).
    assert (x' = x) by congruence. subst x'.
    destruct (datQ_col _ _ _ Hy) as (col & Hcol & Hj).
    exists (S m), (p ++ [x]), y. split; [lia|].
    assert (E : nth_error (skipn s Q) (S m) = Some col)
      by (rewrite nth_error_skipn; rewrite <- Hcol; f_equal; lia).
    rewrite (firstn_S_snoc _ _ _ E). split; [apply picks_snoc; auto|]. split; auto.
    split; [exists js; auto|].
    rewrite <- app_assoc. simpl. split; [symmetry; apply walk_cost_snoc|]. apply steps_edge_snoc; auto.
Qed.

(** Path of the specification -> walk. *)
Lemma picks_W m : forall js p, m < length (skipn s Q) -> picks (firstn (S m) (skipn s Q)) js p ->
  steps_edge p -> exists j p' x, (exists js', js = js' ++ [j]) /\ p = p' ++ [x] /\ datQ (s + m) j = Some x /\
    W ct edge datQ s (s + m) j js (walk_cost ct p).
Proof.
  induction m as [|m IH]; intros js p Hm Hp Hs.
  - destruct (nth_error (skipn s Q) 0) as [col|] eqn:E; [|apply nth_error_None in E; lia].
    rewrite (firstn_S_snoc _ _ _ E) in Hp. simpl in Hp.
    rewrite nth_error_skipn in E. rewrite Nat.add_0_r in *.
    destruct js as [|j [|? ?]], p as [|x [|? ?]]; simpl in Hp; try tauto.
    destruct Hp as [Hx _]. assert (Hd : datQ s j = Some x) by (unfold datQ; rewrite E; auto).
    exists j, [], x. split; [exists []; auto|]. split; auto. split; auto. simpl. econstructor; eauto.
  - destruct (nth_error (skipn s Q) (S m)) as [col|] eqn:E; [|apply nth_error_None in E; lia].
    rewrite (firstn_S_snoc _ _ _ E) in Hp.
    destruct (picks_snoc_inv _ _ _ _ Hp) as (js' & j & p' & y & -> & -> & Hp' & Hy).
    rewrite nth_error_skipn in E.
    assert (Hdy : datQ (S (s + m)) j = Some y).
    { unfold datQ. replace (S (s + m)) with (s + S m) by lia. rewrite E. auto. }
    assert (Hne : p' <> []).
    { intros ->. apply picks_length in Hp'. rewrite firstn_length in Hp'. cbn [length] in Hp'. lia. }
    destruct (exists_last Hne) as (p2 & x & ->).
    rewrite <- app_assoc in Hs. simpl in Hs. apply steps_edge_snoc in Hs. destruct Hs as [Hs He].
    destruct (IH js' (p2 ++ [x]) ltac:(lia) Hp' Hs) as (j2 & p3 & x3 & (js3 & ->) & Ep & Hdx & HW).
    apply app_inj_tail in Ep. destruct Ep as [<- <-].
    exists j, (p2 ++ [x]), y. split; [eexists; eauto|]. split; auto.
    replace (s + S m) with (S (s + m)) by lia. split; auto.
    replace ((p2 ++ [x]) ++ [y]) with (p2 ++ [x; y]) by (rewrite <- app_assoc; reflexivity).
    rewrite walk_cost_snoc. econstructor; eauto.
Qed.
End Walks.

Lemma steps_below_edge {K : CostStruct} {D} (ct : D -> D -> K) (m : K) p :
  steps_below ct m p <-> steps_edge (fun x y => clt (ct x y) m) p.
Proof.
  induction p as [|x [|y p] IH]; simpl in *; tauto.
Qed.

(** A finite path only has finite steps. *)
Lemma walk_from_fin {K : CostStruct} {D} (ct : D -> D -> K) p : forall acc x,
  clt (walk_cost_from ct acc x p) cinf = true -> clt acc cinf = true /\ steps_below ct cinf (x :: p).
Proof.
  induction p as [|y p IH]; intros acc x H.
  - simpl in *; auto.
  - cbn [walk_cost_from] in H. apply IH in H. destruct H as [H1 H2]. split.
    + eapply cadd_lt_inf; eauto.
    + split; auto. eapply cadd_lt_inf_r; eauto.
Qed.
Lemma walk_fin {K : CostStruct} {D} (ct : D -> D -> K) p :
  clt (walk_cost ct p) cinf = true -> steps_below ct cinf p.
Proof. destruct p as [|x p]; simpl walk_cost; [simpl; auto|]. intros H. apply walk_from_fin in H. tauto. Qed.
