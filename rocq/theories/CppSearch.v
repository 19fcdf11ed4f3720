(** * Proofs about graph.cpp: the two searches. *)
From Coq Require Import List Arith Lia Bool ZArith Permutation FinFun.
From Verif Require Import PyBase Cost SpecPath GraphCommon GraphProofs GraphWalks CppGraph CppGraphProofs.
Import ListNotations.
Local Open Scope nat_scope.

Section S.
Context {K : CostStruct} {F : Type}.
Context (sq_acc : K -> F -> F -> F -> K).
Notation D := (list F).
Context (n : nat) (w : list F) (data : list (list D)).
Context (Hw : length w = n) (Hu : uniform n data) (Hne : data <> []).
Notation ct := (jcost sq_acc w).
Notation cst := (fun c x => cost2 sq_acc w x c).
Notation Wk := (W ct all_edges (datQ data) 0).
Notation top := (length data - 1).

Lemma Hlen : 0 < length data.
Proof. destruct data; [congruence|simpl; lia]. Qed.

(** ** walks are paths *)
Lemma steps_all (p : list D) : steps_edge all_edges p.
Proof. induction p as [|x [|y p] IH]; simpl in *; auto. Qed.

Lemma Wk_picks t j js c : Wk t j js c -> t < length data -> exists p, picks (firstn (S t) data) js p /\ walk_cost ct p = c.
Proof.
  intros HW Ht. destruct (W_picks _ _ _ _ _ _ _ _ HW) as (m & p & x & E & Hp & _ & _ & -> & _).
  simpl in E. subst m. exists (p ++ [x]). auto.
Qed.
Lemma picks_Wk t js p : picks (firstn (S t) data) js p -> t < length data -> exists j, Wk t j js (walk_cost ct p).
Proof.
  intros Hp Ht. destruct (picks_W ct all_edges data 0 t js p Ht Hp (steps_all p)) as (j & ? & ? & _ & _ & _ & HW). eauto.
Qed.
Lemma Wk_bound t j js c : Wk t j js c -> t < length data.
Proof.
  intros H. apply W_dat in H. destruct H as (x & Hx). apply datQ_col in Hx. destruct Hx as (c' & Hc & _).
  apply nth_error_Some. congruence.
Qed.
Lemma firstn_top : firstn (S top) data = data.
Proof. apply firstn_all2. pose proof Hlen; lia. Qed.
Lemma Wk_top j js c : Wk top j js c -> exists p, picks data js p /\ walk_cost ct p = c.
Proof.
  intros H. pose proof (Wk_bound _ _ _ _ H) as Hb. destruct (Wk_picks _ _ _ _ H Hb) as (p & Hp & E).
  rewrite firstn_top in Hp. eauto.
Qed.
Lemma top_Wk js p : picks data js p -> exists j, Wk top j js (walk_cost ct p).
Proof.
  intros H. rewrite <- firstn_top in H. apply picks_Wk; auto. pose proof Hlen; lia.
Qed.

Lemma picks_fun (Q : list (list D)) : forall js p p', picks Q js p -> picks Q js p' -> p = p'.
Proof.
  induction Q as [|c Q IH]; intros [|j js] [|x p] [|y p'] H H'; simpl in *; try tauto; auto.
  destruct H, H'. f_equal; [congruence|eauto].
Qed.
Lemma tr_fun (a : narr K D) i j js : tr 0 a i j js -> forall js', tr 0 a i j js' -> js = js'.
Proof.
  induction 1 as [j m Hm Hp|i j j' m js Hm Hp Ht IH]; intros js' H'; inversion H'; subst; auto.
  - assert (m = n0) by congruence. subst n0. assert (j0 = j) by congruence. subst j0.
    f_equal. auto.
Qed.

(** ** breadth first search *)
Lemma bfs_run a : cshape data a -> (forall i j v, lk a i j = Some v -> untouched PDummy v) ->
  exists a', multi_source_bfs sq_acc w a = Ok a' /\ cshape data a' /\
    forall i, Final ct all_edges (datQ data) 0 PDummy a' i.
Proof.
  intros Hs Hun. unfold multi_source_bfs.
  destruct a as [|c0 a0] eqn:Ea; [destruct Hs as (Hl & _); pose proof Hlen; simpl in Hl; lia|]. rewrite <- Ea in *.
  destruct (bfs_correct cst ct all_edges (length data) (cexpand sq_acc w fifo_push)) with
    (dat := datQ data) (s := 0) (p0 := PDummy) (na := a) as (a' & HA & HB & HC & HD & HE & HF & HG & HI).
  - intros. eapply cexpand_fifo; eauto.
  - eapply cshape_wfd; eauto.
  - apply cshape_dat; auto.
  - auto.
  - exists a'. split; [exact HA|]. split.
    + destruct Hs as (S1 & S2 & S3). split; [congruence|]. split; [intros; rewrite HF; auto|].
      eapply same_keys_trans; eauto.
    + intros i. apply HD. lia.
Qed.

Lemma fresh_untouched i j v : lk (fresh data) i j = Some v -> untouched (K := K) PDummy v.
Proof.
  rewrite lk_cfresh. destruct (datQ data i j); simpl; [|discriminate]. intros H. injection H as <-.
  repeat split.
Qed.

Definition finite_path : Prop := exists js p, picks data js p /\ clt (walk_cost ct p) cinf = true.

Lemma final_tr a : (forall i, Final ct all_edges (datQ data) 0 PDummy a i) ->
  forall i j v, lk a i j = Some v -> clt (n_dist v) cinf = true ->
  exists js, tr 0 a i j js /\ Wk i j js (n_dist v).
Proof.
  intros HF i j v Hv Hfin. destruct (HF i j v Hv) as (_ & _ & [[E _]|(_ & _ & H)]); auto.
  rewrite E, clt_irrefl in Hfin. discriminate.
Qed.

Lemma bfs_extract a : cshape data a -> (forall i, Final ct all_edges (datQ data) 0 PDummy a i) ->
  (get_path_nodes true a = Raise NullDeref /\ ~ finite_path) \/
  (exists js p, get_path_nodes true a = Ok (pn 0 js) /\ picks data js p /\ clt (walk_cost ct p) cinf = true /\
     forall js' p', picks data js' p' -> cle (walk_cost ct p) (walk_cost ct p')).
Proof.
  intros Hs HF.
  destruct (get_path_nodes_spec n w data Hw Hu a Hs Hne) as [[H1 H2]|(j & v & js & p & Hv & Hfin & Hmin & Htr & Hp & Hg)].
  - intros j v Hv Hfin. destruct (final_tr a HF _ _ _ Hv Hfin) as (js & Ht & _). eauto.
  - left. split; auto. intros (js & p & Hp & Hf). destruct (top_Wk _ _ Hp) as (j & HW).
    destruct (W_dat _ _ _ _ _ _ _ _ HW) as (x & Hx). destruct (wf_dat_inv _ _ _ _ _ (cshape_dat _ _ Hs) Hx) as (v & Hv & _).
    destruct (HF top j v Hv) as (_ & F2 & _). specialize (F2 _ _ HW).
    pose proof (cle_lt_trans _ _ _ F2 Hf) as Hlt. rewrite (H2 _ _ Hv) in Hlt. discriminate.
  - right. exists js, p. split; auto. split; auto.
    destruct (final_tr a HF _ _ _ Hv Hfin) as (js2 & Htr2 & HW). pose proof (tr_fun _ _ _ _ Htr _ Htr2). subst js2.
    destruct (Wk_top _ _ _ HW) as (p2 & Hp2 & Ec). pose proof (picks_fun _ _ _ _ Hp Hp2). subst p2. rewrite Ec.
    split; auto. intros js' p' Hp'. destruct (top_Wk _ _ Hp') as (j' & HW').
    destruct (W_dat _ _ _ _ _ _ _ _ HW') as (x & Hx). destruct (wf_dat_inv _ _ _ _ _ (cshape_dat _ _ Hs) Hx) as (v' & Hv' & _).
    eapply cle_trans; [eapply Hmin; eauto|]. destruct (HF top j' v' Hv') as (_ & F2 & _). eauto.
Qed.

Lemma run_bfs_spec (s : cgraph K F) : weights s = w -> cshape data (na s) ->
  (forall i j v, lk (na s) i j = Some v -> untouched PDummy v) ->
  (run_bfs sq_acc s = Raise NullDeref /\ ~ finite_path) \/
  (exists a js p, run_bfs sq_acc s = Ok (mkCG (gd s) a true (walk_cost ct p) (num_goals s) (max_path_index s) w) /\
     cshape data a /\ (forall i, Final ct all_edges (datQ data) 0 PDummy a i) /\
     get_path_nodes true a = Ok (pn 0 js) /\ picks data js p /\ clt (walk_cost ct p) cinf = true /\
     forall js' p', picks data js' p' -> cle (walk_cost ct p) (walk_cost ct p')).
Proof.
  intros Ew Hs Hun. unfold run_bfs. rewrite Ew. destruct (bfs_run _ Hs Hun) as (a & HA & HB & HC). rewrite HA. cbn [bind].
  destruct (bfs_extract a HB HC) as [[H1 H2]|(js & p & H1 & H2 & H3 & H4)]; rewrite H1; cbn [bind].
  - left; auto.
  - right. exists a, js, p. rewrite (path_cost_picks sq_acc n w data Hw Hu a js p HB H2). cbn [bind]. auto 10.
Qed.

(** ** running the search again *)
Lemma final_start a : cshape data a -> (forall i, Final ct all_edges (datQ data) 0 PDummy a i) -> start_column a 0 = a.
Proof.
  intros Hs HF. apply narr_ext2.
  - apply length_start_column.
  - intros i. apply collen_start_column.
  - intros i j. rewrite lk_start_column. destruct (Nat.eqb_spec i 0) as [->|]; auto.
    destruct (lk a 0 j) as [v|] eqn:Hv; auto. simpl. f_equal.
    pose proof (cshape_si _ _ _ _ _ Hs Hv) as (_ & _ & Hd).
    assert (HW : Wk 0 j [j] czero) by (econstructor; eauto).
    destruct (HF 0 j v Hv) as (F1 & F2 & F3). specialize (F2 _ _ HW).
    destruct F3 as [[F3 _]|(_ & _ & js & Ht & HW2)].
    + rewrite F3 in F2. unfold cle in F2. rewrite czero_fin in F2. discriminate.
    + apply W_inv_start in HW2. destruct HW2 as [_ HW2].
      inversion Ht; subst. assert (n0 = v) by congruence. subst n0.
      assert (Hvis : n_visited v = true) by (apply F1; eauto). destruct v; simpl in *; subst; reflexivity.
Qed.

Lemma final_loop a : cshape data a -> (forall i, Final ct all_edges (datQ data) 0 PDummy a i) ->
  forall fuel q, length q <= fuel -> (forall r, In r q -> exists v, lk a (fst r) (snd r) = Some v /\ n_visited v = true) ->
  bfs_loop (cexpand sq_acc w fifo_push) fuel a q = Ok a.
Proof.
  intros Hs HF. induction fuel as [|fuel IH]; intros [|r q] Hl Hq; try reflexivity; [simpl in Hl; lia|].
  destruct (Hq r (or_introl eq_refl)) as (ncur & Hn & Hvis).
  destruct (cexpand_fifo sq_acc n w Hw (length data) a q r ncur) as (a' & He & Hex); auto.
  { eapply cshape_wfd; eauto. }
  cbn [bfs_loop]. rewrite He. cbn [bind].
  destruct (HF _ _ _ Hn) as (F1 & F2 & F3). apply F1 in Hvis. destruct Hvis as (js & c & HW).
  assert (Hnext : forall j v, lk a (S (fst r)) j = Some v ->
    n_visited v = true /\ clt (cadd (n_dist ncur) (ct (n_data ncur) (n_data v))) (n_dist v) = false).
  { intros j v Hv. pose proof (cshape_si _ _ _ _ _ Hs Hn) as (_ & _ & Hd).
    pose proof (cshape_si _ _ _ _ _ Hs Hv) as (_ & _ & Hd').
    destruct (HF _ _ _ Hv) as (G1 & G2 & G3). split.
    - apply G1. exists (js ++ [j]). eexists. econstructor; eauto; reflexivity.
    - destruct F3 as [[F3 _]|(_ & _ & js2 & _ & HW2)].
      + rewrite F3. apply (cle_trans _ cinf); [apply cle_inf|apply cadd_inf].
      + apply (G2 (js2 ++ [j])). econstructor; eauto; reflexivity. }
  assert (Ea : a' = a).
  { destruct Hex as (E1 & E2 & E3 & E4). apply narr_ext2; auto. intros i j.
    destruct (Nat.eq_dec i (S (fst r))) as [->|]; auto. rewrite E4.
    destruct (lk a (S (fst r)) j) as [v|] eqn:Hv; auto. simpl. f_equal.
    destruct (Hnext _ _ Hv) as [Hv1 Hv2]. unfold relax_node, all_edges. rewrite Hv2. apply set_visited_id; auto. }
  subst a'.
  assert (Eq : filter (is_new all_edges a ncur) (col_refs a (S (fst r))) = []).
  { assert (H : forall l, (forall x, In x l -> is_new all_edges a ncur x = false) -> filter (is_new all_edges a ncur) l = []).
    { induction l as [|x l IHl]; intros H; simpl; auto. rewrite H by (simpl; auto). apply IHl. intros; apply H; simpl; auto. }
    apply H. intros x Hx. apply in_col_refs in Hx. destruct Hx as (Ef & v & Hv). unfold is_new. rewrite Hv. rewrite Ef in Hv.
    destruct (Hnext _ _ Hv) as [-> _]. reflexivity. }
  rewrite Eq, app_nil_r. apply IH; [simpl in Hl; lia|]. intros x Hx; apply Hq; simpl; auto.
Qed.

Lemma bfs_again a : cshape data a -> (forall i, Final ct all_edges (datQ data) 0 PDummy a i) ->
  multi_source_bfs sq_acc w a = Ok a.
Proof.
  intros Hs HF. unfold multi_source_bfs.
  destruct a as [|c0 a0] eqn:Ea; [destruct Hs as (Hl & _); pose proof Hlen; simpl in Hl; lia|]. rewrite <- Ea in *.
  rewrite (final_start a Hs HF). apply final_loop; auto.
  - rewrite <- all_refs_length. apply NoDup_incl_length; [apply col_refs_NoDup|].
    intros r Hr. apply in_col_refs in Hr. destruct Hr as (_ & v & Hv). apply in_all_refs. eauto.
  - intros r Hr. apply in_col_refs in Hr. destruct Hr as (E & v & Hv). exists v. split; auto. rewrite E in Hv.
    pose proof (cshape_si _ _ _ _ _ Hs Hv) as (_ & _ & Hd).
    destruct (HF _ _ _ Hv) as (F1 & _). apply F1. exists [snd r], czero. econstructor; eauto.
Qed.

(** ** priority queues *)
Record pq_ok (pq : pqueue K F) : Prop := {
  pq_empty : forall a q, pq_pop pq a q = None <-> q = [];
  pq_perm : forall a q r q', pq_pop pq a q = Some (r, q') -> Permutation q (r :: q');
  pq_ins : forall a q r, Permutation (pq_push pq a q r) (r :: q) }.

Section Dij.
Context (pq : pqueue K F) (Hpq : pq_ok pq) (maxp : nat).

Lemma cexpand_pq L a q cur ncur : wfd cst ct L a -> lk a (fst cur) (snd cur) = Some ncur ->
  exists a' q', cexpand sq_acc w (pq_push pq) a q cur = Ok (a', q') /\ expanded ct all_edges a cur ncur a' /\
    Permutation q' (q ++ filter (is_new all_edges a ncur) (col_refs a (S (fst cur)))).
Proof.
  intros Hwf Hn. apply (cexpand_gen sq_acc n w Hw L (pq_push pq) (@Permutation ref)); auto.
  intros a1 q1 q0 r H. rewrite (pq_ins pq Hpq). rewrite H. apply Permutation_cons_append.
Qed.

Lemma dij_rule L (I : narr K D -> list ref -> list ref -> nat -> Prop) :
  (forall a P q r q0 q' ncur a' g, I a P q (S g) -> wfd cst ct L a -> distinct a P q ->
     pq_pop pq a q = Some (r, q0) -> Permutation q (r :: q0) ->
     lk a (fst r) (snd r) = Some ncur -> n_visited ncur = true -> expanded ct all_edges a r ncur a' ->
     Permutation q' (q0 ++ filter (is_new all_edges a ncur) (col_refs a (S (fst r)))) ->
     I a' (r :: P) q' (if Nat.eqb (fst r) maxp then g else S g)) ->
  forall fuel a P q g, I a P q g -> wfd cst ct L a -> distinct a P q -> count_nodes a <= fuel + length P ->
  exists a' P' q' g', dij_loop sq_acc pq w maxp fuel a q g = Ok (a', g') /\ I a' P' q' g' /\ wfd cst ct L a' /\
    distinct a' P' q' /\ (g' = 0 \/ q' = []) /\
    (forall i, collen a' i = collen a i) /\ length a' = length a /\ same_keys a a'.
Proof.
  intros Hstep. induction fuel as [|fuel IH]; intros a P q g HI Hwf Hd Hf.
  - destruct g as [|g].
    { exists a, P, q, 0. simpl. auto 12 using same_keys_refl. }
    destruct (pq_pop pq a q) as [[r q0]|] eqn:Ep.
    + exfalso. pose proof (pq_perm pq Hpq _ _ _ _ Ep) as Hp. apply distinct_bound in Hd.
      apply Permutation_length in Hp. simpl in Hp. lia.
    + exists a, P, q, (S g). cbn [dij_loop]. rewrite Ep. apply (pq_empty pq Hpq) in Ep. auto 12 using same_keys_refl.
  - destruct g as [|g].
    { exists a, P, q, 0. simpl. auto 12 using same_keys_refl. }
    cbn [dij_loop]. destruct (pq_pop pq a q) as [[r q0]|] eqn:Ep.
    2:{ exists a, P, q, (S g). apply (pq_empty pq Hpq) in Ep. auto 12 using same_keys_refl. }
    pose proof (pq_perm pq Hpq _ _ _ _ Ep) as Hp.
    assert (Hr : exists ncur, lk a (fst r) (snd r) = Some ncur /\ n_visited ncur = true).
    { destruct Hd as [_ Hd]. apply Hd. apply in_app_iff. right. rewrite Hp. simpl; auto. }
    destruct Hr as (ncur & Hncur & Hvis).
    assert (Hde : deref a r = Ok ncur) by (destruct r; rewrite deref_lk; simpl in *; rewrite Hncur; auto).
    rewrite Hde. cbn [bind].
    assert (Hpi : n_pi ncur = fst r) by (destruct Hwf as (_ & H1 & _); eauto). rewrite Hpi.
    destruct (cexpand_pq L a q0 r ncur Hwf Hncur) as (a' & q' & He & Hex & Hq'). rewrite He. cbn [bind].
    pose proof (wfd_step _ _ _ _ _ _ _ _ Hwf Hex) as Hwf'.
    assert (Hd' : distinct a' (r :: P) q') by (eapply distinct_step; eauto).
    destruct (IH a' (r :: P) q' (if Nat.eqb (fst r) maxp then g else S g)) as (a2 & P2 & q2 & g2 & HA & HB & HC & HE & HG & H1 & H2 & H3); auto.
    { eapply Hstep; eauto. }
    { rewrite (count_nodes_same a a') by apply Hex. simpl. lia. }
    exists a2, P2, q2, g2. split; [exact HA|]. split; [exact HB|]. split; [exact HC|]. split; [exact HE|]. split; [exact HG|].
    pose proof (same_keys_trans _ _ _ (expanded_keys _ _ _ _ _ _ Hex) H3) as HK. destruct Hex as (E1 & E2 & _).
    split; [intros; rewrite H1; auto|]. split; [congruence|exact HK].
Qed.

Lemma push_all a : forall l q, Permutation (fold_left (fun q r => pq_push pq a q r) l q) (l ++ q).
Proof.
  induction l as [|r l IH]; intros q; simpl; auto. rewrite IH, (pq_ins pq Hpq).
  symmetry. apply Permutation_middle.
Qed.

(** Termination and shape, from any labels. *)
Lemma dij_total a g : cshape data a -> exists a' g', multi_source_dijkstra sq_acc pq w maxp g a = Ok (a', g') /\ cshape data a'.
Proof.
  intros Hs. unfold multi_source_dijkstra.
  destruct a as [|c0 a0] eqn:Ea; [destruct Hs as (Hl & _); pose proof Hlen; simpl in Hl; lia|]. rewrite <- Ea in *.
  set (q0 := fold_left _ _ _).
  destruct (dij_rule (length data) (fun _ _ _ _ => True)) with (fuel := count_nodes (start_column a 0))
    (a := start_column a 0) (P := @nil ref) (q := q0) (g := g) as (a' & P' & q' & g' & HA & _ & _ & _ & _ & H1 & H2 & H3); auto.
  - apply wfd_start. eapply cshape_wfd; eauto.
  - destruct (distinct_start 0 a) as [D1 D2]. assert (Hp : Permutation q0 (col_refs (start_column a 0) 0)).
    { unfold q0. rewrite push_all, app_nil_r. auto. }
    split; simpl in *.
    + eapply Permutation_NoDup; [symmetry; exact Hp|exact D1].
    + intros r Hr. apply D2. rewrite <- Hp. exact Hr.
  - simpl; lia.
  - exists a', g'. split; [exact HA|]. destruct Hs as (S1 & S2 & S3).
    split; [rewrite H2, length_start_column; auto|]. split.
    + intros i. rewrite H1, collen_start_column. auto.
    + eapply same_keys_trans; [exact S3|]. eapply same_keys_trans; [apply same_keys_start|exact H3].
Qed.

Section Inv.
Context (G0 : nat).
Context (Hfin : forall i j js c, Wk i j js c -> clt c cinf = true).

Record DInv (a : narr K D) (P q : list ref) (g : nat) : Prop := {
  dv_shape : cshape data a;
  dv_new : forall i j v, lk a i j = Some v -> n_visited v = false -> untouched PDummy v;
  dv_in : forall i j v, lk a i j = Some v -> n_visited v = true -> In (i, j) (P ++ q);
  dv_zero : forall j v, lk a 0 j = Some v -> n_visited v = true /\ n_parent v = PDummy /\ n_dist v = czero;
  dv_par : forall i j v, lk a (S i) j = Some v -> n_visited v = true ->
     exists j' v', n_parent v = PNode i j' /\ lk a i j' = Some v' /\ n_visited v' = true;
  dv_walk : forall i j v, lk a i j = Some v -> n_visited v = true -> exists js, Wk i j js (n_dist v);
  dv_next : forall r, In r P -> forall j v, lk a (S (fst r)) j = Some v -> n_visited v = true;
  dv_goals : g + length (filter (fun r => Nat.eqb (fst r) maxp) P) = G0 }.

(** What a relaxed node looks like. *)
Lemma relax_cases cur ncur v : 
  (clt (cadd (n_dist ncur) (ct (n_data ncur) (n_data v))) (n_dist v) = true /\
   relax_node ct all_edges cur ncur v =
     mkNode (n_pi v) (n_si v) (n_data v) (cadd (n_dist ncur) (ct (n_data ncur) (n_data v))) (PNode (fst cur) (snd cur)) true) \/
  (clt (cadd (n_dist ncur) (ct (n_data ncur) (n_data v))) (n_dist v) = false /\
   relax_node ct all_edges cur ncur v = set_visited v).
Proof.
  unfold relax_node, all_edges. destruct (clt _ (n_dist v)); [left|right]; split; reflexivity.
Qed.

Lemma cshape_step a r ncur a' : cshape data a -> expanded ct all_edges a r ncur a' -> cshape data a'.
Proof.
  intros (S1 & S2 & S3) Hex. pose proof (expanded_keys _ _ _ _ _ _ Hex) as Hk. destruct Hex as (E1 & E2 & _).
  split; [congruence|]. split; [intros; rewrite E2; auto|]. eapply same_keys_trans; eauto.
Qed.

Lemma DInv_step a P q r q0 q' ncur a' g : DInv a P q (S g) -> distinct a P q ->
  Permutation q (r :: q0) -> lk a (fst r) (snd r) = Some ncur -> n_visited ncur = true ->
  expanded ct all_edges a r ncur a' ->
  Permutation q' (q0 ++ filter (is_new all_edges a ncur) (col_refs a (S (fst r)))) ->
  DInv a' (r :: P) q' (if Nat.eqb (fst r) maxp then g else S g).
Proof.
  intros [Hs Hnew Hin Hz Hpar Hwk Hnx Hg] Hd Hq Hn Hvis Hex Hq'.
  pose proof (cshape_step _ _ _ _ Hs Hex) as Hs'.
  destruct (Hwk _ _ _ Hn Hvis) as (jsr & HWr).
  pose proof (cshape_si _ _ _ _ _ Hs Hn) as (_ & _ & Hdr).
  assert (Hstay : lk a' (fst r) (snd r) = Some ncur).
  { destruct Hex as (_ & _ & E3 & _). rewrite E3; auto. }
  (* facts about a relaxed neighbour *)
  assert (Hrel : forall j v, lk a (S (fst r)) j = Some v ->
     Wk (S (fst r)) j (jsr ++ [j]) (cadd (n_dist ncur) (ct (n_data ncur) (n_data v)))).
  { intros j v Hv. pose proof (cshape_si _ _ _ _ _ Hs Hv) as (_ & _ & Hdv). econstructor; eauto; reflexivity. }
  assert (Hfresh : forall j v, lk a (S (fst r)) j = Some v -> n_visited v = false ->
     clt (cadd (n_dist ncur) (ct (n_data ncur) (n_data v))) (n_dist v) = true).
  { intros j v Hv Hf. destruct (Hnew _ _ _ Hv Hf) as (E & _). rewrite E. eapply Hfin; eauto. }
  constructor.
  - exact Hs'.
  - intros i j v Hv Hf. destruct (expanded_lk _ _ _ _ _ _ _ _ _ Hex Hv) as (v0 & Hv0 & [->|[_ ->]]); [eauto|].
    destruct (relax_cases r ncur v0) as [[_ E]|[_ E]]; rewrite E in Hf; discriminate.
  - intros i j v Hv Hf. assert (Hgoal : In (i, j) (r :: P ++ q0 ++ filter (is_new all_edges a ncur) (col_refs a (S (fst r))))).
    { destruct (expanded_lk _ _ _ _ _ _ _ _ _ Hex Hv) as (v0 & Hv0 & Hcase).
      destruct (n_visited v0) eqn:Ev.
      - specialize (Hin _ _ _ Hv0 Ev). apply in_app_iff in Hin. simpl. rewrite !in_app_iff.
        destruct Hin as [H|H]; auto. rewrite Hq in H. destruct H; auto.
      - destruct Hcase as [->|[-> ->]]; [congruence|]. simpl. rewrite !in_app_iff. do 3 right.
        apply filter_In. split; [apply in_col_refs; simpl; eauto|]. unfold is_new; simpl. rewrite Hv0, Ev. reflexivity. }
    simpl in *. rewrite in_app_iff in *. rewrite Hq'. exact Hgoal.
  - intros j v Hv. destruct (expanded_lk _ _ _ _ _ _ _ _ _ Hex Hv) as (v0 & Hv0 & [->|[E _]]); [eauto|discriminate].
  - intros i j v Hv Hf. destruct (expanded_lk _ _ _ _ _ _ _ _ _ Hex Hv) as (v0 & Hv0 & Hcase).
    assert (Hold : n_visited v0 = true -> n_parent v = n_parent v0 ->
      exists j' v', n_parent v = PNode i j' /\ lk a' i j' = Some v' /\ n_visited v' = true).
    { intros E1 E2. destruct (Hpar _ _ _ Hv0 E1) as (j' & v' & P1 & P2 & P3).
      pose proof (expanded_lk_inv _ _ _ _ _ _ _ _ _ Hex P2) as P4. exists j'. eexists. split; [congruence|]. split; [exact P4|].
      destruct (Nat.eqb i (S (fst r))); auto using relax_node_visited. }
    destruct Hcase as [->|[Ei ->]]; [auto|]. injection Ei as Ei. subst i.
    destruct (relax_cases r ncur v0) as [[_ E]|[E0 E]].
    + rewrite E. simpl. exists (snd r), ncur. auto.
    + destruct (n_visited v0) eqn:Ev.
      * apply Hold; auto. rewrite E. reflexivity.
      * rewrite (Hfresh _ _ Hv0 Ev) in E0. discriminate.
  - intros i j v Hv Hf. destruct (expanded_lk _ _ _ _ _ _ _ _ _ Hex Hv) as (v0 & Hv0 & [->|[Ei ->]]); [eauto|]. subst i.
    destruct (relax_cases r ncur v0) as [[_ E]|[E0 E]]; rewrite E; simpl.
    + eauto.
    + destruct (n_visited v0) eqn:Ev; [eauto|]. rewrite (Hfresh _ _ Hv0 Ev) in E0. discriminate.
  - intros r' Hr' j v Hv. destruct (expanded_lk _ _ _ _ _ _ _ _ _ Hex Hv) as (v0 & Hv0 & Hcase).
    destruct Hr' as [<-|Hr'].
    + destruct Hcase as [->|[_ ->]].
      * destruct Hex as (_ & _ & _ & E4). rewrite E4, Hv0 in Hv. simpl in Hv. injection Hv as E. rewrite <- E.
        destruct (relax_cases r ncur v0) as [[_ ->]|[_ ->]]; reflexivity.
      * destruct (relax_cases r ncur v0) as [[_ ->]|[_ ->]]; reflexivity.
    + pose proof (Hnx _ Hr' _ _ Hv0) as Hvv. destruct Hcase as [->|[_ ->]]; auto using relax_node_visited.
  - rewrite <- Hg. cbn [filter]. destruct (Nat.eqb (fst r) maxp); simpl; lia.
Qed.

Lemma DInv_start a : cshape data a -> (forall i j v, lk a i j = Some v -> untouched PDummy v) ->
  forall q0, Permutation q0 (col_refs (start_column a 0) 0) -> DInv (start_column a 0) [] q0 G0.
Proof.
  intros Hs Hun q0 Hq.
  assert (Hs' : cshape data (start_column a 0)).
  { destruct Hs as (S1 & S2 & S3). split; [rewrite length_start_column; auto|]. split.
    - intros i. rewrite collen_start_column; auto.
    - eapply same_keys_trans; [exact S3|apply same_keys_start]. }
  assert (Hc : forall i j v, lk (start_column a 0) i j = Some v ->
     (i = 0 /\ n_visited v = true /\ n_parent v = PDummy /\ n_dist v = czero) \/ (i <> 0 /\ untouched PDummy v)).
  { intros i j v Hv. rewrite lk_start_column in Hv. destruct (Nat.eqb_spec i 0) as [->|Hi]; [|right; eauto].
    left. destruct (lk a 0 j); simpl in Hv; [|discriminate]. injection Hv as <-. auto. }
  constructor.
  - exact Hs'.
  - intros i j v Hv Hf. destruct (Hc _ _ _ Hv) as [(_ & E & _)|[_ H]]; auto. congruence.
  - intros i j v Hv Hf. destruct (Hc _ _ _ Hv) as [(-> & _)|[_ (_ & _ & E)]]; [|congruence].
    simpl. rewrite Hq. apply in_col_refs. simpl; eauto.
  - intros j v Hv. destruct (Hc _ _ _ Hv) as [(_ & H)|[H _]]; [tauto|congruence].
  - intros i j v Hv Hf. destruct (Hc _ _ _ Hv) as [(H & _)|[_ (_ & _ & E)]]; [discriminate|congruence].
  - intros i j v Hv Hf. destruct (Hc _ _ _ Hv) as [(-> & _ & _ & E)|[_ (_ & _ & E)]]; [|congruence].
    exists [j]. rewrite E. pose proof (cshape_si _ _ _ _ _ Hs' Hv) as (_ & _ & Hd). econstructor; eauto.
  - intros r [].
  - simpl. lia.
Qed.

Lemma DInv_tr a P q g : DInv a P q g -> forall i j v, lk a i j = Some v -> n_visited v = true -> exists js, tr 0 a i j js.
Proof.
  intros HI. induction i as [|i IH]; intros j v Hv Hvis.
  - destruct (dv_zero _ _ _ _ HI _ _ Hv) as (_ & Hp & _). exists [j]. econstructor; eauto.
  - destruct (dv_par _ _ _ _ HI _ _ _ Hv Hvis) as (j' & v' & Hp & Hv' & Hvis').
    destruct (IH _ _ Hv' Hvis') as (js & Ht). exists (js ++ [j]). econstructor; eauto.
Qed.

(** With no empty column, at the end all goals or at least one are visited. *)
Lemma all_visited a P g : DInv a P [] g -> (forall i, i < length data -> nth i data [] <> []) ->
  forall i, i < length data -> forall j v, lk a i j = Some v -> n_visited v = true.
Proof.
  intros HI Hcol i Hi. induction i as [|i IH]; intros j v Hv.
  - destruct (dv_zero _ _ _ _ HI _ _ Hv); auto.
  - assert (Hex : exists v0, lk a i 0 = Some v0).
    { apply lk_Some_collen. destruct (dv_shape _ _ _ _ HI) as (_ & E & _). rewrite E, collen_cfresh.
      specialize (Hcol i ltac:(lia)). destruct (nth i data []); [congruence|simpl; lia]. }
    destruct Hex as (v0 & Hv0). pose proof (IH ltac:(lia) _ _ Hv0) as Hvis.
    pose proof (dv_in _ _ _ _ HI _ _ _ Hv0 Hvis) as Hin. rewrite app_nil_r in Hin.
    exact (dv_next _ _ _ _ HI _ Hin _ _ Hv).
Qed.

Lemma some_goal a P q g : DInv a P q g -> distinct a P q -> (g = 0 \/ q = []) -> maxp = top ->
  0 < G0 -> (forall i, i < length data -> nth i data [] <> []) ->
  exists j v, lk a top j = Some v /\ n_visited v = true.
Proof.
  intros HI Hd [-> | ->] Hm HG Hcol.
  - pose proof (dv_goals _ _ _ _ HI) as Hg. rewrite Hm in Hg.
    destruct (filter (fun r => Nat.eqb (fst r) top) P) as [|r l] eqn:E; [simpl in Hg; lia|].
    assert (Hr : In r (filter (fun r => Nat.eqb (fst r) top) P)) by (rewrite E; simpl; auto).
    apply filter_In in Hr. destruct Hr as [Hr Ef]. apply Nat.eqb_eq in Ef.
    destruct Hd as [_ Hd]. destruct (Hd r) as (v & Hv & Hvis); [apply in_app_iff; auto|]. rewrite Ef in Hv. eauto.
  - pose proof Hlen. assert (Hex : exists v0, lk a top 0 = Some v0).
    { apply lk_Some_collen. destruct (dv_shape _ _ _ _ HI) as (_ & E & _). rewrite E, collen_cfresh.
      specialize (Hcol top ltac:(lia)). destruct (nth top data []); [congruence|simpl; lia]. }
    destruct Hex as (v0 & Hv0). exists 0, v0. split; auto. refine (all_visited _ _ _ HI Hcol top _ _ _ Hv0). lia.
Qed.

Lemma dij_extract a P q g : DInv a P q g -> distinct a P q -> (g = 0 \/ q = []) -> maxp = top ->
  0 < G0 -> (forall i, i < length data -> nth i data [] <> []) ->
  exists j v js p, lk a top j = Some v /\ n_visited v = true /\
    (forall j' v', lk a top j' = Some v' -> cle (n_dist v) (n_dist v')) /\
    tr 0 a top j js /\ picks data js p /\ get_path_nodes true a = Ok (pn 0 js).
Proof.
  intros HI Hd He Hm HG Hcol.
  assert (Hvf : forall i j v, lk a i j = Some v -> clt (n_dist v) cinf = true -> n_visited v = true).
  { intros i j v Hv Hf. destruct (n_visited v) eqn:E; auto. destruct (dv_new _ _ _ _ HI _ _ _ Hv E) as (E2 & _).
    rewrite E2, clt_irrefl in Hf. discriminate. }
  destruct (get_path_nodes_spec n w data Hw Hu a (dv_shape _ _ _ _ HI) Hne) as [[H1 H2]|(j & v & js & p & Hv & Hf & Hmin & Htr & Hp & Hg)].
  - intros j v Hv Hf. eapply DInv_tr; eauto.
  - exfalso. destruct (some_goal _ _ _ _ HI Hd He Hm HG Hcol) as (j & v & Hv & Hvis).
    destruct (dv_walk _ _ _ _ HI _ _ _ Hv Hvis) as (js & HW). specialize (H2 _ _ Hv). rewrite (Hfin _ _ _ _ HW) in H2. discriminate.
  - exists j, v, js, p. split; auto. split; [eauto|]. auto.
Qed.

(** ** a queue that always pops a minimum *)
Section Min.
Context (Hmin : forall a q r q', pq_pop pq a q = Some (r, q') -> forall x, In x q -> cle (dist_of a r) (dist_of a x)).
Context (Hnn : forall x y d, adjacent data x y -> cle d (cadd d (ct x y))).

Record DMin (a : narr K D) (P q : list ref) (g : nat) : Prop := {
  dm_inv : DInv a P q g;
  dm_opt : forall r v, In r P -> lk a (fst r) (snd r) = Some v -> forall js c, Wk (fst r) (snd r) js c -> cle (n_dist v) c;
  dm_rel : forall r u j v, In r P -> lk a (fst r) (snd r) = Some u -> lk a (S (fst r)) j = Some v ->
     cle (n_dist v) (cadd (n_dist u) (ct (n_data u) (n_data v)));
  dm_eq : forall i j v, lk a (S i) j = Some v -> n_visited v = true ->
     exists j' u, n_parent v = PNode i j' /\ lk a i j' = Some u /\ In (i, j') P /\
       n_dist v = cadd (n_dist u) (ct (n_data u) (n_data v)) }.

Lemma dat_adjacent i j j' x y : datQ data i j = Some x -> datQ data (S i) j' = Some y -> adjacent data x y.
Proof.
  intros Hx Hy. apply datQ_col in Hx, Hy. destruct Hx as (c1 & A1 & B1), Hy as (c2 & A2 & B2).
  exists i, c1, c2. split; auto. split; auto. split; eapply nth_error_In; eauto.
Qed.

Lemma first_open a P q g : DMin a P q g -> forall i j js c, Wk i j js c -> ~ In (i, j) P ->
  exists y v, In y q /\ lk a (fst y) (snd y) = Some v /\ cle (n_dist v) c.
Proof.
  intros [HI Ho Hr He]. intros i j js c HW.
  induction HW as [j x Hx|i j js c j' x y HW IH Hx Hy _]; intros Hnin.
  - destruct (wf_dat_inv _ _ _ _ _ (cshape_dat _ _ (dv_shape _ _ _ _ HI)) Hx) as (v & Hv & _).
    destruct (dv_zero _ _ _ _ HI _ _ Hv) as (Hvis & _ & Hd).
    exists (0, j), v. split; [|split; [auto|rewrite Hd; apply cle_refl]].
    pose proof (dv_in _ _ _ _ HI _ _ _ Hv Hvis) as Hin. apply in_app_iff in Hin. tauto.
  - destruct (in_dec (fun a b : ref => ltac:(decide equality; apply Nat.eq_dec)) (i, j) P) as [Hin|Hn].
    + destruct (wf_dat_inv _ _ _ _ _ (cshape_dat _ _ (dv_shape _ _ _ _ HI)) Hx) as (u & Hu' & Eu).
      destruct (wf_dat_inv _ _ _ _ _ (cshape_dat _ _ (dv_shape _ _ _ _ HI)) Hy) as (v & Hv & Ev).
      exists (S i, j'), v. split; [|split; [auto|]].
      * pose proof (dv_next _ _ _ _ HI _ Hin _ _ Hv) as Hvis. pose proof (dv_in _ _ _ _ HI _ _ _ Hv Hvis) as Hi.
        apply in_app_iff in Hi. tauto.
      * pose proof (Hr _ _ _ _ Hin Hu' Hv) as H1. rewrite Eu, Ev in H1. eapply cle_trans; [exact H1|].
        apply cadd_le_l. eapply Ho; eauto.
    + destruct (IH Hn) as (z & v & Hz & Hv & Hle). exists z, v. split; auto. split; auto.
      eapply cle_trans; [exact Hle|]. apply Hnn. eapply dat_adjacent; eauto.
Qed.

Lemma dist_of_lk (a : narr K D) r v : lk a (fst r) (snd r) = Some v -> dist_of a r = n_dist v.
Proof. intros H. unfold dist_of. destruct r as [i j]. rewrite deref_lk. simpl in H. rewrite H. reflexivity. Qed.

Lemma DMin_step a P q r q0 q' ncur a' g : DMin a P q (S g) -> distinct a P q -> pq_pop pq a q = Some (r, q0) ->
  Permutation q (r :: q0) -> lk a (fst r) (snd r) = Some ncur -> n_visited ncur = true ->
  expanded ct all_edges a r ncur a' ->
  Permutation q' (q0 ++ filter (is_new all_edges a ncur) (col_refs a (S (fst r)))) ->
  DMin a' (r :: P) q' (if Nat.eqb (fst r) maxp then g else S g).
Proof.
  intros HM Hd Hpop Hq Hn Hvis Hex Hq'. pose proof HM as [HI Ho Hr He].
  pose proof (DInv_step _ _ _ _ _ _ _ _ _ HI Hd Hq Hn Hvis Hex Hq') as HI'.
  destruct (dv_walk _ _ _ _ HI _ _ _ Hn Hvis) as (jsr & HWr).
  pose proof (cshape_si _ _ _ _ _ (dv_shape _ _ _ _ HI) Hn) as (_ & _ & Hdr).
  (* the popped node is final *)
  assert (Hopt_r : forall js c, Wk (fst r) (snd r) js c -> cle (n_dist ncur) c).
  { intros js c HW. assert (Hnin : ~ In (fst r, snd r) P).
    { destruct Hd as [Hnd _]. intros Hin. rewrite Hq in Hnd. rewrite <- surjective_pairing in Hin.
      apply NoDup_remove_2 in Hnd. apply Hnd. apply in_app_iff; auto. }
    destruct (first_open _ _ _ _ HM _ _ _ _ HW Hnin) as (y & v & Hy & Hv & Hle).
    pose proof (Hmin _ _ _ _ Hpop y Hy) as Hm. rewrite (dist_of_lk _ _ _ Hn), (dist_of_lk _ _ _ Hv) in Hm.
    eapply cle_trans; eauto. }
  assert (Hrel : forall j v, lk a (S (fst r)) j = Some v ->
     Wk (S (fst r)) j (jsr ++ [j]) (cadd (n_dist ncur) (ct (n_data ncur) (n_data v)))).
  { intros j v Hv. pose proof (cshape_si _ _ _ _ _ (dv_shape _ _ _ _ HI) Hv) as (_ & _ & Hdv). econstructor; eauto; reflexivity. }
  (* processed nodes do not change *)
  assert (Hfroz : forall x v, In x (r :: P) -> lk a (fst x) (snd x) = Some v -> lk a' (fst x) (snd x) = Some v).
  { intros x v Hx Hv. rewrite (expanded_lk_inv _ _ _ _ _ _ _ _ _ Hex Hv).
    destruct (Nat.eqb_spec (fst x) (S (fst r))) as [E|]; auto. f_equal.
    destruct Hx as [<-|Hx]; [lia|].
    assert (Hvx : n_visited v = true).
    { destruct Hd as [_ Hd]. destruct (Hd x) as (v2 & Hv2 & Hvis2); [apply in_app_iff; auto|]. congruence. }
    rewrite E in Hv. destruct (relax_cases r ncur v) as [[C _]|[_ ->]]; [|apply set_visited_id; auto].
    pose proof (Ho x v Hx) as Hox. rewrite E in Hox. specialize (Hox Hv _ _ (Hrel _ _ Hv)). unfold cle in Hox. congruence. }
  assert (Hlow : forall i j v v', lk a i j = Some v -> lk a' i j = Some v' -> cle (n_dist v') (n_dist v) /\ n_data v' = n_data v).
  { intros i j v v' Hv Hv'. destruct (expanded_lk _ _ _ _ _ _ _ _ _ Hex Hv') as (v0 & Hv0 & Hc).
    assert (v0 = v) by congruence. subst v0. destruct Hc as [->|[_ ->]]; [split; [apply cle_refl|auto]|].
    split; [|apply relax_node_data].
    destruct (relax_cases r ncur v) as [[C ->]|[_ ->]]; simpl; [apply clt_cle; auto|apply cle_refl]. }
  constructor.
  - exact HI'.
  - intros x v Hx Hv js c HW.
    assert (Hv0 : exists v0, lk a (fst x) (snd x) = Some v0).
    { destruct (expanded_lk _ _ _ _ _ _ _ _ _ Hex Hv) as (v0 & Hv0 & _). eauto. }
    destruct Hv0 as (v0 & Hv0). pose proof (Hfroz _ _ Hx Hv0) as Hf. assert (v0 = v) by congruence. subst v0.
    destruct Hx as [<-|Hx]; [|eauto]. assert (v = ncur) by congruence. subst v. eauto.
  - intros x u j v Hx Hu' Hv.
    assert (Hu0 : exists u0, lk a (fst x) (snd x) = Some u0).
    { destruct (expanded_lk _ _ _ _ _ _ _ _ _ Hex Hu') as (v0 & Hv0 & _). eauto. }
    destruct Hu0 as (u0 & Hu0). pose proof (Hfroz _ _ Hx Hu0) as Hf. assert (u0 = u) by congruence. subst u0.
    destruct (expanded_lk _ _ _ _ _ _ _ _ _ Hex Hv) as (v0 & Hv0 & _).
    destruct (Hlow _ _ _ _ Hv0 Hv) as [Hle Hdat]. rewrite Hdat.
    destruct Hx as [<-|Hx].
    + assert (u = ncur) by congruence. subst u.
      destruct Hex as (_ & _ & _ & E4). rewrite E4, Hv0 in Hv. simpl in Hv. injection Hv as <-.
      destruct (relax_cases r ncur v0) as [[C ->]|[C ->]]; simpl; [apply cle_refl|exact C].
    + eapply cle_trans; [exact Hle|eauto].
  - intros i j v Hv Hf. destruct (expanded_lk _ _ _ _ _ _ _ _ _ Hex Hv) as (v0 & Hv0 & Hcase).
    assert (Hold : n_visited v0 = true -> n_parent v = n_parent v0 -> n_dist v = n_dist v0 -> n_data v = n_data v0 ->
      exists j' u, n_parent v = PNode i j' /\ lk a' i j' = Some u /\ In (i, j') (r :: P) /\
       n_dist v = cadd (n_dist u) (ct (n_data u) (n_data v))).
    { intros E1 E2 E3 E4. destruct (He _ _ _ Hv0 E1) as (j' & u & P1 & P2 & P3 & P4).
      exists j', u. split; [congruence|]. split; [apply (Hfroz (i, j')); simpl; auto|]. split; [simpl; auto|]. congruence. }
    destruct Hcase as [->|[Ei ->]]; [auto|]. injection Ei as Ei. subst i.
    destruct (relax_cases r ncur v0) as [[_ E]|[E0 E]].
    + rewrite E. simpl. exists (snd r), ncur. split; auto. split; [apply (Hfroz r); simpl; auto|]. split; auto.
      left. apply surjective_pairing.
    + destruct (n_visited v0) eqn:Ev.
      * apply Hold; auto; rewrite E; reflexivity.
      * exfalso. destruct (dv_new _ _ _ _ HI _ _ _ Hv0 Ev) as (E2 & _). rewrite E2 in E0.
        rewrite (Hfin _ _ _ _ (Hrel _ _ Hv0)) in E0. discriminate.
Qed.

Lemma DMin_start a : cshape data a -> (forall i j v, lk a i j = Some v -> untouched PDummy v) ->
  forall q0, Permutation q0 (col_refs (start_column a 0) 0) -> DMin (start_column a 0) [] q0 G0.
Proof.
  intros Hs Hun q0 Hq. pose proof (DInv_start a Hs Hun q0 Hq) as HI. constructor; auto.
  - intros r v [].
  - intros r u j v [].
  - intros i j v Hv Hf. exfalso. rewrite lk_start_column in Hv. simpl in Hv. apply Hun in Hv.
    destruct Hv as (_ & _ & E). congruence.
Qed.

Lemma DMin_tr a P q g : DMin a P q g -> forall i j v, lk a i j = Some v -> n_visited v = true ->
  exists js, tr 0 a i j js /\ Wk i j js (n_dist v).
Proof.
  intros HM. pose proof HM as [HI Ho Hr He]. induction i as [|i IH]; intros j v Hv Hvis.
  - destruct (dv_zero _ _ _ _ HI _ _ Hv) as (_ & Hp & Hd). exists [j]. split; [econstructor; eauto|].
    rewrite Hd. pose proof (cshape_si _ _ _ _ _ (dv_shape _ _ _ _ HI) Hv) as (_ & _ & Hdt). econstructor; eauto.
  - destruct (He _ _ _ Hv Hvis) as (j' & u & Hp & Hu' & Hin & Ed).
    assert (Hvu : n_visited u = true).
    { destruct (dv_par _ _ _ _ HI _ _ _ Hv Hvis) as (j2 & v2 & Q1 & Q2 & Q3). rewrite Hp in Q1. injection Q1 as <-. congruence. }
    destruct (IH _ _ Hu' Hvu) as (js & Ht & HW). exists (js ++ [j]). split; [econstructor; eauto|].
    rewrite Ed. pose proof (cshape_si _ _ _ _ _ (dv_shape _ _ _ _ HI) Hv) as (_ & _ & Hdt).
    pose proof (cshape_si _ _ _ _ _ (dv_shape _ _ _ _ HI) Hu') as (_ & _ & Hdu). econstructor; eauto; reflexivity.
Qed.

(** At the end every goal has been processed. *)
Lemma goals_done a P q g : DMin a P q g -> distinct a P q -> (g = 0 \/ q = []) -> maxp = top ->
  G0 = length (nth top data []) -> (forall i, i < length data -> nth i data [] <> []) ->
  forall j v, lk a top j = Some v -> In (top, j) P.
Proof.
  intros HM Hd Hend Hm HG Hcol j v Hv. pose proof (dm_inv _ _ _ _ HM) as HI. destruct Hend as [-> | ->].
  - pose proof (dv_goals _ _ _ _ HI) as Hg. simpl in Hg. rewrite Hm in Hg.
    assert (Hincl : incl (col_refs a top) (filter (fun r => Nat.eqb (fst r) top) P)).
    { apply NoDup_length_incl.
      - apply NoDup_filter. destruct Hd as [Hd _]. revert Hd. clear. induction P as [|x P IH]; intros H; [constructor|].
        inversion H; subst. constructor; auto. intros Hin. apply H2. apply in_app_iff; auto.
      - rewrite col_refs_collen, map_length, seq_length. destruct (dv_shape _ _ _ _ HI) as (_ & E & _).
        rewrite E, collen_cfresh. rewrite <- HG. rewrite <- Hg. apply Nat.le_refl.
      - intros x Hx. apply filter_In in Hx. destruct Hx as [Hx Ef]. apply Nat.eqb_eq in Ef.
        apply in_col_refs. split; auto. destruct Hd as [_ Hd]. destruct (Hd x) as (v' & Hv' & _); [apply in_app_iff; auto|eauto]. }
    assert (Hin : In (top, j) (col_refs a top)) by (apply in_col_refs; simpl; eauto).
    apply Hincl, filter_In in Hin. tauto.
  - pose proof Hlen. pose proof (all_visited _ _ _ HI Hcol top ltac:(lia) _ _ Hv) as Hvis.
    pose proof (dv_in _ _ _ _ HI _ _ _ Hv Hvis) as Hin. rewrite app_nil_r in Hin. exact Hin.
Qed.

Lemma dij_optimal a P q g : DMin a P q g -> distinct a P q -> (g = 0 \/ q = []) -> maxp = top ->
  G0 = length (nth top data []) -> (forall i, i < length data -> nth i data [] <> []) ->
  exists js p, get_path_nodes true a = Ok (pn 0 js) /\ picks data js p /\
    forall js' p', picks data js' p' -> cle (walk_cost ct p) (walk_cost ct p').
Proof.
  intros HM Hd Hend Hm HG Hcol. pose proof Hlen.
  assert (HG0 : 0 < G0). { rewrite HG. specialize (Hcol top ltac:(lia)). destruct (nth top data []); [congruence|simpl; lia]. }
  destruct (dij_extract a P q g (dm_inv _ _ _ _ HM) Hd Hend Hm HG0 Hcol) as (j & v & js & p & Hv & Hvis & Hle & Htr & Hp & Hg).
  exists js, p. split; auto. split; auto.
  destruct (DMin_tr _ _ _ _ HM _ _ _ Hv Hvis) as (js2 & Ht2 & HW).
  pose proof (tr_fun _ _ _ _ Htr _ Ht2). subst js2. destruct (Wk_top _ _ _ HW) as (p2 & Hp2 & Ec).
  pose proof (picks_fun _ _ _ _ Hp Hp2). subst p2. rewrite Ec.
  intros js' p' Hp'. destruct (top_Wk _ _ Hp') as (j' & HW').
  destruct (W_dat _ _ _ _ _ _ _ _ HW') as (x & Hx).
  destruct (wf_dat_inv _ _ _ _ _ (cshape_dat _ _ (dv_shape _ _ _ _ (dm_inv _ _ _ _ HM))) Hx) as (v' & Hv' & _).
  eapply cle_trans; [eapply Hle; eauto|].
  pose proof (goals_done _ _ _ _ HM Hd Hend Hm HG Hcol _ _ Hv') as Hin.
  exact (dm_opt _ _ _ _ HM _ _ Hin Hv' _ _ HW').
Qed.
End Min.
End Inv.
End Dij.

Lemma walks_finite : (forall js p, picks data js p -> clt (walk_cost ct p) cinf = true) ->
  (forall i, i < length data -> nth i data [] <> []) ->
  forall i j js c, Wk i j js c -> clt c cinf = true.
Proof.
  intros Hf Hcol i j js c HW. pose proof (Wk_bound _ _ _ _ HW) as Hb.
  (* extend the walk to the last column *)
  remember (top - i) as m eqn:Em. revert i j js c HW Hb Em.
  induction m as [|m IH]; intros i j js c HW Hb Em.
  - assert (i = top) as -> by lia. destruct (Wk_top _ _ _ HW) as (p & Hp & <-). eauto.
  - assert (Hn : nth (S i) data [] <> []) by (apply Hcol; lia).
    destruct (nth (S i) data []) as [|y col] eqn:E; [congruence|].
    destruct (W_dat _ _ _ _ _ _ _ _ HW) as (x & Hx).
    assert (Hy : datQ data (S i) 0 = Some y) by (rewrite datQ_nth, E; reflexivity).
    assert (HW2 : Wk (S i) 0 (js ++ [0]) (cadd c (ct x y))) by (econstructor; eauto; reflexivity).
    apply IH in HW2; [|lia|lia]. eapply cadd_lt_inf; eauto.
Qed.
End S.
