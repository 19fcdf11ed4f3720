(** * Generic facts about the layered search (any queue discipline, then FIFO). *)
From Coq Require Import List Arith Lia Bool Permutation.
From Verif Require Import PyBase Cost GraphCommon.
Import ListNotations.

Section G.
Context {K : CostStruct} {D : Type}.
Implicit Types na : narr K D.
Implicit Types n : node K D.

(** ** reading nodes by position *)
Definition lk na (i j : nat) : option (node K D) :=
  match nth_error na i with Some col => nth_error col j | None => None end.

Lemma deref_lk na i j : deref na (i, j) = match lk na i j with Some n => Ok n | None => Raise OutOfBounds end.
Proof. unfold deref, lk; simpl. destruct (nth_error na i); auto. Qed.

Lemma lk_write_same na i j n n0 : lk na i j = Some n0 -> lk (write na (i, j) n) i j = Some n.
Proof.
  unfold lk, write; simpl. destruct (nth_error na i) as [col|] eqn:E; [|discriminate].
  intros H. rewrite nth_error_upd_same.
  - apply nth_error_upd_same. apply nth_error_Some. congruence.
  - apply nth_error_Some. congruence.
Qed.

Lemma lk_write_other na i j i' j' n : (i, j) <> (i', j') -> lk (write na (i, j) n) i' j' = lk na i' j'.
Proof.
  intros H. unfold lk, write; simpl. destruct (nth_error na i) as [col|] eqn:E; auto.
  destruct (Nat.eq_dec i i') as [->|Hi].
  - rewrite nth_error_upd_same by (apply nth_error_Some; congruence). rewrite E.
    apply nth_error_upd_other. congruence.
  - rewrite nth_error_upd_other; auto.
Qed.

Definition collen na i : nat := match nth_error na i with Some col => length col | None => 0 end.

Lemma collen_write na r n i : collen (write na r n) i = collen na i.
Proof.
  unfold collen, write. destruct (nth_error na (fst r)) as [col|] eqn:E; auto.
  rewrite nth_error_upd. destruct (Nat.eq_dec (fst r) i) as [<-|]; auto.
  rewrite E. destruct (lt_dec (fst r) (length na)) as [|Hn].
  - apply upd_length.
  - exfalso. apply Hn. apply nth_error_Some. congruence.
Qed.

Lemma length_write na r n : length (write na r n) = length na.
Proof. unfold write. destruct (nth_error na (fst r)); auto. apply upd_length. Qed.

Lemma col_refs_collen na i : col_refs na i = map (fun j => (i, j)) (seq 0 (collen na i)).
Proof. unfold col_refs, collen. destruct (nth_error na i); auto. Qed.

Lemma lk_Some_collen na i j : (exists n, lk na i j = Some n) <-> j < collen na i.
Proof.
  unfold lk, collen. destruct (nth_error na i) as [col|].
  - split; intros H.
    + destruct H as [n H]. apply nth_error_Some. congruence.
    + apply nth_error_Some in H. destruct (nth_error col j); eauto; congruence.
  - split; [intros [n H]; discriminate|lia].
Qed.

Lemma in_col_refs na i r : In r (col_refs na i) <-> fst r = i /\ exists n, lk na (fst r) (snd r) = Some n.
Proof.
  rewrite col_refs_collen, in_map_iff. split.
  - intros (j & <- & Hj). simpl. split; auto. apply lk_Some_collen. apply in_seq in Hj. lia.
  - intros [H1 H2]. destruct r as [i' j]; simpl in *; subst. exists j. split; auto.
    apply in_seq. apply lk_Some_collen in H2. lia.
Qed.

Lemma col_refs_NoDup na i : NoDup (col_refs na i).
Proof.
  rewrite col_refs_collen. apply FinFun.Injective_map_NoDup; [|apply seq_NoDup].
  intros a b H. congruence.
Qed.

Lemma NoDup_app_intro {A} (l m : list A) : NoDup l -> NoDup m -> (forall x, In x l -> ~ In x m) -> NoDup (l ++ m).
Proof.
  induction l as [|x l IH]; simpl; intros H1 H2 H3; auto.
  inversion H1; subst. constructor.
  - rewrite in_app_iff. intros [H|H]; [auto|]. apply (H3 x); auto.
  - apply IH; auto.
Qed.

(** ** the effect of one expansion *)
Section Expand.
Context (cost : D -> D -> res K) (ct : D -> D -> K) (edge : D -> D -> bool).

(** What happens to a neighbour v of cur. *)
Definition relax_node (cur : ref) (ncur : node K D) (v : node K D) : node K D :=
  if edge (n_data ncur) (n_data v) then
    let nd := cadd (n_dist ncur) (ct (n_data ncur) (n_data v)) in
    let v1 := if clt nd (n_dist v) then set_label v nd (PNode (fst cur) (snd cur)) else v in
    set_visited v1
  else v.

Definition is_new na (ncur : node K D) (r : ref) : bool :=
  match lk na (fst r) (snd r) with
  | Some v => edge (n_data ncur) (n_data v) && negb (n_visited v)
  | None => false
  end.

(** New state described by lookups: only column i+1 changes. *)
Definition expanded na (cur : ref) (ncur : node K D) na' : Prop :=
  length na' = length na /\
  (forall i, collen na' i = collen na i) /\
  (forall i j, i <> S (fst cur) -> lk na' i j = lk na i j) /\
  (forall j, lk na' (S (fst cur)) j = option_map (relax_node cur ncur) (lk na (S (fst cur)) j)).

Context (push : narr K D -> list ref -> ref -> list ref).
Context (Rq : list ref -> list ref -> Prop).
Context (Rq_push : forall na q q0 r, Rq q q0 -> Rq (push na q r) (q0 ++ [r])).

Lemma set_visited_id (v : node K D) : n_visited v = true -> set_visited v = v.
Proof. destruct v; simpl; intros ->; reflexivity. Qed.

Lemma relax_fold (cur : ref) (ncur : node K D) : forall rs na q q0,
  NoDup rs -> (forall r, In r rs -> fst r = S (fst cur)) ->
  lk na (fst cur) (snd cur) = Some ncur ->
  (forall r, In r rs -> exists v, lk na (fst r) (snd r) = Some v /\
      cost (n_data ncur) (n_data v) = Ok (ct (n_data ncur) (n_data v)) /\
      edge (n_data ncur) (n_data v) = true) ->
  Rq q q0 ->
  exists na' q', foldM (relax1 cost push cur) rs (na, q) = Ok (na', q') /\
    length na' = length na /\
    (forall i, collen na' i = collen na i) /\
    (forall r, ~ In r rs -> lk na' (fst r) (snd r) = lk na (fst r) (snd r)) /\
    (forall r, In r rs -> lk na' (fst r) (snd r) = option_map (relax_node cur ncur) (lk na (fst r) (snd r))) /\
    Rq q' (q0 ++ filter (is_new na ncur) rs).
Proof.
  induction rs as [|r rs IH]; intros na q q0 Hnd Hcol Hcur Hrs HR.
  - exists na, q. simpl. rewrite app_nil_r. repeat split; auto. intros r [].
  - inversion Hnd as [|? ? Hnin Hnd']; subst.
    destruct (Hrs r (or_introl eq_refl)) as (v & Hv & Hc & He).
    assert (Hcr : cur <> r).
    { intros E. specialize (Hcol r (or_introl eq_refl)). rewrite <- E in Hcol. lia. }
    destruct cur as [ci cj]; destruct r as [ri rj]; simpl fst in *; simpl snd in *.
    pose (nd := cadd (n_dist ncur) (ct (n_data ncur) (n_data v))).
    pose (v1 := if clt nd (n_dist v) then set_label v nd (PNode ci cj) else v).
    assert (Hv1 : n_visited v1 = n_visited v) by (unfold v1; destruct (clt nd (n_dist v)); reflexivity).
    assert (Hstep : exists na1 q1,
      relax1 cost push (ci, cj) (na, q) (ri, rj) = Ok (na1, q1) /\
      length na1 = length na /\ (forall i, collen na1 i = collen na i) /\
      (forall r, r <> (ri, rj) -> lk na1 (fst r) (snd r) = lk na (fst r) (snd r)) /\
      lk na1 ri rj = Some (set_visited v1) /\
      Rq q1 (q0 ++ filter (is_new na ncur) [(ri, rj)])).
    { unfold relax1. rewrite !deref_lk, Hcur, Hv. cbn [bind]. rewrite Hc. cbn [bind].
      change (if clt (cadd (n_dist ncur) (ct (n_data ncur) (n_data v))) (n_dist v)
              then set_label v (cadd (n_dist ncur) (ct (n_data ncur) (n_data v)))
                     (PNode (fst (ci, cj)) (snd (ci, cj))) else v) with v1.
      rewrite Hv1. simpl filter. unfold is_new at 1. simpl fst; simpl snd. rewrite Hv, He. simpl andb.
      destruct (n_visited v) eqn:Ev; cbn [negb].
      - exists (write na (ri, rj) v1), q. rewrite app_nil_r. split; [reflexivity|].
        split; [apply length_write|]. split; [intros; apply collen_write|].
        split. { intros [i j] Hne. simpl. apply lk_write_other. congruence. }
        split; [|auto]. rewrite set_visited_id by congruence. eapply lk_write_same; eauto.
      - exists (write (write na (ri, rj) v1) (ri, rj) (set_visited v1)), (push (write na (ri, rj) v1) q (ri, rj)).
        split; [reflexivity|].
        split; [rewrite !length_write; auto|]. split; [intros; rewrite !collen_write; auto|].
        split. { intros [i j] Hne. simpl. rewrite !lk_write_other by congruence. reflexivity. }
        split. { eapply lk_write_same, lk_write_same; eauto. }
        apply Rq_push; auto. }
    destruct Hstep as (na1 & q1 & Hst & Hlen1 & Hcl1 & Hoth1 & Hself1 & HR1).
    destruct (IH na1 q1 (q0 ++ filter (is_new na ncur) [(ri, rj)]) Hnd') as (na' & q' & Hf & Hlen & Hcl & Hoth & Hin & HRq); auto.
    { intros r Hr; apply Hcol; simpl; auto. }
    { rewrite <- Hcur. apply (Hoth1 (ci, cj)). auto. }
    { intros r Hr. destruct (Hrs r (or_intror Hr)) as (v' & Hv' & Hc' & He').
      exists v'. split; auto. rewrite <- Hv'. apply Hoth1. intros ->. auto. }
    exists na', q'. cbn [foldM]. rewrite Hst. cbn [bind]. split; [exact Hf|].
    split; [congruence|]. split; [intros; rewrite Hcl; auto|].
    split. { intros r Hr. simpl in Hr. rewrite Hoth by tauto. apply Hoth1. intros ->; tauto. }
    split.
    { intros r [<-|Hr].
      - rewrite Hoth by auto. simpl fst; simpl snd. rewrite Hself1, Hv. simpl. f_equal.
        unfold relax_node. rewrite He. reflexivity.
      - rewrite Hin by auto. rewrite Hoth1 by (intros ->; auto). reflexivity. }
    assert (Efil : filter (is_new na1 ncur) rs = filter (is_new na ncur) rs).
    { apply filter_ext_in. intros r Hr. unfold is_new. rewrite Hoth1 by (intros ->; auto). reflexivity. }
    change ((ri, rj) :: rs) with ([(ri, rj)] ++ rs). rewrite filter_app, app_assoc.
    rewrite Efil in HRq. exact HRq.
Qed.

Definition edge_ref na (ncur : node K D) (r : ref) : bool :=
  match lk na (fst r) (snd r) with Some v => edge (n_data ncur) (n_data v) | None => false end.

Lemma filter_filter {A} (f g : A -> bool) l : filter f (filter g l) = filter (fun x => g x && f x) l.
Proof. induction l as [|x l IH]; simpl; auto. destruct (g x); simpl; rewrite IH; auto. Qed.

Lemma expand_col (cur : ref) (ncur : node K D) na q q0 :
  lk na (fst cur) (snd cur) = Some ncur ->
  (forall j v, lk na (S (fst cur)) j = Some v -> cost (n_data ncur) (n_data v) = Ok (ct (n_data ncur) (n_data v))) ->
  Rq q q0 ->
  exists na' q',
    foldM (relax1 cost push cur) (filter (edge_ref na ncur) (col_refs na (S (fst cur)))) (na, q) = Ok (na', q') /\
    expanded na cur ncur na' /\ Rq q' (q0 ++ filter (is_new na ncur) (col_refs na (S (fst cur)))).
Proof.
  intros Hcur Hcost HR.
  destruct (relax_fold cur ncur (filter (edge_ref na ncur) (col_refs na (S (fst cur)))) na q q0)
    as (na' & q' & Hf & Hlen & Hcl & Hoth & Hin & HRq); auto.
  - apply NoDup_filter, col_refs_NoDup.
  - intros r Hr. apply filter_In in Hr. destruct Hr as [Hr _]. apply in_col_refs in Hr. tauto.
  - intros r Hr. apply filter_In in Hr. destruct Hr as [Hr He]. apply in_col_refs in Hr.
    destruct Hr as (Hfst & v & Hv). exists v. split; auto. rewrite Hfst in Hv. split; [eauto|].
    unfold edge_ref in He. rewrite Hfst, Hv in He. exact He.
  - exists na', q'. split; [exact Hf|]. split.
    + split; [exact Hlen|]. split; [exact Hcl|]. split.
      * intros i j Hi. apply (Hoth (i, j)). intros Hr. apply filter_In in Hr. destruct Hr as [Hr _].
        apply in_col_refs in Hr. simpl in Hr. tauto.
      * intros j. destruct (lk na (S (fst cur)) j) as [v|] eqn:Ev.
        -- destruct (edge (n_data ncur) (n_data v)) eqn:Ee.
           ++ pose proof (Hin (S (fst cur), j)) as Hx; simpl in Hx; rewrite Hx; [rewrite Ev; reflexivity|].
              apply filter_In. split.
              ** apply in_col_refs; simpl; eauto.
              ** unfold edge_ref; simpl. rewrite Ev; auto.
           ++ pose proof (Hoth (S (fst cur), j)) as Hx; simpl in Hx; rewrite Hx.
              ** rewrite Ev. cbn [option_map]. unfold relax_node. rewrite Ee. reflexivity.
              ** intros Hr. apply filter_In in Hr. destruct Hr as [_ Hr].
                 unfold edge_ref in Hr; simpl in Hr. rewrite Ev in Hr. congruence.
        -- pose proof (Hoth (S (fst cur), j)) as Hx; simpl in Hx; rewrite Hx; [rewrite Ev; reflexivity|].
           intros Hr. apply filter_In in Hr. destruct Hr as [_ Hr].
           unfold edge_ref in Hr; simpl in Hr. rewrite Ev in Hr. discriminate.
    + rewrite filter_filter in HRq.
      replace (filter (is_new na ncur) (col_refs na (S (fst cur)))) with
        (filter (fun x => edge_ref na ncur x && is_new na ncur x) (col_refs na (S (fst cur)))); auto.
      apply filter_ext. intros r. unfold edge_ref, is_new.
      destruct (lk na (fst r) (snd r)) as [v|]; auto. destruct (edge (n_data ncur) (n_data v)); auto.
Qed.
End Expand.

(** ** termination: every node is popped at most once *)
Definition all_refs na : list ref := flat_map (col_refs na) (seq 0 (length na)).

Lemma in_all_refs na r : In r (all_refs na) <-> exists n, lk na (fst r) (snd r) = Some n.
Proof.
  unfold all_refs. rewrite in_flat_map. split.
  - intros (i & _ & Hr). apply in_col_refs in Hr. tauto.
  - intros [n Hn]. exists (fst r). split.
    + apply in_seq. split; [lia|]. simpl. apply nth_error_Some.
      unfold lk in Hn. destruct (nth_error na (fst r)); congruence.
    + apply in_col_refs. eauto.
Qed.

Lemma flat_map_length_seq na : forall k, length (flat_map (fun i => col_refs na (k + i)) (seq 0 (length na - k)))
  = count_nodes (skipn k na).
Proof.
  intros k. remember (length na - k) as m eqn:Em. revert k Em.
  induction m as [|m IH]; intros k Em.
  - rewrite skipn_all2 by lia. reflexivity.
  - assert (Hk : k < length na) by lia.
    destruct (nth_error na k) as [col|] eqn:Ek; [|apply nth_error_None in Ek; lia].
    assert (Hs : skipn k na = col :: skipn (S k) na).
    { clear -Ek. revert na Ek. induction k as [|k IH]; intros [|c na] H; simpl in *; try discriminate.
      - congruence.
      - apply IH; auto. }
    rewrite Hs. change (count_nodes (col :: skipn (S k) na)) with (length col + count_nodes (skipn (S k) na)).
    cbn [seq flat_map]. rewrite app_length. rewrite <- (IH (S k)) by lia.
    rewrite Nat.add_0_r, col_refs_collen, map_length, seq_length. unfold collen. rewrite Ek. f_equal.
    rewrite <- seq_shift, flat_map_concat_map, map_map, <- flat_map_concat_map.
    f_equal. apply flat_map_ext. intros i. f_equal. lia.
Qed.

Lemma all_refs_length na : length (all_refs na) = count_nodes na.
Proof.
  pose proof (flat_map_length_seq na 0) as H. rewrite Nat.sub_0_r in H. simpl in H. exact H.
Qed.

Lemma count_nodes_same na na' : length na' = length na -> (forall i, collen na' i = collen na i) ->
  count_nodes na' = count_nodes na.
Proof.
  intros H1 H2. rewrite <- !all_refs_length. unfold all_refs. rewrite H1.
  f_equal. apply flat_map_ext. intros i. rewrite !col_refs_collen, H2. reflexivity.
Qed.

(** Entries processed so far (P) and queued (q) are distinct visited nodes. *)
Definition distinct na (P q : list ref) : Prop :=
  NoDup (P ++ q) /\ forall r, In r (P ++ q) -> exists n, lk na (fst r) (snd r) = Some n /\ n_visited n = true.

Lemma distinct_bound na P q : distinct na P q -> length P + length q <= count_nodes na.
Proof.
  intros [H1 H2]. rewrite <- app_length, <- all_refs_length.
  apply NoDup_incl_length; auto. intros r Hr. apply in_all_refs. destruct (H2 r Hr) as (n & Hn & _); eauto.
Qed.

Section Step.
Context (ct : D -> D -> K) (edge : D -> D -> bool).

Lemma relax_node_visited cur ncur v : n_visited v = true -> n_visited (relax_node ct edge cur ncur v) = true.
Proof.
  unfold relax_node. destruct (edge _ _); auto.
Qed.
Lemma relax_node_data cur ncur v : n_data (relax_node ct edge cur ncur v) = n_data v.
Proof. unfold relax_node. destruct (edge _ _); auto. simpl. destruct (clt _ _); auto. Qed.
Lemma relax_node_pi cur ncur v : n_pi (relax_node ct edge cur ncur v) = n_pi v.
Proof. unfold relax_node. destruct (edge _ _); auto. simpl. destruct (clt _ _); auto. Qed.
Lemma relax_node_si cur ncur v : n_si (relax_node ct edge cur ncur v) = n_si v.
Proof. unfold relax_node. destruct (edge _ _); auto. simpl. destruct (clt _ _); auto. Qed.

Lemma expanded_lk na cur ncur na' i j n' : expanded ct edge na cur ncur na' -> lk na' i j = Some n' ->
  exists n, lk na i j = Some n /\ (n' = n \/ (i = S (fst cur) /\ n' = relax_node ct edge cur ncur n)).
Proof.
  intros (_ & _ & H1 & H2) H. destruct (Nat.eq_dec i (S (fst cur))) as [->|Hi].
  - rewrite H2 in H. destruct (lk na (S (fst cur)) j) as [n|]; [|discriminate].
    simpl in H. injection H as <-. exists n; auto.
  - rewrite H1 in H by auto. exists n'; auto.
Qed.

Lemma expanded_lk_inv na cur ncur na' i j n : expanded ct edge na cur ncur na' -> lk na i j = Some n ->
  lk na' i j = Some (if Nat.eqb i (S (fst cur)) then relax_node ct edge cur ncur n else n).
Proof.
  intros (_ & _ & H1 & H2) H. destruct (Nat.eqb_spec i (S (fst cur))) as [->|Hi].
  - rewrite H2, H. reflexivity.
  - rewrite H1 by auto. exact H.
Qed.

Lemma distinct_step na P q r q0 ncur na' q' :
  distinct na P q -> Permutation q (r :: q0) ->
  expanded ct edge na r ncur na' ->
  Permutation q' (q0 ++ filter (is_new edge na ncur) (col_refs na (S (fst r)))) ->
  distinct na' (r :: P) q'.
Proof.
  intros [Hnd Hv] Hp Hex Hq'.
  pose (new := filter (is_new edge na ncur) (col_refs na (S (fst r)))).
  assert (Hperm : Permutation ((r :: P) ++ q') ((P ++ q) ++ new)).
  { rewrite Hq'. rewrite Hp. fold new. simpl.
    rewrite <- app_assoc. simpl. rewrite <- Permutation_middle. apply perm_skip. rewrite app_assoc. reflexivity. }
  assert (Hnew : forall x, In x new -> exists n, lk na (fst x) (snd x) = Some n /\ n_visited n = false /\
                  fst x = S (fst r) /\ edge (n_data ncur) (n_data n) = true).
  { intros x Hx. apply filter_In in Hx. destruct Hx as [Hx1 Hx2]. apply in_col_refs in Hx1.
    destruct Hx1 as (Hf & n & Hn). unfold is_new in Hx2. rewrite Hn in Hx2.
    apply andb_prop in Hx2. destruct Hx2 as [He Hvis]. exists n. repeat split; auto.
    destruct (n_visited n); auto; discriminate. }
  split.
  - rewrite Hperm. apply NoDup_app_intro; auto.
    + apply NoDup_filter, col_refs_NoDup.
    + intros x Hx Hx2. destruct (Hnew x Hx2) as (n & Hn & Hvn & _). destruct (Hv x Hx) as (n2 & Hn2 & Hv2).
      congruence.
  - intros x Hx. rewrite Hperm in Hx. apply in_app_iff in Hx. destruct Hx as [Hx|Hx].
    + destruct (Hv x Hx) as (n & Hn & Hvn). pose proof (expanded_lk_inv _ _ _ _ _ _ _ Hex Hn) as Hn'.
      eexists; split; [exact Hn'|]. destruct (Nat.eqb (fst x) (S (fst r))); auto.
      apply relax_node_visited; auto.
    + destruct (Hnew x Hx) as (n & Hn & Hvn & Hf & He). pose proof (expanded_lk_inv _ _ _ _ _ _ _ Hex Hn) as Hn'.
      eexists; split; [exact Hn'|]. rewrite Hf, Nat.eqb_refl. unfold relax_node. rewrite He. reflexivity.
Qed.
End Step.

(** Position, sample index and data never change. *)
Definition key (n : node K D) : nat * nat * D := (n_pi n, n_si n, n_data n).
Definition same_keys na na' : Prop := forall i j, option_map key (lk na' i j) = option_map key (lk na i j).
Lemma same_keys_refl na : same_keys na na.
Proof. intros i j; reflexivity. Qed.
Lemma same_keys_trans a b c : same_keys a b -> same_keys b c -> same_keys a c.
Proof. intros H1 H2 i j. rewrite H2. apply H1. Qed.
Lemma expanded_keys ct edge na cur ncur na' : expanded ct edge na cur ncur na' -> same_keys na na'.
Proof.
  intros (_ & _ & H1 & H2) i j. destruct (Nat.eq_dec i (S (fst cur))) as [->|Hi].
  - rewrite H2. destruct (lk na (S (fst cur)) j); simpl; auto. unfold key.
    rewrite relax_node_pi, relax_node_si, relax_node_data. reflexivity.
  - rewrite H1 by auto. reflexivity.
Qed.

(** ** FIFO search *)
Section Bfs.
Context (cost : D -> D -> res K) (ct : D -> D -> K) (edge : D -> D -> bool).
Context (L : nat).
Context (expand : narr K D -> list ref -> ref -> res (narr K D * list ref)).

Definition wfd na : Prop :=
  length na = L /\
  (forall i j n, lk na i j = Some n -> n_pi n = i) /\
  (forall i j j' n n', lk na i j = Some n -> lk na (S i) j' = Some n' ->
     cost (n_data n) (n_data n') = Ok (ct (n_data n) (n_data n'))).

Lemma wfd_step na cur ncur na' : wfd na -> expanded ct edge na cur ncur na' -> wfd na'.
Proof.
  intros (H0 & H1 & H2) Hex. split; [destruct Hex as (Hl & _); congruence|]. split.
  - intros i j n' Hn'. destruct (expanded_lk _ _ _ _ _ _ _ _ _ Hex Hn') as (n & Hn & [->|[_ ->]]); eauto.
    rewrite relax_node_pi; eauto.
  - intros i j j' n n' Hn Hn'.
    destruct (expanded_lk _ _ _ _ _ _ _ _ _ Hex Hn) as (m & Hm & Em).
    destruct (expanded_lk _ _ _ _ _ _ _ _ _ Hex Hn') as (m' & Hm' & Em').
    assert (n_data n = n_data m) as -> by (destruct Em as [->|[_ ->]]; auto; apply relax_node_data).
    assert (n_data n' = n_data m') as -> by (destruct Em' as [->|[_ ->]]; auto; apply relax_node_data).
    eauto.
Qed.

Context (Hexp : forall na q cur ncur, wfd na -> lk na (fst cur) (snd cur) = Some ncur ->
  exists na', expand na q cur = Ok (na', q ++ filter (is_new edge na ncur) (col_refs na (S (fst cur)))) /\
    expanded ct edge na cur ncur na').

Lemma bfs_rule (I : narr K D -> list ref -> list ref -> Prop) :
  (forall na P r q ncur na', I na P (r :: q) -> wfd na -> distinct na P (r :: q) ->
     lk na (fst r) (snd r) = Some ncur -> expanded ct edge na r ncur na' ->
     I na' (r :: P) (q ++ filter (is_new edge na ncur) (col_refs na (S (fst r))))) ->
  forall fuel na P q, I na P q -> wfd na -> distinct na P q -> count_nodes na <= fuel + length P ->
  exists na' P', bfs_loop expand fuel na q = Ok na' /\ I na' P' [] /\ wfd na' /\ distinct na' P' [] /\
    (forall i, collen na' i = collen na i) /\ length na' = length na /\ same_keys na na'.
Proof.
  intros Hstep. induction fuel as [|fuel IH]; intros na P q HI Hwf Hd Hf.
  - destruct q as [|r q].
    + exists na, P. simpl. auto 10 using same_keys_refl.
    + exfalso. apply distinct_bound in Hd. simpl in Hd. lia.
  - destruct q as [|r q].
    + exists na, P. simpl. auto 10 using same_keys_refl.
    + assert (Hr : exists ncur, lk na (fst r) (snd r) = Some ncur /\ n_visited ncur = true).
      { destruct Hd as [_ Hd]. apply Hd. apply in_app_iff. simpl; auto. }
      destruct Hr as (ncur & Hncur & _).
      destruct (Hexp na q r ncur Hwf Hncur) as (na' & He & Hex).
      cbn [bfs_loop]. rewrite He. cbn [bind].
      pose proof (wfd_step _ _ _ _ Hwf Hex) as Hwf'.
      assert (Hd' : distinct na' (r :: P) (q ++ filter (is_new edge na ncur) (col_refs na (S (fst r))))).
      { eapply distinct_step; eauto. }
      destruct (IH na' (r :: P) _ (Hstep _ _ _ _ _ _ HI Hwf Hd Hncur Hex) Hwf' Hd') as (na2 & P2 & HA & HB & HC & HE & HF & HG & HK).
      { rewrite (count_nodes_same na na') by apply Hex. simpl. lia. }
      exists na2, P2. pose proof (same_keys_trans _ _ _ (expanded_keys _ _ _ _ _ _ Hex) HK) as HK'.
      destruct Hex as (Hl & Hcl & _).
      split; [exact HA|]. split; [exact HB|]. split; [exact HC|]. split; [exact HE|]. split.
      * intros i. rewrite HF. apply Hcl.
      * split; [congruence|exact HK'].
Qed.

(** *** the level invariant *)
Context (dat : nat -> nat -> option D) (s : nat) (p0 : parent).

(** Walks from the start column along edges, with their accumulated cost. *)
Inductive W : nat -> nat -> list nat -> K -> Prop :=
| W_start : forall j x, dat s j = Some x -> W s j [j] czero
| W_step : forall i j js c j' x y, W i j js c -> dat i j = Some x -> dat (S i) j' = Some y ->
    edge x y = true -> W (S i) j' (js ++ [j']) (cadd c (ct x y)).

Lemma W_ge i j js c : W i j js c -> s <= i.
Proof. induction 1; lia. Qed.
Lemma W_dat i j js c : W i j js c -> exists x, dat i j = Some x.
Proof. destruct 1; eauto. Qed.
Lemma W_prefix i j js c : W i j js c -> forall i', s <= i' <= i -> exists j' js' c', W i' j' js' c'.
Proof.
  induction 1 as [j x H|i j js c j' x y HW IH Hx Hy He]; intros i' Hi'.
  - assert (i' = s) as -> by lia. exists j, [j], czero. econstructor; eauto.
  - destruct (Nat.eq_dec i' (S i)) as [->|Hn].
    + eexists _, _, _. econstructor; eauto.
    + apply IH. lia.
Qed.
Lemma W_inv_start j js c : W s j js c -> js = [j] /\ c = czero.
Proof.
  intros H. inversion H; subst; auto. exfalso.
  match goal with H : W _ _ _ _ |- _ => apply W_ge in H end. lia.
Qed.
Lemma W_inv_step i j' js' c' : s <= i -> W (S i) j' js' c' ->
  exists j js c x y, W i j js c /\ dat i j = Some x /\ dat (S i) j' = Some y /\ edge x y = true /\
    js' = js ++ [j'] /\ c' = cadd c (ct x y).
Proof.
  intros Hs H. inversion H; subst; [lia|]. eexists _, _, _, _, _; repeat split; eauto.
Qed.

(** The chain of parents of a node, as sample positions. *)
Inductive tr na : nat -> nat -> list nat -> Prop :=
| tr_start : forall j n, lk na s j = Some n -> n_parent n = PDummy -> tr na s j [j]
| tr_step : forall i j j' n js, lk na (S i) j' = Some n -> n_parent n = PNode i j -> tr na i j js ->
    tr na (S i) j' (js ++ [j']).

Lemma tr_ext na na' i j js : (forall i' j', i' <= i -> lk na' i' j' = lk na i' j') -> tr na i j js -> tr na' i j js.
Proof.
  intros H Ht. induction Ht as [j n Hn Hp|i j j' n js Hn Hp Ht IH].
  - apply tr_start with n; auto. rewrite H; auto.
  - eapply tr_step with (n := n); eauto. rewrite H; auto.
Qed.

Definition untouched (v : node K D) : Prop := n_dist v = cinf /\ n_parent v = p0 /\ n_visited v = false.

Definition Final na (i : nat) : Prop := forall j v, lk na i j = Some v ->
  (n_visited v = true <-> exists js c, W i j js c) /\
  (forall js c, W i j js c -> cle (n_dist v) c) /\
  ((n_dist v = cinf /\ n_parent v = p0) \/
   (clt (n_dist v) cinf = true /\ n_parent v <> PNone /\ exists js, tr na i j js /\ W i j js (n_dist v))).

Definition wf_dat na : Prop := forall i j, option_map n_data (lk na i j) = dat i j.

Definition Lev na (k : nat) (P rest new : list ref) : Prop :=
  s <= k /\
  (forall r, In r rest -> fst r = k) /\ (forall r, In r new -> fst r = S k) /\
  (forall r, In r P -> fst r <= k) /\
  (forall j n, lk na k j = Some n -> (n_visited n = true <-> In (k, j) rest \/ In (k, j) P)) /\
  (forall i, s <= i <= k -> Final na i) /\
  (forall j v, lk na (S k) j = Some v ->
     (n_visited v = true <-> In (S k, j) new) /\
     (n_visited v = true <-> exists j' u, In (k, j') P /\ lk na k j' = Some u /\ edge (n_data u) (n_data v) = true) /\
     (forall j' u, In (k, j') P -> lk na k j' = Some u -> edge (n_data u) (n_data v) = true ->
        cle (n_dist v) (cadd (n_dist u) (ct (n_data u) (n_data v)))) /\
     ((n_dist v = cinf /\ n_parent v = p0) \/
      exists j' u, In (k, j') P /\ lk na k j' = Some u /\ edge (n_data u) (n_data v) = true /\
        n_parent v = PNode k j' /\ n_dist v = cadd (n_dist u) (ct (n_data u) (n_data v)) /\
        clt (n_dist v) cinf = true)) /\
  (forall i j v, S k < i \/ i < s -> lk na i j = Some v -> untouched v).

Lemma wf_dat_lk na i j n : wf_dat na -> lk na i j = Some n -> dat i j = Some (n_data n).
Proof. intros H Hn. rewrite <- H, Hn. reflexivity. Qed.
Lemma wf_dat_inv na i j x : wf_dat na -> dat i j = Some x -> exists n, lk na i j = Some n /\ n_data n = x.
Proof. intros H Hx. rewrite <- H in Hx. destruct (lk na i j) as [n|]; [|discriminate]. simpl in Hx. injection Hx; eauto. Qed.

Lemma Lev_final_next na k P new : wf_dat na -> Lev na k P [] new -> Final na (S k).
Proof.
  intros Hwf (Hs & Hr & Hn & HP & HA & HB & HC & HD). intros j v Hv.
  destruct (HC j v Hv) as (C1 & C2 & C3 & C4). split; [|split].
  - rewrite C2. split.
    + intros (j' & u & HinP & Hu & He).
      destruct (HB k ltac:(lia) j' u Hu) as (B1 & _). destruct B1 as [B1 _].
      destruct B1 as (js & c & HW). { apply (HA j' u Hu). auto. }
      exists (js ++ [j]), (cadd c (ct (n_data u) (n_data v))).
      econstructor; eauto; apply wf_dat_lk with na; auto.
    + intros (js & c & HW). apply W_inv_step in HW; auto.
      destruct HW as (j' & js' & c' & x & y & HW & Hx & Hy & He & _).
      destruct (wf_dat_inv _ _ _ _ Hwf Hx) as (u & Hu & <-).
      assert (y = n_data v). { apply (wf_dat_lk na) in Hv; auto. congruence. } subst y.
      exists j', u. split; [|auto].
      destruct (HB k ltac:(lia) j' u Hu) as (B1 & _).
      assert (Hvis : n_visited u = true) by (apply B1; eauto).
      apply (HA j' u Hu) in Hvis. simpl in Hvis. tauto.
  - intros js c HW. apply W_inv_step in HW; auto.
    destruct HW as (j' & js' & c' & x & y & HW & Hx & Hy & He & _ & ->).
    destruct (wf_dat_inv _ _ _ _ Hwf Hx) as (u & Hu & <-).
    assert (y = n_data v). { apply (wf_dat_lk na) in Hv; auto. congruence. } subst y.
    destruct (HB k ltac:(lia) j' u Hu) as (B1 & B2 & _).
    assert (Hvis : n_visited u = true) by (apply B1; eauto).
    apply (HA j' u Hu) in Hvis. simpl in Hvis. destruct Hvis as [[]|Hvis].
    eapply cle_trans; [eapply C3; eauto|]. apply cadd_le_l. eauto.
  - destruct C4 as [C4|(j' & u & HinP & Hu & He & Hpar & Hdist & Hfin)]; [left; auto|right].
    split; auto. split; [congruence|].
    destruct (HB k ltac:(lia) j' u Hu) as (_ & _ & B3).
    assert (Hufin : clt (n_dist u) cinf = true). { apply cadd_lt_inf with (ct (n_data u) (n_data v)). congruence. }
    destruct B3 as [[B3 _]|(_ & _ & js & Ht & HW)].
    { rewrite B3, clt_irrefl in Hufin. discriminate. }
    exists (js ++ [j]). split.
    + eapply tr_step; eauto.
    + rewrite Hdist. econstructor; eauto; apply wf_dat_lk with na; auto.
Qed.

Lemma Lev_shift na k P new : wf_dat na -> Lev na k P [] new -> Lev na (S k) P new [].
Proof.
  intros Hwf H. pose proof (Lev_final_next _ _ _ _ Hwf H) as HF.
  destruct H as (Hs & Hr & Hn & HP & HA & HB & HC & HD).
  split; [lia|]. split; [auto|]. split; [intros r []|]. split; [intros r Hin; specialize (HP r Hin); lia|].
  split.
  { intros j n Hj. destruct (HC j n Hj) as (C1 & _). rewrite C1. split; [auto|].
    intros [H|H]; auto. specialize (HP _ H). simpl in HP. lia. }
  split.
  { intros i Hi. destruct (Nat.eq_dec i (S k)) as [->|]; auto. apply HB. lia. }
  split.
  { intros j v Hv. destruct (HD (S (S k)) j v) as (U1 & U2 & U3); [lia|auto|].
    split. { rewrite U3. split; [discriminate|intros []]. }
    split. { rewrite U3. split; [discriminate|]. intros (j' & u & HinP & _). specialize (HP _ HinP). simpl in HP. lia. }
    split; [|left; auto].
    intros j' u HinP. specialize (HP _ HinP). simpl in HP. lia. }
  intros i j v Hi. apply HD. lia.
Qed.

Lemma Final_ext na na' i : (forall i' j', i' <= i -> lk na' i' j' = lk na i' j') -> Final na i -> Final na' i.
Proof.
  intros H HF j v Hv. rewrite H in Hv by auto. destruct (HF j v Hv) as (F1 & F2 & F3).
  split; auto. split; auto. destruct F3 as [F3|(F3 & F4 & js & Ht & HW)]; [left; auto|right].
  split; auto. split; auto. exists js. split; auto. eapply tr_ext; eauto.
Qed.

Lemma Lev_step na k P r rest new ncur na' : Lev na k P (r :: rest) new ->
  lk na (fst r) (snd r) = Some ncur -> expanded ct edge na r ncur na' ->
  Lev na' k (r :: P) rest (new ++ filter (is_new edge na ncur) (col_refs na (S (fst r)))).
Proof.
  intros (Hs & Hr & Hn & HP & HA & HB & HC & HD) Hncur Hex.
  assert (Hk : fst r = k) by (apply Hr; simpl; auto).
  pose proof Hex as (_ & _ & Hoth & Hcol). rewrite Hk in *.
  assert (Hrk : r = (k, snd r)) by (destruct r; simpl in *; congruence).
  split; [auto|]. split; [intros; apply Hr; simpl; auto|]. split.
  { intros x Hx. apply in_app_iff in Hx. destruct Hx as [Hx|Hx]; auto.
    apply filter_In in Hx. destruct Hx as [Hx _]. apply in_col_refs in Hx. tauto. }
  split. { intros x [<-|Hx]; [lia|auto]. }
  split.
  { intros j n Hj. rewrite Hoth in Hj by lia. rewrite (HA j n Hj). simpl. tauto. }
  split.
  { intros i Hi. apply Final_ext with na; [|auto]. intros; apply Hoth; lia. }
  split.
  2:{ intros i j v Hi Hv. rewrite Hoth in Hv by lia. eauto. }
  intros j v' Hv'. rewrite Hcol in Hv'.
  destruct (lk na (S k) j) as [v|] eqn:Ev; [|discriminate]. simpl in Hv'. injection Hv' as <-.
  destruct (HC j v Ev) as (C1 & C2 & C3 & C4).
  rewrite relax_node_data.
  assert (Hnew : In (S k, j) (filter (is_new edge na ncur) (col_refs na (S k))) <->
                 edge (n_data ncur) (n_data v) = true /\ n_visited v = false).
  { rewrite filter_In, in_col_refs. unfold is_new. simpl. rewrite Ev, andb_true_iff, negb_true_iff.
    split; [tauto|]. intros H; split; [eauto|auto]. }
  assert (Hlk : forall j', lk na' k j' = lk na k j') by (intros; apply Hoth; lia).
  unfold relax_node. destruct (edge (n_data ncur) (n_data v)) eqn:Ee.
  - set (nd := cadd (n_dist ncur) (ct (n_data ncur) (n_data v))).
    assert (Hvis : n_visited (set_visited (if clt nd (n_dist v) then set_label v nd (PNode (fst r) (snd r)) else v)) = true)
      by reflexivity.
    split.
    { rewrite Hvis. split; [|auto]. intros _. apply in_app_iff. destruct (n_visited v) eqn:Evv.
      - left. apply C1; auto.
      - right. apply Hnew; auto. }
    split.
    { rewrite Hvis. split; [|auto]. intros _. exists (snd r), ncur. rewrite Hlk. repeat split; auto.
      left; auto. }
    assert (Hcase : n_dist (set_visited (if clt nd (n_dist v) then set_label v nd (PNode (fst r) (snd r)) else v))
                    = if clt nd (n_dist v) then nd else n_dist v) by (destruct (clt nd (n_dist v)); reflexivity).
    assert (Hpar : n_parent (set_visited (if clt nd (n_dist v) then set_label v nd (PNode (fst r) (snd r)) else v))
                    = if clt nd (n_dist v) then PNode k (snd r) else n_parent v)
      by (destruct (clt nd (n_dist v)); simpl; congruence).
    rewrite Hcase, Hpar. split.
    + intros j' u HinP Hu He. rewrite Hlk in Hu. destruct HinP as [Heq|HinP].
      * rewrite Hrk in Heq. injection Heq as Heq. rewrite <- Heq in Hu.
        assert (u = ncur) by congruence. subst u. fold nd.
        destruct (clt nd (n_dist v)) eqn:El; [apply cle_refl|]. exact El.
      * destruct (clt nd (n_dist v)) eqn:El; [|eauto].
        eapply cle_trans; [apply clt_cle; exact El|eauto].
    + destruct (clt nd (n_dist v)) eqn:El.
      * right. exists (snd r), ncur. rewrite Hlk. repeat split; auto; [left; auto|].
        eapply clt_le_trans; [exact El|apply cle_inf].
      * destruct C4 as [C4|(j' & u & HinP & Hu & He & Hp & Hd & Hf)]; [left; auto|right].
        exists j', u. rewrite Hlk. repeat split; auto. right; auto.
  - split.
    { rewrite C1, in_app_iff, Hnew. split; [auto|]. intros [H|[H _]]; [auto|discriminate]. }
    split.
    { rewrite C2. split.
      - intros (j' & u & HinP & Hu & He). exists j', u. rewrite Hlk. repeat split; auto. right; auto.
      - intros (j' & u & HinP & Hu & He). rewrite Hlk in Hu. destruct HinP as [Heq|HinP].
        + rewrite Hrk in Heq. injection Heq as Heq. rewrite <- Heq in Hu.
          assert (u = ncur) by congruence. subst u. congruence.
        + exists j', u; auto. }
    split.
    { intros j' u HinP Hu He. rewrite Hlk in Hu. destruct HinP as [Heq|HinP]; [|eauto].
      rewrite Hrk in Heq. injection Heq as Heq. rewrite <- Heq in Hu.
      assert (u = ncur) by congruence. subst u. congruence. }
    destruct C4 as [C4|(j' & u & HinP & Hu & He & Hp & Hd & Hf)]; [left; auto|right].
    exists j', u. rewrite Hlk. repeat split; auto. right; auto.
Qed.

Definition LevInv na (P q : list ref) : Prop :=
  wf_dat na /\ exists k rest new, q = rest ++ new /\ Lev na k P rest new.

Lemma wf_dat_step na cur ncur na' : wf_dat na -> expanded ct edge na cur ncur na' -> wf_dat na'.
Proof.
  intros H (_ & _ & H1 & H2) i j. destruct (Nat.eq_dec i (S (fst cur))) as [->|Hi].
  - rewrite H2, <- H. destruct (lk na (S (fst cur)) j); simpl; auto. rewrite relax_node_data; auto.
  - rewrite H1 by auto. apply H.
Qed.

Lemma LevInv_step na P r q ncur na' : LevInv na P (r :: q) ->
  lk na (fst r) (snd r) = Some ncur -> expanded ct edge na r ncur na' ->
  LevInv na' (r :: P) (q ++ filter (is_new edge na ncur) (col_refs na (S (fst r)))).
Proof.
  intros (Hwf & k & rest & new & Hq & HL) Hn Hex.
  split; [eapply wf_dat_step; eauto|].
  destruct rest as [|r' rest].
  - simpl in Hq. subst new. apply Lev_shift in HL; auto.
    exists (S k), q, ([] ++ filter (is_new edge na ncur) (col_refs na (S (fst r)))). split; auto.
    apply Lev_step; auto.
  - simpl in Hq. injection Hq as <- ->.
    exists k, rest, (new ++ filter (is_new edge na ncur) (col_refs na (S (fst r)))).
    split; [rewrite app_assoc; auto|]. apply Lev_step; auto.
Qed.

Lemma LevInv_done na P : LevInv na P [] -> wf_dat na /\ (forall i, s <= i -> Final na i) /\
  (forall i j v, i < s -> lk na i j = Some v -> untouched v).
Proof.
  intros (Hwf & k & rest & new & Hq & HL). symmetry in Hq. apply app_eq_nil in Hq. destruct Hq as [-> ->].
  split; auto. pose proof (Lev_final_next _ _ _ _ Hwf HL) as HF.
  destruct HL as (Hs & Hr & Hn & HP & HA & HB & HC & HD).
  split; [|intros i j v Hi; apply HD; auto].
  intros i Hi. destruct (le_lt_dec i k) as [Hik|Hik]; [apply HB; lia|].
  destruct (Nat.eq_dec i (S k)) as [->|Hne]; [exact HF|].
  intros j v Hv. destruct (HD i j v) as (U1 & U2 & U3); [lia|auto|].
  assert (HnoW : forall js c, ~ W i j js c).
  { intros js c HW. destruct (W_prefix _ _ _ _ HW (S k)) as (j' & js' & c' & HW'); [lia|].
    destruct (W_dat _ _ _ _ HW') as (x & Hx). destruct (wf_dat_inv _ _ _ _ Hwf Hx) as (u & Hu & _).
    destruct (HF j' u Hu) as (F1 & _). assert (Hvis : n_visited u = true) by (apply F1; eauto).
    destruct (HC j' u Hu) as (C1 & _). apply C1 in Hvis. destruct Hvis. }
  split; [|split].
  - rewrite U3. split; [discriminate|]. intros (js & c & HW). exfalso; eapply HnoW; eauto.
  - intros js c HW. exfalso; eapply HnoW; eauto.
  - left; auto.
Qed.

(** Starting state. *)
Lemma lk_start_column na i j : lk (start_column na s) i j =
  if Nat.eqb i s then option_map start_node (lk na i j) else lk na i j.
Proof.
  unfold start_column, lk. destruct (nth_error na s) as [col|] eqn:E.
  - destruct (Nat.eqb_spec i s) as [->|Hi].
    + rewrite nth_error_upd_same by (apply nth_error_Some; congruence). rewrite E. apply nth_error_map.
    + rewrite nth_error_upd_other; auto.
  - destruct (Nat.eqb_spec i s) as [->|Hi]; auto. rewrite E. reflexivity.
Qed.
Lemma collen_start_column na i : collen (start_column na s) i = collen na i.
Proof.
  unfold start_column, collen. destruct (nth_error na s) as [col|] eqn:E; auto.
  destruct (Nat.eq_dec s i) as [<-|Hi].
  - rewrite nth_error_upd_same by (apply nth_error_Some; congruence). rewrite E. apply map_length.
  - rewrite nth_error_upd_other; auto.
Qed.
Lemma length_start_column na : length (start_column na s) = length na.
Proof. unfold start_column. destruct (nth_error na s); auto. apply upd_length. Qed.

Lemma same_keys_start na : same_keys na (start_column na s).
Proof.
  intros i j. rewrite lk_start_column. destruct (Nat.eqb i s); auto. destruct (lk na i j); reflexivity.
Qed.

Lemma wfd_start na : wfd na -> wfd (start_column na s).
Proof.
  intros (H0 & H1 & H2). split; [rewrite length_start_column; auto|].
  assert (Hlk : forall i j n, lk (start_column na s) i j = Some n -> exists m, lk na i j = Some m /\ n_data n = n_data m /\ n_pi n = n_pi m).
  { intros i j n Hn. rewrite lk_start_column in Hn. destruct (Nat.eqb i s); [|eauto].
    destruct (lk na i j) as [m|]; [|discriminate]. simpl in Hn. injection Hn as <-. exists m; auto. }
  split.
  - intros i j n Hn. destruct (Hlk _ _ _ Hn) as (m & Hm & _ & ->). eauto.
  - intros i j j' n n' Hn Hn'. destruct (Hlk _ _ _ Hn) as (m & Hm & -> & _). destruct (Hlk _ _ _ Hn') as (m' & Hm' & -> & _).
    eauto.
Qed.
Lemma wf_dat_start na : wf_dat na -> wf_dat (start_column na s).
Proof.
  intros H i j. rewrite lk_start_column, <- H. destruct (Nat.eqb i s); auto.
  destruct (lk na i j); reflexivity.
Qed.

Lemma distinct_start na : distinct (start_column na s) [] (col_refs (start_column na s) s).
Proof.
  split; [apply col_refs_NoDup|]. intros r Hr. simpl in Hr. apply in_col_refs in Hr.
  destruct Hr as (Hf & n & Hn). exists n. split; auto. rewrite lk_start_column, Hf, Nat.eqb_refl in Hn.
  destruct (lk na s (snd r)); [|discriminate]. simpl in Hn. injection Hn as <-. reflexivity.
Qed.

Lemma LevInv_start na : wf_dat na -> (forall i j v, lk na i j = Some v -> untouched v) ->
  LevInv (start_column na s) [] (col_refs (start_column na s) s).
Proof.
  intros Hwf Hun. pose proof (wf_dat_start na Hwf) as Hwf'. split; [auto|].
  exists s, (col_refs (start_column na s) s), []. split; [rewrite app_nil_r; auto|].
  assert (Hst : forall j v, lk (start_column na s) s j = Some v -> exists m, lk na s j = Some m /\ v = start_node m).
  { intros j v Hv. rewrite lk_start_column, Nat.eqb_refl in Hv.
    destruct (lk na s j) as [m|]; [|discriminate]. injection Hv as <-. eauto. }
  split; [lia|]. split; [intros r Hr; apply in_col_refs in Hr; tauto|]. split; [intros r []|].
  split; [intros r []|]. split.
  { intros j n Hn. destruct (Hst j n Hn) as (m & Hm & E). rewrite E. simpl. split; auto. intros _.
    left. apply in_col_refs. simpl. eauto. }
  split.
  { intros i Hi. assert (i = s) as -> by lia. intros j v Hv. destruct (Hst j v Hv) as (m & Hm & E).
    assert (HW : W s j [j] czero) by (econstructor; apply (wf_dat_lk (start_column na s)); eauto).
    rewrite E. simpl. split; [split; eauto|]. split.
    - intros js c HW'. apply W_inv_start in HW'. destruct HW' as [_ ->]. apply cle_refl.
    - right. split; [apply czero_fin|]. split; [discriminate|]. exists [j]. split; auto.
      apply tr_start with v; auto. rewrite E; reflexivity. }
  split.
  { intros j v Hv. rewrite lk_start_column in Hv. replace (Nat.eqb (S s) s) with false in Hv by (symmetry; apply Nat.eqb_neq; lia).
    destruct (Hun _ _ _ Hv) as (U1 & U2 & U3). split; [rewrite U3; split; [discriminate|intros []]|].
    split; [rewrite U3; split; [discriminate|intros (? & ? & [] & _)]|]. split; [intros ? ? []|left; auto]. }
  intros i j v Hi Hv. rewrite lk_start_column in Hv. destruct (Nat.eqb_spec i s); [lia|]. eauto.
Qed.

(** The complete search. *)
Lemma bfs_correct na : wfd na -> wf_dat na -> (forall i j v, lk na i j = Some v -> untouched v) ->
  exists na', bfs_loop expand (count_nodes (start_column na s)) (start_column na s)
                (col_refs (start_column na s) s) = Ok na' /\
    wfd na' /\ wf_dat na' /\ (forall i, s <= i -> Final na' i) /\
    (forall i j v, i < s -> lk na' i j = Some v -> untouched v) /\
    (forall i, collen na' i = collen na i) /\ length na' = length na /\ same_keys na na'.
Proof.
  intros Hwf Hdat Hun.
  destruct (bfs_rule (fun na P q => LevInv na P q)
      ltac:(intros; eapply LevInv_step; eauto)
      (count_nodes (start_column na s)) (start_column na s) [] (col_refs (start_column na s) s))
    as (na' & P' & H1 & H2 & H3 & H4 & H5 & H6 & H7).
  - apply LevInv_start; auto.
  - apply wfd_start; auto.
  - apply distinct_start.
  - simpl; lia.
  - destruct (LevInv_done _ _ H2) as (D1 & D2 & D3).
    exists na'. split; [exact H1|]. split; [exact H3|]. split; [exact D1|]. split; [exact D2|].
    split; [exact D3|]. split.
    + intros i. rewrite H5. apply collen_start_column.
    + split; [rewrite H6; apply length_start_column|].
      eapply same_keys_trans; [|exact H7]. apply same_keys_start.
Qed.
End Bfs.
End G.
