(** * Proofs about pygraph.py. *)
From Coq Require Import List Arith Lia Bool ZArith.
From Verif Require Import PyBase Cost SpecPath GraphCommon GraphProofs GraphWalks PyGraph.
Import ListNotations.
Local Open Scope nat_scope.

Section P.
Context {K : CostStruct} {D : Type}.
Context (cost : D -> D -> res K) (ct : D -> D -> K).

(** ** the fresh node array *)
Lemma nth_mk_col (i : nat) (col : list D) : forall k j,
  nth_error (@mk_col K D i k col) j = option_map (fun x => mkNode i (k + j) x cinf PNone false) (nth_error col j).
Proof.
  induction col as [|x col IH]; intros k [|j]; simpl; auto.
  - rewrite Nat.add_0_r; reflexivity.
  - rewrite IH. replace (S k + j) with (k + S j) by lia. reflexivity.
Qed.
Lemma nth_mk_cols (data : list (list D)) : forall k i,
  nth_error (@mk_cols K D k data) i = option_map (mk_col (k + i) 0) (nth_error data i).
Proof.
  induction data as [|c data IH]; intros k [|i]; simpl; auto.
  - rewrite Nat.add_0_r; reflexivity.
  - rewrite IH. replace (S k + i) with (k + S i) by lia. reflexivity.
Qed.
Lemma lk_fresh data i j : lk (@data_to_node_array K D data) i j =
  option_map (fun x => mkNode i j x cinf PNone false) (datQ data i j).
Proof.
  unfold lk, data_to_node_array, datQ. rewrite nth_mk_cols. simpl.
  destruct (nth_error data i); simpl; auto. apply nth_mk_col.
Qed.
Lemma mk_cols_length (data : list (list D)) : forall k, length (@mk_cols K D k data) = length data.
Proof. induction data; intros; simpl; auto. Qed.
Lemma mk_col_length (col : list D) : forall i k, length (@mk_col K D i k col) = length col.
Proof. induction col; intros; simpl; auto. Qed.
Lemma collen_fresh data i : collen (@data_to_node_array K D data) i =
  match nth_error data i with Some c => length c | None => 0 end.
Proof.
  unfold collen, data_to_node_array. rewrite nth_mk_cols. destruct (nth_error data i); simpl; auto.
  apply mk_col_length.
Qed.

Lemma count_fresh data : count_nodes (@data_to_node_array K D data) = length (concat data).
Proof.
  unfold data_to_node_array. generalize 0 as k. induction data as [|c data IH]; intros k; simpl; auto.
  unfold count_nodes in *. simpl. rewrite IH, app_length, mk_col_length. reflexivity.
Qed.

(** Two arrays with the same lookups and sizes are equal. *)
Lemma narr_ext (a b : narr K D) : length a = length b -> (forall i, collen a i = collen b i) ->
  (forall i j, lk a i j = lk b i j) -> a = b.
Proof.
  intros Hl Hc Hk. apply nth_ext with (d := []) (d' := []); auto. intros i Hi.
  assert (Ha : nth_error a i = Some (nth i a [])) by (apply nth_error_nth'; auto).
  assert (Hb : nth_error b i = Some (nth i b [])) by (apply nth_error_nth'; lia).
  specialize (Hc i). unfold collen in Hc. rewrite Ha, Hb in Hc.
  assert (Hlk : forall j, nth_error (nth i a []) j = nth_error (nth i b []) j).
  { intros j. specialize (Hk i j). unfold lk in Hk. rewrite Ha, Hb in Hk. exact Hk. }
  clear -Hlk. revert Hlk. generalize (nth i a []) (nth i b []). intros l.
  induction l as [|x l IH]; intros [|y m] H; auto; try (specialize (H 0); discriminate).
  f_equal; [specialize (H 0); simpl in H; congruence|]. apply IH. intros j. exact (H (S j)).
Qed.

(** Keys (position, sample, data) equal to those of the fresh array. *)
Definition shape_ok (data : list (list D)) (na : narr K D) : Prop :=
  length na = length data /\ (forall i, collen na i = collen (@data_to_node_array K D data) i) /\
  same_keys (data_to_node_array data) na.

Lemma lk_map_reset na i j : lk (map (map reset_node) na) i j = option_map (@reset_node K D) (lk na i j).
Proof.
  unfold lk. rewrite nth_error_map. destruct (nth_error na i); simpl; auto. apply nth_error_map.
Qed.
Lemma reset_fresh data na : shape_ok data na -> map (map reset_node) na = data_to_node_array data.
Proof.
  intros (H1 & H2 & H3). apply narr_ext.
  - rewrite map_length, H1. unfold data_to_node_array. rewrite mk_cols_length; auto.
  - intros i. rewrite <- H2. unfold collen. rewrite nth_error_map.
    destruct (nth_error na i); simpl; auto. apply map_length.
  - intros i j. rewrite lk_map_reset. specialize (H3 i j). rewrite lk_fresh in *.
    destruct (lk na i j) as [n|], (datQ data i j) as [x|]; simpl in *; try discriminate; auto.
    unfold key in H3. simpl in H3. injection H3 as E1 E2 E3. unfold reset_node. congruence.
Qed.
Lemma shape_ok_fresh data : shape_ok data (data_to_node_array data).
Proof.
  split; [apply mk_cols_length|]. split; auto. apply same_keys_refl.
Qed.

(** ** the expansion step *)
Definition edgeM (m : K) : D -> D -> bool := fun x y => clt (ct x y) m.

Lemma reachable_spec na m ncur : forall rs,
  (forall r, In r rs -> exists v, lk na (fst r) (snd r) = Some v /\ cost (n_data ncur) (n_data v) = Ok (ct (n_data ncur) (n_data v))) ->
  reachable cost na m ncur rs = Ok (filter (edge_ref (edgeM m) na ncur) rs).
Proof.
  induction rs as [|[i j] rs IH]; intros H; cbn [reachable filter]; auto.
  destruct (H (i, j) (or_introl eq_refl)) as (v & Hv & Hc). simpl in Hv.
  rewrite deref_lk, Hv. cbn [bind]. rewrite Hc. cbn [bind]. rewrite IH by (intros; apply H; simpl; auto).
  cbn [bind].
  assert (He : edge_ref (edgeM m) na ncur (i, j) = clt (ct (n_data ncur) (n_data v)) m).
  { unfold edge_ref. cbn [fst snd]. rewrite Hv. reflexivity. }
  rewrite He. destruct (clt _ m); reflexivity.
Qed.

Lemma expand_spec L m na q cur ncur :
  wfd cost ct L na -> lk na (fst cur) (snd cur) = Some ncur ->
  exists na', expand cost L m na q cur = Ok (na', q ++ filter (is_new (edgeM m) na ncur) (col_refs na (S (fst cur)))) /\
    expanded ct (edgeM m) na cur ncur na'.
Proof.
  intros (H0 & H1 & H2) Hcur. unfold expand.
  assert (Hd : deref na cur = Ok ncur) by (destruct cur; rewrite deref_lk; simpl in *; rewrite Hcur; auto).
  rewrite Hd. cbn [bind].
  assert (Hpi : n_pi ncur = fst cur) by eauto.
  assert (Hnb : get_neighbours L na ncur = Ok (col_refs na (S (fst cur)))).
  { unfold get_neighbours. rewrite Hpi, Nat.add_1_r.
    destruct (Nat.leb_spec L (S (fst cur))) as [Hle|Hlt].
    - unfold col_refs. destruct (nth_error na (S (fst cur))) eqn:E; auto.
      exfalso. assert (S (fst cur) < length na) by (apply nth_error_Some; congruence). lia.
    - destruct (nth_error na (S (fst cur))) eqn:E; auto. apply nth_error_None in E. lia. }
  rewrite Hnb. cbn [bind].
  rewrite (reachable_spec na m ncur).
  2:{ intros r Hr. apply in_col_refs in Hr. destruct Hr as (Hf & v & Hv). exists v. split; auto.
      rewrite Hf in Hv. eauto. }
  cbn [bind].
  destruct (expand_col cost ct (edgeM m) fifo_push eq) with (cur := cur) (ncur := ncur) (na := na) (q := q) (q0 := q)
    as (na' & q' & Hf & Hex & Hq); auto.
  - intros ? ? ? ? ->. reflexivity.
  - intros j v Hv. eauto.
  - exists na'. rewrite Hf, Hq. auto.
Qed.

(** ** run_multi_source_bfs *)
Section Run.
Context (data : list (list D)).
Context (Hcost : forall x y, adjacent data x y -> cost x y = Ok (ct x y)).

Lemma datQ_In i j x : datQ data i j = Some x -> exists c, nth_error data i = Some c /\ In x c.
Proof. intros H. apply datQ_col in H. destruct H as (c & H1 & H2). exists c. split; auto. eapply nth_error_In; eauto. Qed.

Lemma wfd_fresh : wfd cost ct (length data) (data_to_node_array data).
Proof.
  split; [apply mk_cols_length|]. split.
  - intros i j n Hn. rewrite lk_fresh in Hn. destruct (datQ data i j); [|discriminate].
    simpl in Hn. injection Hn as <-. reflexivity.
  - intros i j j' n n' Hn Hn'. rewrite lk_fresh in Hn, Hn'.
    destruct (datQ data i j) as [x|] eqn:E1; [|discriminate].
    destruct (datQ data (S i) j') as [y|] eqn:E2; [|discriminate].
    simpl in Hn, Hn'. injection Hn as <-. injection Hn' as <-. simpl. apply Hcost.
    destruct (datQ_In _ _ _ E1) as (c1 & ? & ?). destruct (datQ_In _ _ _ E2) as (c2 & ? & ?).
    exists i, c1, c2. auto.
Qed.

Definition searched (m : K) (start : nat) (na : narr K D) : Prop :=
  shape_ok data na /\ wf_dat (datQ data) na /\
  (forall i, start <= i -> Final ct (edgeM m) (datQ data) start PNone na i) /\
  (forall i j v, i < start -> lk na i j = Some v -> untouched PNone v).

Lemma run_spec m start g : g_path_length g = length data -> shape_ok data (g_na g) ->
  start < length data ->
  exists g', run_multi_source_bfs cost m start g = Ok g' /\ g_path_length g' = length data /\
    g_cost g' = cinf /\ searched m start (g_na g').
Proof.
  intros HL Hsh Hst. unfold run_multi_source_bfs. cbn [reset g_na g_path_length g_cost].
  rewrite (reset_fresh data _ Hsh), HL.
  destruct (nth_error (data_to_node_array data) start) eqn:E.
  2:{ apply nth_error_None in E. unfold data_to_node_array in E. rewrite mk_cols_length in E. lia. }
  destruct (bfs_correct cost ct (edgeM m) (length data) (expand cost (length data) m)) with
    (dat := datQ data) (s := start) (p0 := PNone) (na := @data_to_node_array K D data)
    as (na' & HA & HB & HC & HD & HE & HF & HG & HI).
  - intros; apply expand_spec; auto.
  - apply wfd_fresh.
  - intros i j. rewrite lk_fresh. destruct (datQ data i j); reflexivity.
  - intros i j v Hv. rewrite lk_fresh in Hv. destruct (datQ data i j); [|discriminate].
    simpl in Hv. injection Hv as <-. repeat split.
  - rewrite HA. cbn [bind]. eexists. split; [reflexivity|]. simpl. split; auto. split; auto.
    split; [split|]; [|split|]; auto.
    rewrite HG. apply mk_cols_length.
Qed.

Lemma run_bad_start m start g : shape_ok data (g_na g) -> length data <= start ->
  run_multi_source_bfs cost m start g = Raise IndexError.
Proof.
  intros Hsh Hst. unfold run_multi_source_bfs. cbn [reset g_na g_path_length g_cost].
  rewrite (reset_fresh data _ Hsh).
  destruct (nth_error (data_to_node_array data) start) eqn:E; auto.
  assert (start < length (@data_to_node_array K D data)) by (apply nth_error_Some; congruence).
  unfold data_to_node_array in *. rewrite mk_cols_length in *. lia.
Qed.
End Run.

(** ** get_path *)
Lemma closest_spec i : forall (col : list (node K D)) j m best m' best',
  closest i j col m best = (m', best') ->
  (forall k n, nth_error col k = Some n -> cle m' (n_dist n)) /\ cle m' m /\
  ((m' = m /\ best' = best /\ forall k n, nth_error col k = Some n -> cle m (n_dist n)) \/
   (exists k n, nth_error col k = Some n /\ best' = Some (i, j + k) /\ m' = n_dist n /\ clt m' m = true)).
Proof.
  induction col as [|n col IH]; intros j m best m' best' H; simpl in H.
  - injection H as <- <-. split; [intros [|k] n H; discriminate|]. split; [apply cle_refl|]. left.
    split; auto. split; auto. intros [|k] n H; discriminate.
  - destruct (clt (n_dist n) m) eqn:E.
    + destruct (IH _ _ _ _ _ H) as (H1 & H2 & H3). split; [|split].
      * intros [|k] n' Hn'; [simpl in Hn'; injection Hn' as <-; auto|eauto].
      * eapply cle_trans; [exact H2|apply clt_cle; auto].
      * right. destruct H3 as [(-> & -> & _)|(k & n' & Hk & -> & -> & Hlt)].
        -- exists 0, n. rewrite Nat.add_0_r. auto.
        -- exists (S k), n'. split; auto. split; [f_equal; f_equal; lia|]. split; auto.
           eapply clt_trans; eauto.
    + destruct (IH _ _ _ _ _ H) as (H1 & H2 & H3). split; [|split]; auto.
      * intros [|k] n' Hn'; [simpl in Hn'; injection Hn' as <-|eauto].
        eapply cle_trans; [exact H2|exact E].
      * destruct H3 as [(-> & -> & H3)|(k & n' & Hk & -> & -> & Hlt)].
        -- left. split; auto. split; auto. intros [|k] n' Hn'; [simpl in Hn'; injection Hn' as <-; exact E|eauto].
        -- right. exists (S k), n'. split; auto. split; [f_equal; f_equal; lia|]. split; auto.
Qed.

Lemma follow_tr s na i j js : (forall i j n, lk na i j = Some n -> n_si n = j) -> tr s na i j js ->
  forall fuel acc, length js <= fuel -> @follow K D fuel na (PNode i j) acc = Ok (js ++ acc).
Proof.
  intros Hsi Ht. induction Ht as [j n Hn Hp|i j j' n js Hn Hp Ht IH]; intros fuel acc Hf.
  - destruct fuel as [|fuel]; [simpl in Hf; lia|]. cbn [follow]. rewrite deref_lk, Hn. cbn [bind].
    rewrite Hp, (Hsi _ _ _ Hn). destruct fuel; reflexivity.
  - rewrite app_length in Hf. simpl in Hf. destruct fuel as [|fuel]; [lia|]. cbn [follow].
    rewrite deref_lk, Hn. cbn [bind]. rewrite Hp, (Hsi _ _ _ Hn). rewrite IH by lia.
    rewrite <- app_assoc. reflexivity.
Qed.

Section Get.
Context (data : list (list D)) (m : K) (start : nat) (na : narr K D).
Context (HS : searched data m start na).

Lemma shape_si i j n : lk na i j = Some n -> n_si n = j /\ n_pi n = i /\ datQ data i j = Some (n_data n).
Proof.
  destruct HS as ((_ & _ & Hk) & _). intros Hn. specialize (Hk i j). rewrite Hn, lk_fresh in Hk.
  destruct (datQ data i j); simpl in Hk; [|discriminate]. unfold key in Hk. simpl in Hk.
  injection Hk as -> -> ->. auto.
Qed.

Lemma tr_len s i j js : tr s na i j js -> length js <= count_nodes na.
Proof.
  intros Ht.
  assert (H : exists rs, length rs = length js /\ NoDup rs /\ (forall r, In r rs -> fst r <= i /\ In r (all_refs na))).
  { induction Ht as [j n Hn Hp|i j j' n js Hn Hp Ht IH].
    - exists [(s, j)]. split; auto. split; [constructor; [intros []|constructor]|].
      intros r [<-|[]]. simpl. split; [lia|]. apply in_all_refs; simpl; eauto.
    - destruct IH as (rs & H1 & H2 & H3). exists ((S i, j') :: rs). split; [rewrite app_length; simpl; lia|].
      split. { constructor; auto. intros Hin. apply H3 in Hin. simpl in Hin. lia. }
      intros r [<-|Hr]; simpl. { split; [lia|]. apply in_all_refs; simpl; eauto. }
      destruct (H3 r Hr). split; auto. }
  destruct H as (rs & <- & H2 & H3). rewrite <- all_refs_length. apply NoDup_incl_length; auto.
  intros r Hr. apply H3; auto.
Qed.

(** get_path on a searched graph, for a target column after the start. *)
Lemma get_path_spec L c t : L = length data -> start <= t -> t < length data ->
  exists g' r, get_path (Some t) (mkGraph na L c) = Ok (g', r) /\ g_na g' = na /\ g_path_length g' = L /\
   match r with
   | None => g_cost g' = c /\ forall j js w, W ct (edgeM m) (datQ data) start t j js w -> clt w cinf = false
   | Some js => exists j, W ct (edgeM m) (datQ data) start t j js (g_cost g') /\
        clt (g_cost g') cinf = true /\
        forall j' js' w, W ct (edgeM m) (datQ data) start t j' js' w -> cle (g_cost g') w
   end.
Proof.
  intros -> Hst Ht. pose proof HS as ((Hlen & Hcl & Hkeys) & Hdat & HF & _). unfold get_path. cbn [bind g_na].
  destruct (nth_error na t) as [col|] eqn:Ec; [|apply nth_error_None in Ec; lia].
  destruct (closest t 0 col cinf None) as [md best] eqn:Ecl.
  destruct (closest_spec _ _ _ _ _ _ _ Ecl) as (C1 & C2 & C3).
  assert (Hlk : forall k, lk na t k = nth_error col k) by (intros; unfold lk; rewrite Ec; auto).
  assert (Hopt : forall j js w, W ct (edgeM m) (datQ data) start t j js w -> cle md w).
  { intros j js w HW. destruct (W_dat _ _ _ _ _ _ _ _ HW) as (x & Hx).
    destruct (wf_dat_inv _ _ _ _ _ Hdat Hx) as (v & Hv & _).
    destruct (HF t Hst j v Hv) as (_ & F2 & _). rewrite Hlk in Hv.
    eapply cle_trans; [eapply C1; eauto|eauto]. }
  destruct C3 as [(-> & -> & _)|(k & n & Hk & -> & -> & Hlt)].
  - eexists _, None. split; [reflexivity|]. simpl. split; [reflexivity|]. split; [reflexivity|]. split; [reflexivity|].
    intros j js w HW. exact (Hopt _ _ _ HW).
  - simpl plus. assert (Hn : lk na t k = Some n) by (rewrite Hlk; auto).
    destruct (HF t Hst k n Hn) as (_ & _ & F3).
    destruct F3 as [[F3 _]|(_ & _ & js & Htr & HW)]; [rewrite F3, clt_irrefl in Hlt; discriminate|].
    assert (Hfo : follow (S (count_nodes na)) na (PNode t k) [] = Ok (js ++ [])).
    { eapply follow_tr; eauto. - intros i j n' Hn'. apply shape_si in Hn'. tauto.
      - apply tr_len in Htr. lia. }
    rewrite app_nil_r in Hfo. rewrite Hfo. cbn [bind].
    eexists _, (Some js). split; [reflexivity|]. simpl. split; [auto|]. split; [auto|]. exists k. split; [exact HW|]. split; [exact Hlt|exact Hopt].
Qed.
End Get.

Lemma get_path_default (g : graph K D) : 0 < g_path_length g ->
  get_path None g = get_path (Some (g_path_length g - 1)) g.
Proof. intros H. unfold get_path. destruct (g_path_length g) as [|m]; [lia|]. simpl. rewrite Nat.sub_0_r. reflexivity. Qed.

Lemma path_index_picks : forall (js : list nat) (data : list (list D)) p, picks (firstn (length js) data) js p ->
  path_index_to_path js data = Ok p.
Proof.
  induction js as [|j js IH]; intros data p H.
  - simpl in H. destruct p; [reflexivity|tauto].
  - destruct data as [|c data]; simpl in H; [tauto|]. destruct p as [|x p]; [tauto|].
    destruct H as [Hx H]. simpl. unfold py_index. rewrite Hx. cbn [bind]. rewrite (IH data p H). reflexivity.
Qed.

(** ** walks and paths, start column 0 *)
Lemma W0_picks data m t j js c : W ct (edgeM m) (datQ data) 0 t j js c -> t < length data ->
  exists p, picks (firstn (S t) data) js p /\ walk_cost ct p = c /\ steps_below ct m p /\ js <> [].
Proof.
  intros HW Ht. destruct (W_picks _ _ _ _ _ _ _ _ HW) as (m' & p & x & E & Hp & _ & (js' & ->) & -> & Hs).
  simpl in E. subst m'. exists (p ++ [x]). split; [exact Hp|]. split; auto. split.
  - apply steps_below_edge. exact Hs.
  - destruct js'; discriminate.
Qed.

Lemma picks_W0 data m t js p : picks (firstn (S t) data) js p -> t < length data -> steps_below ct m p ->
  exists j, W ct (edgeM m) (datQ data) 0 t j js (walk_cost ct p).
Proof.
  intros Hp Ht Hs. apply steps_below_edge in Hs.
  destruct (picks_W ct (edgeM m) data 0 t js p Ht Hp Hs) as (j & ? & ? & _ & _ & _ & HW). eauto.
Qed.

Lemma firstn_last (data : list (list D)) : data <> [] -> firstn (S (length data - 1)) data = data.
Proof. intros H. apply firstn_all2. destruct data; simpl; [congruence|lia]. Qed.

Lemma steps_below_weaken m p : steps_below ct m p -> cle m cinf.
Proof. intros _. apply cle_inf. Qed.

Section Api.
Context (data : list (list D)).
Context (Hne : data <> []).
Context (Hcost : forall x y, adjacent data x y -> cost x y = Ok (ct x y)).

Lemma len_pos : 0 < length data.
Proof. destruct data; [congruence|simpl; lia]. Qed.

Lemma run0_spec m : exists g', run_multi_source_bfs cost m 0 (new_graph data) = Ok g' /\
  g' = mkGraph (g_na g') (length data) cinf /\ searched data m 0 (g_na g').
Proof.
  destruct (run_spec data Hcost m 0 (new_graph data)) as (g' & H1 & H2 & H3 & H4).
  - reflexivity.
  - apply shape_ok_fresh.
  - apply len_pos.
  - exists g'. split; auto. split; auto. destruct g'; simpl in *; congruence.
Qed.

Lemma picks_idx t js p : picks (firstn (S t) data) js p -> t < length data -> path_index_to_path js data = Ok p.
Proof.
  intros H Ht. apply path_index_picks. pose proof (picks_length _ _ _ H) as [L _].
  rewrite firstn_length in L. replace (length js) with (S t) by lia. exact H.
Qed.

Lemma get_shortest_path_spec : exists r, get_shortest_path cost data = Ok r /\
  match r with
  | SpFail => forall js p, picks data js p -> clt (walk_cost ct p) cinf = false
  | SpOk path c => (exists js, picks data js path) /\ walk_cost ct path = c /\ clt c cinf = true /\
      forall js p, picks data js p -> cle c (walk_cost ct p)
  end.
Proof.
  destruct (run0_spec cinf) as (g' & Hrun & Eg & HS). pose proof len_pos as Hp.
  unfold get_shortest_path. rewrite Hrun. cbn [bind]. rewrite get_path_default by (rewrite Eg; simpl; auto).
  rewrite Eg. cbn [g_path_length].
  destruct (get_path_spec data cinf 0 _ HS (length data) cinf (length data - 1) eq_refl ltac:(lia) ltac:(lia))
    as (g2 & r & Hg & Hna & HL & Hr). rewrite Hg. cbn [bind].
  pose proof (firstn_last data Hne) as Hfl.
  destruct r as [js|].
  - destruct Hr as (j & HW & Hfin & Hopt).
    destruct (W0_picks data cinf _ _ _ _ HW ltac:(lia)) as (p & Hpk & Hc & Hs & Hjs).
    destruct js as [|j0 js]; [congruence|]. unfold py_index; cbn [nth_error bind].
    rewrite (picks_idx _ _ _ Hpk) by lia. cbn [bind]. rewrite Hfl in Hpk.
    eexists; split; [reflexivity|]. simpl. split; [eauto|]. split; auto. split; auto.
    intros js' p' Hp'. destruct (clt (walk_cost ct p') cinf) eqn:E.
    + rewrite <- Hfl in Hp'. destruct (picks_W0 data cinf _ _ _ Hp' ltac:(lia) (walk_fin _ _ E)) as (j' & HW').
      eauto.
    + eapply cle_trans; [apply cle_inf|exact E].
  - eexists; split; [reflexivity|]. intros js p Hpk. destruct Hr as [_ Hr].
    destruct (clt (walk_cost ct p) cinf) eqn:E; auto. rewrite <- Hfl in Hpk.
    destruct (picks_W0 data cinf _ _ _ Hpk ltac:(lia) (walk_fin _ _ E)) as (j' & HW').
    rewrite <- E. eauto.
Qed.

(** find_partial_path on a searched graph *)
Lemma find_partial_spec m na L c : L = length data -> searched data m 0 na ->
  exists r, find_partial_path (mkGraph na L c) = Ok r /\
   match r with
   | None => forall t, 1 <= t -> t < length data -> forall j js w, W ct (edgeM m) (datQ data) 0 t j js w -> clt w cinf = false
   | Some i => 1 <= i < length data /\
       (exists j js w, W ct (edgeM m) (datQ data) 0 i j js w /\ clt w cinf = true) /\
       forall t, i < t -> t < length data -> forall j js w, W ct (edgeM m) (datQ data) 0 t j js w -> clt w cinf = false
   end.
Proof.
  intros -> HS. unfold find_partial_path. cbn [g_path_length g_na].
  pose proof len_pos as Hlp.
  assert (Hgen : forall idx, idx <= length data - 1 ->
    (forall t, idx < t -> t < length data -> forall j js w, W ct (edgeM m) (datQ data) 0 t j js w -> clt w cinf = false) ->
    exists r, find_partial_loop na idx = Ok r /\
     match r with
     | None => forall t, 1 <= t -> t < length data -> forall j js w, W ct (edgeM m) (datQ data) 0 t j js w -> clt w cinf = false
     | Some i => 1 <= i < length data /\
         (exists j js w, W ct (edgeM m) (datQ data) 0 i j js w /\ clt w cinf = true) /\
         forall t, i < t -> t < length data -> forall j js w, W ct (edgeM m) (datQ data) 0 t j js w -> clt w cinf = false
     end).
  { induction idx as [|idx IH]; intros Hi Hno.
    - exists None. split; [reflexivity|]. intros t H1. apply Hno; lia.
    - pose proof HS as ((Hlen & _) & Hdat & HF & _). cbn [find_partial_loop].
      destruct (nth_error na (S idx)) as [col|] eqn:Ec; [|apply nth_error_None in Ec; lia].
      destruct (existsb has_parent col) eqn:Ee.
      + apply existsb_exists in Ee. destruct Ee as (n & Hin & Hp). apply In_nth_error in Hin.
        destruct Hin as (j & Hj). assert (Hn : lk na (S idx) j = Some n) by (unfold lk; rewrite Ec; auto).
        destruct (HF (S idx) ltac:(lia) j n Hn) as (_ & _ & F3).
        destruct F3 as [[_ F3]|(Hfin & _ & js & Htr & HW)]; [unfold has_parent in Hp; rewrite F3 in Hp; discriminate|].
        exists (Some (S idx)). split; auto. split; [lia|]. split; [|auto]. eauto 6.
      + apply IH; [lia|]. intros t Ht1 Ht2 j js w HW.
        destruct (Nat.eq_dec t (S idx)) as [->|Hn]; [|apply (Hno t ltac:(lia) Ht2 j js w HW)].
        destruct (W_dat _ _ _ _ _ _ _ _ HW) as (x & Hx). destruct (wf_dat_inv _ _ _ _ _ Hdat Hx) as (v & Hv & _).
        destruct (HF (S idx) ltac:(lia) j v Hv) as (_ & F2 & F3).
        destruct (clt w cinf) eqn:E; auto. exfalso.
        destruct F3 as [[F3 _]|(_ & F3 & _)].
        * pose proof (F2 _ _ HW) as Hle. rewrite F3 in Hle. unfold cle in Hle. congruence.
        * assert (existsb has_parent col = true); [|congruence]. apply existsb_exists. exists v.
          unfold lk in Hv. rewrite Ec in Hv. split; [eapply nth_error_In; eauto|].
          unfold has_parent. destruct (n_parent v); congruence. }
  apply Hgen; [lia|]. intros; lia.
Qed.

Lemma partial_path_spec m : exists r, get_shortest_partial_path cost data m = Ok r /\
  match r with
  | PpOk path c => (exists js, picks data js path) /\ walk_cost ct path = c /\ clt c cinf = true /\ steps_below ct m path /\
      forall js p, picks data js p -> steps_below ct m p -> cle c (walk_cost ct p)
  | PpPartial path c i => 1 <= i /\ S i < length data /\
      (exists js, picks (firstn (S i) data) js path) /\ walk_cost ct path = c /\ clt c cinf = true /\ steps_below ct m path /\
      (forall js p, picks (firstn (S i) data) js p -> steps_below ct m p -> cle c (walk_cost ct p)) /\
      (forall t js p, i < t -> t < length data -> picks (firstn (S t) data) js p -> steps_below ct m p ->
         clt (walk_cost ct p) cinf = false)
  | PpStuck => 
      (forall js p, picks data js p -> steps_below ct m p -> clt (walk_cost ct p) cinf = false) /\
      (forall t js p, 1 <= t -> t < length data -> picks (firstn (S t) data) js p -> steps_below ct m p ->
         clt (walk_cost ct p) cinf = false)
  end.
Proof.
  destruct (run0_spec m) as (g' & Hrun & Eg & HS). pose proof len_pos as Hp.
  unfold get_shortest_partial_path. rewrite Hrun. cbn [bind].
  rewrite get_path_default by (rewrite Eg; simpl; auto).
  rewrite Eg. cbn [g_path_length].
  destruct (get_path_spec data m 0 _ HS (length data) cinf (length data - 1) eq_refl ltac:(lia) ltac:(lia))
    as (g2 & r & Hg & Hna & HL & Hr). rewrite Hg. cbn [bind].
  pose proof (firstn_last data Hne) as Hfl.
  destruct r as [js|].
  - destruct Hr as (j & HW & Hfin & Hopt).
    destruct (W0_picks data m _ _ _ _ HW ltac:(lia)) as (p & Hpk & Hc & Hs & Hjs).
    destruct js as [|j0 js]; [congruence|]. unfold py_index; cbn [nth_error bind].
    rewrite (picks_idx _ _ _ Hpk) by lia. cbn [bind]. rewrite Hfl in Hpk.
    eexists; split; [reflexivity|]. simpl. split; [eauto|]. split; auto. split; auto. split; auto.
    intros js' p' Hp' Hs'.
    rewrite <- Hfl in Hp'. destruct (picks_W0 data m _ _ _ Hp' ltac:(lia) Hs') as (j' & HW'). eauto.
  - destruct Hr as [Hgc Hr].
    assert (Eg2 : g2 = mkGraph (g_na g') (length data) (g_cost g2)) by (destruct g2; simpl in *; congruence).
    rewrite Eg2.
    destruct (find_partial_spec m (g_na g') (length data) (g_cost g2) eq_refl HS) as (sp & Hsp & Hspec).
    rewrite Hsp. cbn [bind]. destruct sp as [i|].
    + destruct Hspec as (Hi & (j & js & w & HW & Hwf) & Hfar).
      assert (Hi2 : S i < length data).
      { destruct (Nat.eq_dec (S i) (length data)) as [E|]; [|lia]. exfalso.
        replace (length data - 1) with i in Hr by lia. rewrite (Hr _ _ _ HW) in Hwf. discriminate. }
      destruct (get_path_spec data m 0 _ HS (length data) (g_cost g2) i eq_refl ltac:(lia) ltac:(lia))
        as (g3 & r3 & Hg3 & Hna3 & HL3 & Hr3). rewrite Hg3. cbn [bind].
      destruct r3 as [js3|].
      2:{ exfalso. destruct Hr3 as [_ Hr3]. rewrite (Hr3 _ _ _ HW) in Hwf. discriminate. }
      destruct Hr3 as (j3 & HW3 & Hfin3 & Hopt3).
      destruct (W0_picks data m _ _ _ _ HW3 ltac:(lia)) as (p & Hpk & Hc & Hs & Hjs).
      rewrite (picks_idx _ _ _ Hpk) by lia. cbn [bind].
      eexists; split; [reflexivity|]. cbn beta iota. split; [lia|]. split; [lia|]. split; [eauto|].
      split; auto. split; auto. split; auto. split.
      * intros js' p' Hp' Hs'. destruct (picks_W0 data m _ _ _ Hp' ltac:(lia) Hs') as (j' & HW'). eauto.
      * intros t js' p' Ht1 Ht2 Hp' Hs'. destruct (picks_W0 data m _ _ _ Hp' ltac:(lia) Hs') as (j' & HW'). eauto.
    + eexists; split; [reflexivity|]. cbn beta iota. split.
      * intros js p Hpk Hs. rewrite <- Hfl in Hpk.
        destruct (picks_W0 data m _ _ _ Hpk ltac:(lia) Hs) as (j' & HW'). eauto.
      * intros t js p Ht1 Ht2 Hpk Hs. destruct (picks_W0 data m _ _ _ Hpk ltac:(lia) Hs) as (j' & HW'). eauto.
Qed.
End Api.

(** ** object histories *)
Inductive op : Type := ORun (m : K) (start : nat) | OGetPath (t : option nat) | OReset.

(** State after a call, also when the call raises: run_multi_source_bfs has
    already reset the graph when the start index is found to be invalid. *)
Definition exec (g : graph K D) (o : op) : graph K D :=
  match o with
  | ORun m start => match run_multi_source_bfs cost m start g with Ok g' => g' | _ => reset g end
  | OGetPath t => match get_path t g with Ok (g', _) => g' | _ => g end
  | OReset => reset g
  end.

Section History.
Context (data : list (list D)).
Context (Hcost : forall x y, adjacent data x y -> cost x y = Ok (ct x y)).

Lemma get_path_keeps t (g g' : graph K D) r : get_path t g = Ok (g', r) -> g_na g' = g_na g /\ g_path_length g' = g_path_length g.
Proof.
  unfold get_path. destruct (match t with Some t0 => Ok t0 | None => _ end) as [t'| |]; cbn [bind]; try discriminate.
  destruct (nth_error (g_na g) t') as [col|]; [|discriminate].
  destruct (closest t' 0 col cinf None) as [md [[i j]|]].
  - destruct (follow _ _ _ _); cbn [bind]; try discriminate. intros H. injection H as <- _. auto.
  - intros H. injection H as <- _. auto.
Qed.

Definition hist_ok (g : graph K D) : Prop := g_path_length g = length data /\ shape_ok data (g_na g).

Lemma reset_hist g : hist_ok g -> hist_ok (reset g).
Proof.
  intros [H1 H2]. split; [exact H1|]. simpl. rewrite (reset_fresh _ _ H2). apply shape_ok_fresh.
Qed.

Lemma exec_hist g o : hist_ok g -> hist_ok (exec g o).
Proof.
  intros H. destruct o as [m start|t|]; simpl.
  - destruct (run_multi_source_bfs cost m start g) as [g'| |] eqn:E; [|apply reset_hist; auto..].
    destruct (le_lt_dec (length data) start) as [Hle|Hlt].
    + rewrite (run_bad_start data m start g) in E; [discriminate|apply H|exact Hle].
    + destruct (run_spec data Hcost m start g) as (g2 & E2 & HL & _ & HS); [apply H|apply H|auto|].
      assert (g2 = g') by congruence. subst g2. split; [exact HL|apply HS].
  - destruct (get_path t g) as [[g' r]| |] eqn:E; auto. destruct (get_path_keeps _ _ _ _ E) as [E1 E2].
    destruct H as [H1 H2]. split; congruence.
  - apply reset_hist; auto.
Qed.

Lemma history_independent ops m start :
  run_multi_source_bfs cost m start (fold_left exec ops (new_graph data)) =
  run_multi_source_bfs cost m start (new_graph data).
Proof.
  assert (H : hist_ok (fold_left exec ops (new_graph data))).
  { assert (H0 : hist_ok (new_graph data)) by (split; [reflexivity|apply shape_ok_fresh]).
    revert H0. generalize (@new_graph K D data). induction ops as [|o ops IH]; intros g H; auto.
    simpl. apply IH, exec_hist, H. }
  destruct H as [H1 H2]. unfold run_multi_source_bfs. cbn [reset g_na g_path_length g_cost].
  rewrite (reset_fresh _ _ H2), H1. cbn [new_graph g_na g_path_length].
  rewrite (reset_fresh _ _ (shape_ok_fresh data)). reflexivity.
Qed.

(** Termination for every graph object and start column. *)
Lemma run_total ops m start : start < length data ->
  exists g', run_multi_source_bfs cost m start (fold_left exec ops (new_graph data)) = Ok g'.
Proof.
  intros H. rewrite history_independent. destruct (run_spec data Hcost m start (new_graph data)) as (g' & E & _); eauto.
  apply shape_ok_fresh.
Qed.
End History.

(** ** loop bound *)
Lemma bfs_loop_mono (ex : narr K D -> list ref -> ref -> res (narr K D * list ref)) :
  forall f na q r, bfs_loop ex f na q = Ok r -> forall f', f <= f' -> bfs_loop ex f' na q = Ok r.
Proof.
  induction f as [|f IH]; intros na q r H f' Hf; destruct q as [|cur q].
  - destruct f'; exact H.
  - discriminate.
  - destruct f'; exact H.
  - destruct f' as [|f']; [lia|]. simpl in *. destruct (ex na q cur) as [[na' q']| |]; simpl in *; try discriminate.
    apply IH; auto. lia.
Qed.

Lemma count_start (na : narr K D) s : count_nodes (start_column na s) = count_nodes na.
Proof.
  unfold start_column. revert s. induction na as [|c na IH]; intros [|s]; cbn [nth_error]; auto.
  - cbn [upd count_nodes fold_right]. unfold count_nodes; cbn [fold_right]. rewrite map_length. reflexivity.
  - specialize (IH s). destruct (nth_error na s); auto. cbn [upd]. unfold count_nodes in *. cbn [fold_right].
    rewrite IH. reflexivity.
Qed.

Lemma run_loop_bound data m start :
  (forall x y, adjacent data x y -> cost x y = Ok (ct x y)) -> start < length data ->
  exists na', forall fuel, length (concat data) <= fuel ->
    bfs_loop (expand cost (length data) m) fuel (start_column (data_to_node_array data) start)
      (col_refs (start_column (@data_to_node_array K D data) start) start) = Ok na'.
Proof.
  intros Hcost Hst. destruct (run_spec data Hcost m start (new_graph data)) as (g' & H & _); [reflexivity|apply shape_ok_fresh|auto|].
  unfold run_multi_source_bfs in H. cbn [reset g_na g_path_length g_cost new_graph] in H.
  rewrite (reset_fresh data _ (shape_ok_fresh data)) in H.
  destruct (nth_error (data_to_node_array data) start); [|discriminate].
  assert (Hc : count_nodes (start_column (@data_to_node_array K D data) start) = length (concat data)).
  { rewrite count_start. apply count_fresh. }
  rewrite Hc in H.
  destruct (bfs_loop _ _ _ _) as [na'| |] eqn:E; cbn [bind] in H; try discriminate.
  exists na'. intros fuel Hf. eapply bfs_loop_mono; eauto.
Qed.

(** ** segments *)
Lemma segments_single fuel data m p c : 3 <= length data -> 1 <= fuel ->
  get_shortest_partial_path cost data m = Ok (PpOk p c) ->
  get_shortest_path_segments cost fuel data m =
    Ok (SegSol {| sg_success := true; sg_path := p; sg_cost := c; sg_single := Some true;
                  sg_split_points := None; sg_extra := None |}).
Proof.
  intros Hl Hf H. unfold get_shortest_path_segments. destruct fuel as [|fuel]; [lia|].
  cbn [segments_loop]. destruct (Nat.ltb_spec 0 (length data - 2)); [|lia].
  rewrite H. reflexivity.
Qed.

Lemma segments_two fuel data m p c i p2 c2 : 2 <= fuel -> i + 3 < length data ->
  get_shortest_partial_path cost data m = Ok (PpPartial p c i) ->
  get_shortest_partial_path cost (skipn (i + 1) data) m = Ok (PpOk p2 c2) ->
  get_shortest_path_segments cost fuel data m =
    Ok (SegSol {| sg_success := true; sg_path := p; sg_cost := c; sg_single := Some false;
                  sg_split_points := Some [i + 1; i + 1]; sg_extra := Some [(p2, c2)] |}).
Proof.
  intros Hf Hl H1 H2. unfold get_shortest_path_segments. destruct fuel as [|[|fuel]]; [lia|lia|].
  cbn [segments_loop]. destruct (Nat.ltb_spec 0 (length data - 2)); [|lia].
  rewrite H1. cbn [bind]. destruct (Nat.ltb_spec (i + 1) (length data - 2)); [|lia].
  rewrite H2. reflexivity.
Qed.

Lemma segments_short fuel data m : length data <= 2 ->
  get_shortest_path_segments cost fuel data m = Raise IndexError.
Proof.
  intros Hl. unfold get_shortest_path_segments.
  assert (E : segments_loop cost fuel data m data 0 [] [] [] = Ok (Some (false, [], [], []))).
  { destruct fuel; cbn [segments_loop]; (destruct (Nat.ltb_spec 0 (length data - 2)); [lia|reflexivity]). }
  rewrite E. reflexivity.
Qed.
End P.

(** Columns 2-3 and 4-5 are linked but 1-2 and 3-4 are not: the split index is
    relative to the remaining data, so the search restarts at column 2 forever. *)
Definition seg_data : list (list nat) := [[0]; [0]; [1]; [1]; [2]; [2]].
Definition seg_cost (a b : nat) : res ZCost := Ok (if Nat.eqb a b then Some 0%Z else Some 9%Z : ZCost).

Lemma seg_loops : forall fuel paths starts costs,
  segments_loop seg_cost fuel seg_data (Some 1%Z : ZCost) (skipn 2 seg_data) 2 paths starts costs = OutOfFuel.
Proof.
  induction fuel as [|fuel IH]; intros paths starts costs; [reflexivity|].
  assert (E : get_shortest_partial_path seg_cost (skipn 2 seg_data) (Some 1%Z : ZCost) = Ok (PpPartial [1; 1] (Some 0%Z : ZCost) 1))
    by reflexivity.
  cbn [segments_loop]. change (2 <? length seg_data - 2) with true. cbv iota. rewrite E. cbn [bind].
  change (1 + 1) with 2. apply IH.
Qed.
Lemma seg_diverges : forall fuel, get_shortest_path_segments seg_cost fuel seg_data (Some 1%Z : ZCost) = OutOfFuel.
Proof.
  intros [|fuel]; [reflexivity|]. unfold get_shortest_path_segments.
  assert (E : get_shortest_partial_path seg_cost seg_data (Some 1%Z : ZCost) = Ok (PpPartial [0; 0] (Some 0%Z : ZCost) 1))
    by reflexivity.
  cbn [segments_loop]. change (0 <? length seg_data - 2) with true. cbv iota. rewrite E. cbn [bind].
  change (1 + 1) with 2. rewrite seg_loops. reflexivity.
Qed.
