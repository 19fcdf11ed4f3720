(** * Proofs about graph.cpp: building the graph and extracting the path. *)
From Coq Require Import List Arith Lia Bool ZArith Permutation.
From Verif Require Import PyBase Cost SpecPath GraphCommon GraphProofs GraphWalks CppGraph.
Import ListNotations.
Local Open Scope nat_scope.

Section P.
Context {K : CostStruct} {F : Type}.
Context (f1 : F) (sq_acc : K -> F -> F -> F -> K).
Notation D := (list F).

(** Specification of the joint cost from sample a to sample b. *)
Fixpoint wsq (acc : K) (w a b : list F) : K :=
  match w, a, b with
  | wi :: w', x :: a', y :: b' => wsq (sq_acc acc wi y x) w' a' b'
  | _, _, _ => acc
  end.
Definition jcost (w : list F) (a b : D) : K := wsq czero w a b.

Lemma cost2_loop_ok : forall w a b acc, length b = length w -> length a = length w ->
  cost2_loop sq_acc w b a acc = Ok (wsq acc w a b).
Proof.
  induction w as [|wi w IH]; intros [|x a] [|y b] acc H1 H2; simpl in *; try discriminate; auto.
Qed.
Lemma cost2_ok w a b : length b = length w -> length a = length w -> cost2 sq_acc w b a = Ok (jcost w a b).
Proof. apply cost2_loop_ok. Qed.

(** ** node arrays *)
Lemma lk_nth (a : narr K D) i j : lk a i j = nth_error (nth i a []) j.
Proof.
  unfold lk. destruct (nth_error a i) as [c|] eqn:E.
  - rewrite (nth_error_nth _ _ [] E). reflexivity.
  - rewrite nth_overflow by (apply nth_error_None; auto). destruct j; reflexivity.
Qed.
Lemma collen_nth (a : narr K D) i : collen a i = length (nth i a []).
Proof.
  unfold collen. destruct (nth_error a i) as [c|] eqn:E.
  - rewrite (nth_error_nth _ _ [] E). reflexivity.
  - rewrite nth_overflow by (apply nth_error_None; auto). reflexivity.
Qed.
Lemma nth_upd {A} (l : list A) d : forall i k x, i < length l -> nth k (upd l i x) d = if Nat.eqb k i then x else nth k l d.
Proof.
  induction l as [|h l IH]; intros [|i] [|k] x H; simpl in *; try lia; auto. apply IH. lia.
Qed.

Lemma nth_cmk_col (i : nat) (col : list D) : forall k j,
  nth_error (@cmk_col K F i k col) j = option_map (fun x => mkNode i (k + j) x cinf PDummy false) (nth_error col j).
Proof.
  induction col as [|x col IH]; intros k [|j]; simpl; auto.
  - rewrite Nat.add_0_r; reflexivity.
  - rewrite IH. replace (S k + j) with (k + S j) by lia. reflexivity.
Qed.
Lemma cmk_col_length (col : list D) : forall i k, length (@cmk_col K F i k col) = length col.
Proof. induction col; intros; simpl; auto. Qed.

Lemma to_na_length (data : list (list D)) : forall i (a : narr K D),
  length (to_node_array i data a) = length a + length data.
Proof.
  induction data as [|c data IH]; intros i a; simpl; [lia|].
  rewrite IH, upd_length, app_length. simpl. lia.
Qed.
Lemma to_na_nth (data : list (list D)) : forall i (a : narr K D), i <= length a -> forall k,
  nth k (to_node_array i data a) [] =
  nth k a [] ++ (if (i <=? k) && (k <? i + length data) then cmk_col k 0 (nth (k - i) data []) else []).
Proof.
  induction data as [|c data IH]; intros i a Hi k; cbn [to_node_array length].
  - destruct ((i <=? k) && (k <? i + 0)) eqn:E; [|rewrite app_nil_r; auto].
    apply andb_true_iff in E. rewrite Nat.leb_le, Nat.ltb_lt in E. lia.
  - assert (Ha : forall k, nth k (a ++ [[]]) [] = nth k a []).
    { intros k'. destruct (lt_dec k' (length a)).
      - apply app_nth1; auto.
      - rewrite app_nth2 by lia. rewrite (nth_overflow a) by lia. destruct (k' - length a) as [|[|?]]; reflexivity. }
    rewrite IH by (rewrite upd_length, app_length; simpl; lia).
    rewrite nth_upd by (rewrite app_length; simpl; lia). rewrite !Ha.
    destruct (Nat.eqb_spec k i) as [->|Hki].
    + replace (S i <=? i) with false by (symmetry; apply Nat.leb_gt; lia).
      replace (i <=? i) with true by (symmetry; apply Nat.leb_le; lia).
      replace (i <? i + S (length data)) with true by (symmetry; apply Nat.ltb_lt; lia).
      simpl. rewrite app_nil_r, Nat.sub_diag. reflexivity.
    + f_equal. destruct (Nat.leb_spec (S i) k), (Nat.leb_spec i k); try lia; cbn [andb]; auto.
      replace (i + S (length data)) with (S i + length data) by lia.
      replace (k - i) with (S (k - S i)) by lia. reflexivity.
Qed.

Definition fresh (data : list (list D)) : narr K D := to_node_array 0 data [].

Lemma fresh_length data : length (fresh data) = length data.
Proof. unfold fresh. rewrite to_na_length. reflexivity. Qed.
Lemma fresh_nth data k : nth k (fresh data) [] = cmk_col k 0 (nth k data []).
Proof.
  unfold fresh. rewrite to_na_nth by (simpl; lia). rewrite Nat.sub_0_r.
  destruct (Nat.ltb_spec k (0 + length data)) as [H|H]; simpl.
  - destruct k; reflexivity.
  - rewrite (nth_overflow data) by (simpl in H; lia). destruct k; reflexivity.
Qed.
Lemma datQ_nth (data : list (list D)) i j : datQ data i j = nth_error (nth i data []) j.
Proof.
  unfold datQ. destruct (nth_error data i) as [c|] eqn:E.
  - rewrite (nth_error_nth _ _ [] E). reflexivity.
  - rewrite nth_overflow by (apply nth_error_None; auto). destruct j; reflexivity.
Qed.
Lemma lk_cfresh data i j : lk (fresh data) i j =
  option_map (fun x => mkNode i j x cinf PDummy false) (datQ data i j).
Proof. rewrite lk_nth, fresh_nth, nth_cmk_col, datQ_nth. reflexivity. Qed.
Lemma collen_cfresh data i : collen (fresh data) i = length (nth i data []).
Proof. rewrite collen_nth, fresh_nth, cmk_col_length. reflexivity. Qed.
Lemma fresh_ne data : data <> [] -> exists c a, fresh data = c :: a.
Proof.
  intros H. pose proof (fresh_length data). destruct (fresh data); [|eauto].
  destruct data; simpl in *; [congruence|discriminate].
Qed.

(** Arrays that only differ from the fresh one in labels and flags. *)
Definition cshape (data : list (list D)) (a : narr K D) : Prop :=
  length a = length data /\ (forall i, collen a i = collen (fresh data) i) /\ same_keys (fresh data) a.

Lemma cshape_fresh data : cshape data (fresh data).
Proof. split; [apply fresh_length|]. split; auto. apply same_keys_refl. Qed.
Lemma cshape_si data a i j n : cshape data a -> lk a i j = Some n ->
  n_si n = j /\ n_pi n = i /\ datQ data i j = Some (n_data n).
Proof.
  intros (_ & _ & Hk) Hn. specialize (Hk i j). rewrite Hn, lk_cfresh in Hk.
  destruct (datQ data i j); simpl in Hk; [|discriminate]. unfold key in Hk. simpl in Hk.
  injection Hk as -> -> ->. auto.
Qed.
Lemma cshape_dat data a : cshape data a -> wf_dat (datQ data) a.
Proof.
  intros H i j. pose proof H as (_ & _ & Hk). specialize (Hk i j). rewrite lk_cfresh in Hk.
  destruct (lk a i j) as [n|], (datQ data i j); simpl in *; try discriminate; auto.
  unfold key in Hk; simpl in Hk. congruence.
Qed.

Lemma narr_ext2 (a b : narr K D) : length a = length b -> (forall i, collen a i = collen b i) ->
  (forall i j, lk a i j = lk b i j) -> a = b.
Proof.
  intros Hl Hc Hk. apply nth_ext with (d := []) (d' := []); auto. intros i Hi.
  specialize (Hc i). rewrite !collen_nth in Hc.
  assert (Hlk : forall j, nth_error (nth i a []) j = nth_error (nth i b []) j).
  { intros j. rewrite <- !lk_nth. auto. }
  clear -Hlk. revert Hlk. generalize (nth i a []) (nth i b []). intros l.
  induction l as [|x l IH]; intros [|y m] H; auto; try (specialize (H 0); discriminate).
  f_equal; [specialize (H 0); simpl in H; congruence|]. apply IH. intros j. exact (H (S j)).
Qed.

Lemma creset_fresh data a : cshape data a -> map (map creset_node) a = fresh data.
Proof.
  intros (H1 & H2 & H3). apply narr_ext2.
  - rewrite map_length, H1, fresh_length. reflexivity.
  - intros i. rewrite <- H2. unfold collen. rewrite nth_error_map.
    destruct (nth_error a i); simpl; auto. apply map_length.
  - intros i j. unfold lk at 1. rewrite nth_error_map. specialize (H3 i j). rewrite lk_cfresh in *.
    unfold lk in H3. destruct (nth_error a i) as [c|]; cbn [option_map].
    + rewrite nth_error_map. destruct (nth_error c j) as [n|], (datQ data i j) as [x|]; cbn [option_map] in *; try discriminate; auto.
      unfold key in H3. simpl in H3. injection H3 as E1 E2 E3. unfold creset_node. congruence.
    + destruct (datQ data i j); cbn [option_map] in *; [discriminate|reflexivity].
Qed.

(** ** loading data *)
Definition uniform (n : nat) (data : list (list D)) : Prop := Forall (Forall (fun u => length u = n)) data.

Lemma mapM_map {A B} (f : A -> res B) (g : A -> B) l : (forall x, In x l -> f x = Ok (g x)) -> mapM f l = Ok (map g l).
Proof.
  induction l as [|x l IH]; intros H; simpl; auto. rewrite H by (simpl; auto). cbn [bind].
  rewrite IH by (intros; apply H; simpl; auto). reflexivity.
Qed.

Lemma nth_error_concat n (rows : list D) : Forall (fun u => length u = n) rows ->
  forall i j r x, nth_error rows i = Some r -> nth_error r j = Some x -> nth_error (concat rows) (j + n * i) = Some x.
Proof.
  induction 1 as [|u rows Hu Hrows IH]; intros [|i] j r x Hr Hx; simpl in *; try discriminate.
  - injection Hr as ->. rewrite Nat.mul_0_r, Nat.add_0_r. rewrite nth_error_app1; auto.
    apply nth_error_Some. congruence.
  - rewrite nth_error_app2 by nia. rewrite <- (IH i j r x); auto. f_equal. nia.
Qed.

Lemma mapM_seq_list {A B} (f : nat -> res B) (l : list A) (g : A -> B) : forall k,
  (forall i x, nth_error l i = Some x -> f (k + i) = Ok (g x)) -> mapM f (seq k (length l)) = Ok (map g l).
Proof.
  induction l as [|x l IH]; intros k H; simpl; auto.
  specialize (H 0 x eq_refl) as H0. rewrite Nat.add_0_r in H0. rewrite H0. cbn [bind].
  rewrite (IH (S k)); auto. intros i y Hy. replace (S k + i) with (k + S i) by lia. apply H. exact Hy.
Qed.

Lemma add_rows_ok n (rows : list D) (s : cgraph K F) : Forall (fun u => length u = n) rows ->
  add_data_column (concat rows) (length rows) n s =
  Ok (mkCG (gd s ++ [rows]) (na s) (path_found s) (shortest_path_cost s) (num_goals s) (max_path_index s) (weights s)).
Proof.
  intros H. unfold add_data_column.
  rewrite (mapM_seq_list _ rows (fun r => r) 0).
  - rewrite map_id. reflexivity.
  - intros i r Hr. simpl. unfold mat_row.
    assert (Hn : length r = n) by (rewrite Forall_forall in H; apply H; eapply nth_error_In; eauto).
    replace (seq 0 n) with (seq 0 (length r)) by congruence. rewrite (mapM_seq_list _ r (fun x => x) 0).
    + rewrite map_id. reflexivity.
    + intros j x Hx. simpl. rewrite (nth_error_concat n rows H i j r x); auto.
Qed.

Definition eff_weights (n : nat) (ow : option (list F)) : list F :=
  match ow with
  | Some w => if Nat.eqb (length w) n then w else repeat f1 n
  | None => repeat f1 n
  end.

Lemma eff_weights_length n ow : length (eff_weights n ow) = n.
Proof.
  unfold eff_weights. destruct ow as [w|]; [|apply repeat_length].
  destruct (Nat.eqb_spec (length w) n); auto. apply repeat_length.
Qed.

Lemma load_rows n : forall data (s : cgraph K F), uniform n data ->
  foldM (fun s rows => add_data_column (concat rows) (length rows) n s) data s =
  Ok (mkCG (gd s ++ data) (na s) (path_found s) (shortest_path_cost s) (num_goals s) (max_path_index s) (weights s)).
Proof.
  induction data as [|c data IH]; intros s Hu; cbn [foldM].
  - rewrite app_nil_r. destruct s; reflexivity.
  - inversion Hu; subst. rewrite add_rows_ok by auto. cbn [bind]. rewrite IH by auto. simpl.
    rewrite <- app_assoc. reflexivity.
Qed.

Definition loaded (n : nat) (data : list (list D)) (ow : option (list F)) : cgraph K F :=
  mkCG data (fresh data) false cinf (length (nth (length data - 1) data [])) (length data - 1) (eff_weights n ow).

Lemma init_loaded (data : list (list D)) w n row col rest : data = (row :: col) :: rest -> length row = n ->
  init f1 (mkCG data [] false cinf 0 0 w) =
  Ok (mkCG data (fresh data) false (cinf : K) (length (nth (length data - 1) data [])) (length data - 1)
        (if Nat.eqb (length w) n then w else repeat f1 n)).
Proof.
  intros E Hn. unfold init. cbn [gd na weights shortest_path_cost]. change (to_node_array 0 data []) with (fresh data).
  destruct (fresh_ne data) as (c & a & Ef); [rewrite E; discriminate|].
  rewrite Ef. rewrite E at 1. rewrite Hn, <- Ef, fresh_length, fresh_nth, cmk_col_length. reflexivity.
Qed.

Lemma load_ok n data ow : uniform n data -> (exists row col rest, data = (row :: col) :: rest) ->
  load f1 n data ow = Ok (loaded n data ow).
Proof.
  intros Hu (row & col & rest & E). unfold load. rewrite load_rows by auto. cbn [bind cnew gd na path_found shortest_path_cost num_goals max_path_index weights app].
  assert (Hn : length row = n).
  { unfold uniform in Hu. rewrite E in Hu. inversion Hu; subst. inversion H1; auto. }
  destruct ow as [w|]; unfold set_weights; cbn [gd na path_found shortest_path_cost num_goals max_path_index weights].
  - rewrite (init_loaded data w n row col rest); auto.
  - rewrite (init_loaded data [] n row col rest); auto. unfold loaded, eff_weights.
    destruct (Nat.eqb_spec (length (@nil F)) n) as [H|H]; auto. simpl in H. subst n. rewrite <- H. reflexivity.
Qed.

(** ** the expansion step *)
Section W.
Context (n : nat) (w : list F) (data : list (list D)).
Context (Hw : length w = n) (Hu : uniform n data).
Notation ct := (jcost w).
Notation cst := (fun c x => cost2 sq_acc w x c).
Definition all_edges : D -> D -> bool := fun _ _ => true.

Lemma uniform_dat i j x : datQ data i j = Some x -> length x = n.
Proof.
  intros H. apply datQ_col in H. destruct H as (c & Hc & Hx). unfold uniform in Hu. rewrite Forall_forall in Hu.
  specialize (Hu c (nth_error_In _ _ Hc)). rewrite Forall_forall in Hu. apply Hu. eapply nth_error_In; eauto.
Qed.

Lemma cost2_dat i j x i' j' y : datQ data i j = Some x -> datQ data i' j' = Some y ->
  cost2 sq_acc w y x = Ok (ct x y).
Proof. intros Hx Hy. apply uniform_dat in Hx, Hy. apply cost2_ok; lia. Qed.

Lemma cshape_wfd a : cshape data a -> wfd cst ct (length data) a.
Proof.
  intros H. split; [apply H|]. split.
  - intros i j m Hm. eapply cshape_si in Hm; eauto. tauto.
  - intros i j j' m m' Hm Hm'. eapply cshape_si in Hm; eauto. eapply cshape_si in Hm'; eauto.
    eapply cost2_dat; [apply Hm|apply Hm'].
Qed.

Lemma get_neighbors_ok L a ncur i j : wfd cst ct L a -> lk a i j = Some ncur ->
  get_neighbors a ncur = Ok (col_refs a (S i)).
Proof.
  intros (H0 & H1 & H2) Hn. unfold get_neighbors. rewrite (H1 _ _ _ Hn), Nat.add_1_r.
  assert (Hi : i < length a).
  { apply nth_error_Some. unfold lk in Hn. destruct (nth_error a i); [discriminate|congruence]. }
  destruct (Nat.eqb_spec i (length a - 1)) as [E|E].
  - unfold col_refs. destruct (nth_error a (S i)) eqn:E1; auto.
    exfalso. assert (S i < length a) by (apply nth_error_Some; congruence). lia.
  - destruct (nth_error a (S i)) eqn:E1; auto. apply nth_error_None in E1. lia.
Qed.

Lemma filter_true {A} (f : A -> bool) l : (forall x, In x l -> f x = true) -> filter f l = l.
Proof.
  induction l as [|x l IH]; intros H; simpl; auto. rewrite H by (simpl; auto). f_equal. apply IH.
  intros; apply H; simpl; auto.
Qed.

Lemma cexpand_gen L push (Rq : list ref -> list ref -> Prop) a q q0 cur ncur :
  (forall na q q0 r, Rq q q0 -> Rq (push na q r) (q0 ++ [r])) -> Rq q q0 ->
  wfd cst ct L a -> lk a (fst cur) (snd cur) = Some ncur ->
  exists a' q', cexpand sq_acc w push a q cur = Ok (a', q') /\
    expanded ct all_edges a cur ncur a' /\ Rq q' (q0 ++ filter (is_new all_edges a ncur) (col_refs a (S (fst cur)))).
Proof.
  intros HR Hq Hwf Hn. unfold cexpand.
  assert (Hd : deref a cur = Ok ncur) by (destruct cur; rewrite deref_lk; simpl in *; rewrite Hn; auto).
  rewrite Hd. cbn [bind]. rewrite (get_neighbors_ok L a ncur _ _ Hwf Hn). cbn [bind].
  destruct (expand_col cst ct all_edges push Rq HR cur ncur a q q0) as (a' & q' & Hf & Hex & Hq'); auto.
  { intros j v Hv. destruct Hwf as (_ & _ & H2). eauto. }
  exists a', q'. split; [|auto]. rewrite <- Hf. f_equal. symmetry. apply filter_true.
  intros r Hr. apply in_col_refs in Hr. destruct Hr as (_ & v & Hv). unfold edge_ref. rewrite Hv. reflexivity.
Qed.

Lemma cexpand_fifo L a q cur ncur : wfd cst ct L a -> lk a (fst cur) (snd cur) = Some ncur ->
  exists a', cexpand sq_acc w fifo_push a q cur = Ok (a', q ++ filter (is_new all_edges a ncur) (col_refs a (S (fst cur)))) /\
    expanded ct all_edges a cur ncur a'.
Proof.
  intros Hwf Hn.
  destruct (cexpand_gen L fifo_push eq a q q cur ncur) as (a' & q' & H1 & H2 & H3); auto.
  { intros ? ? ? ? ->. reflexivity. }
  exists a'. rewrite H1, H3. auto.
Qed.

(** ** reading off a path *)
Fixpoint pn (k : nat) (js : list nat) : list parent :=
  match js with [] => [] | j :: js' => PNode k j :: pn (S k) js' end.
Lemma pn_app js' : forall js k, pn k (js ++ js') = pn k js ++ pn (k + length js) js'.
Proof.
  induction js as [|j js IH]; intros k; simpl; [f_equal; lia|]. rewrite IH. do 2 f_equal. f_equal. lia.
Qed.
Lemma pn_length : forall js k, length (pn k js) = length js.
Proof. induction js; intros; simpl; auto. Qed.

Lemma tr_length (a : narr K D) i j js : tr 0 a i j js -> length js = S i.
Proof. induction 1; simpl; auto. rewrite app_length; simpl; lia. Qed.

Lemma cfollow_tr a i j js : (forall i j m, lk a i j = Some m -> n_pi m = i) -> tr 0 a i j js ->
  forall fuel acc, length js <= fuel -> @cfollow K F fuel a (PNode i j) acc = Ok (pn 0 js ++ acc).
Proof.
  intros Hpi Ht. induction Ht as [j m Hm Hp|i j j' m js Hm Hp Ht IH]; intros fuel acc Hf.
  - destruct fuel as [|fuel]; [simpl in Hf; lia|]. cbn [cfollow]. rewrite deref_lk, Hm. cbn [bind].
    rewrite (Hpi _ _ _ Hm). reflexivity.
  - rewrite app_length in Hf. simpl in Hf. destruct fuel as [|fuel]; [lia|]. cbn [cfollow].
    rewrite deref_lk, Hm. cbn [bind]. rewrite (Hpi _ _ _ Hm). simpl (0 <? S i). cbv iota.
    rewrite Hp, IH by lia. rewrite pn_app, <- app_assoc. simpl. rewrite (tr_length _ _ _ _ Ht). reflexivity.
Qed.

Lemma tr_count (a : narr K D) i j js : tr 0 a i j js -> length js <= count_nodes a.
Proof.
  intros Ht.
  assert (H : exists rs, length rs = length js /\ NoDup rs /\ (forall r, In r rs -> fst r <= i /\ In r (all_refs a))).
  { induction Ht as [j m Hn Hp|i j j' m js Hn Hp Ht IH].
    - exists [(0, j)]. split; auto. split; [constructor; [intros []|constructor]|].
      intros r [<-|[]]. simpl. split; [lia|]. apply in_all_refs; simpl; eauto.
    - destruct IH as (rs & H1 & H2 & H3). exists ((S i, j') :: rs). split; [rewrite app_length; simpl; lia|].
      split. { constructor; auto. intros Hin. apply H3 in Hin. simpl in Hin. lia. }
      intros r [<-|Hr]; simpl. { split; [lia|]. apply in_all_refs; simpl; eauto. }
      destruct (H3 r Hr). split; auto. }
  destruct H as (rs & <- & H2 & H3). rewrite <- all_refs_length. apply NoDup_incl_length; auto.
  intros r Hr. apply H3; auto.
Qed.

Lemma tr_picks a i j js : cshape data a -> i < length data -> tr 0 a i j js ->
  exists p, picks (firstn (S i) data) js p.
Proof.
  intros Hs Hi Ht. induction Ht as [j m Hm Hp|i j j' m js Hm Hp Ht IH].
  - pose proof (cshape_si _ _ _ _ _ Hs Hm) as (_ & _ & Hd). apply datQ_col in Hd. destruct Hd as (c & Hc & Hx).
    rewrite (firstn_S_snoc _ _ _ Hc). exists [n_data m]. simpl. auto.
  - destruct IH as (p & Hp'); [lia|].
    pose proof (cshape_si _ _ _ _ _ Hs Hm) as (_ & _ & Hd). apply datQ_col in Hd. destruct Hd as (c & Hc & Hx).
    rewrite (firstn_S_snoc _ _ _ Hc). exists (p ++ [n_data m]). apply picks_snoc; auto.
Qed.

Lemma picks_pts a : cshape data a -> forall js p k, picks (skipn k data) js p ->
  mapM (pt_index a) (pn k js) = Ok js /\
  mapM (pt_data a) (pn k js) = Ok p.
Proof.
  intros Hs. induction js as [|j js IH]; intros p k Hp.
  - destruct (skipn k data), p; simpl in *; try tauto; auto.
  - destruct (skipn k data) as [|c rest] eqn:E; [destruct p; simpl in Hp; tauto|].
    destruct p as [|x p]; [simpl in Hp; tauto|]. destruct Hp as [Hx Hp].
    assert (Hc : nth_error data k = Some c).
    { rewrite <- (Nat.add_0_r k), <- nth_error_skipn, E. reflexivity. }
    assert (Hsk : skipn (S k) data = rest).
    { clear -E. revert k E. induction data as [|d l IHl]; intros [|k] E; simpl in *; try discriminate.
      - injection E; auto. - apply IHl in E. destruct l; auto. }
    assert (Hd : datQ data k j = Some x) by (unfold datQ; rewrite Hc; auto).
    destruct (wf_dat_inv _ _ _ _ _ (cshape_dat _ _ Hs) Hd) as (m & Hm & Hmx).
    rewrite <- Hsk in Hp. destruct (IH p (S k) Hp) as [I1 I2].
    pose proof (cshape_si _ _ _ _ _ Hs Hm) as (Hsi & _).
    cbn [pn mapM pt_index pt_data]. rewrite deref_lk, Hm. cbn [bind]. rewrite I1, I2. cbn [bind]. rewrite Hsi, Hmx. auto.
Qed.

Lemma path_cost_ok a : cshape data a -> forall js p k prev x acc, picks (skipn k data) js p ->
  pt_data a prev = Ok x -> length x = n ->
  path_cost_loop sq_acc w a prev (pn k js) acc = Ok (walk_cost_from ct acc x p).
Proof.
  clear f1. intros Hs. induction js as [|j js IH]; intros p k prev x acc Hp Hprev Hx.
  - destruct (skipn k data), p; simpl in *; try tauto; auto.
  - destruct (skipn k data) as [|c rest] eqn:E; [destruct p; simpl in Hp; tauto|].
    destruct p as [|y p]; [simpl in Hp; tauto|].
    rewrite <- E in Hp. pose proof (picks_pts a Hs _ _ _ Hp) as [_ Hpd]. rewrite E in Hp. destruct Hp as [Hy Hp].
    assert (Hc : nth_error data k = Some c).
    { rewrite <- (Nat.add_0_r k), <- nth_error_skipn, E. reflexivity. }
    assert (Hsk : skipn (S k) data = rest).
    { clear -E. revert k E. induction data as [|d l IHl]; intros [|k] E; simpl in *; try discriminate.
      - injection E; auto. - apply IHl in E. destruct l; auto. }
    assert (Hd : datQ data k j = Some y) by (unfold datQ; rewrite Hc; auto).
    cbn [pn mapM] in Hpd. destruct (pt_data a (PNode k j)) as [y'| |] eqn:Ey; cbn [bind] in Hpd; try discriminate.
    destruct (mapM (pt_data a) (pn (S k) js)); cbn [bind] in Hpd; try discriminate. injection Hpd as -> ->.
    cbn [pn path_cost_loop]. rewrite Ey, Hprev. cbn [bind].
    rewrite cost2_ok by (rewrite Hw; eauto using uniform_dat). cbn [bind walk_cost_from].
    apply IH; auto. + rewrite Hsk. exact Hp. + eapply uniform_dat; eauto.
Qed.

Lemma picks_tail (Q : list (list D)) j js x p : picks Q (j :: js) (x :: p) ->
  datQ Q 0 j = Some x /\ picks (skipn 1 Q) js p.
Proof. destruct Q; simpl; [tauto|]. auto. Qed.

Lemma path_cost_picks a js p : cshape data a -> picks data js p ->
  path_cost sq_acc w a (pn 0 js) = Ok (walk_cost ct p).
Proof.
  clear f1.
  intros Hs Hp. pose proof (picks_length _ _ _ Hp) as [L1 L2]. destruct js as [|j js], p as [|x p]; simpl in L1, L2; try lia.
  - reflexivity.
  - destruct (picks_pts a Hs _ _ 0 Hp) as [_ Hq]. destruct (picks_tail _ _ _ _ _ Hp) as [Hx Ht].
    cbn [pn mapM] in Hq. destruct (pt_data a (PNode 0 j)) as [y'| |] eqn:Ey; cbn [bind] in Hq; try discriminate.
    destruct (mapM (pt_data a) (pn 1 js)); cbn [bind] in Hq; try discriminate. injection Hq as -> ->.
    cbn [pn path_cost walk_cost].
    apply path_cost_ok; auto. eapply uniform_dat; eauto.
Qed.

(** ** the goal *)
Lemma best_goal_spec i : forall (col : list (node K D)) j m g,
  best_goal i j col m g = g /\ (forall k v, nth_error col k = Some v -> cle m (n_dist v)) \/
  exists k v, nth_error col k = Some v /\ best_goal i j col m g = PNode i (j + k) /\ clt (n_dist v) m = true /\
    forall k' v', nth_error col k' = Some v' -> cle (n_dist v) (n_dist v').
Proof.
  induction col as [|v col IH]; intros j m g; cbn [best_goal].
  - left. split; auto. intros [|k] v H; discriminate.
  - destruct (clt (n_dist v) m) eqn:E.
    + destruct (IH (S j) (n_dist v) (PNode i j)) as [[H1 H2]|(k & v' & H1 & H2 & H3 & H4)].
      * right. exists 0, v. rewrite Nat.add_0_r. split; auto. split; auto. split; auto.
        intros [|k'] v' H'; simpl in H'; [injection H' as <-; apply cle_refl|eauto].
      * right. exists (S k), v'. split; auto. split; [rewrite H2; f_equal; lia|]. split; [eapply clt_trans; eauto|].
        intros [|k'] v2 H'; simpl in H'; [injection H' as <-; apply clt_cle; auto|eauto].
    + destruct (IH (S j) m g) as [[H1 H2]|(k & v' & H1 & H2 & H3 & H4)].
      * left. split; auto. intros [|k'] v2 H'; simpl in H'; [injection H' as <-; exact E|eauto].
      * right. exists (S k), v'. split; auto. split; [rewrite H2; f_equal; lia|]. split; auto.
        intros [|k'] v2 H'; simpl in H'; [injection H' as <-|eauto].
        apply clt_cle. eapply clt_le_trans; eauto.
Qed.

(** get_path_nodes on an array where finite nodes of the last column have a
    chain of parents back to column 0. *)
Lemma get_path_nodes_spec a : cshape data a -> data <> [] ->
  (forall j v, lk a (length data - 1) j = Some v -> clt (n_dist v) cinf = true -> exists js, tr 0 a (length data - 1) j js) ->
  (get_path_nodes true a = Raise NullDeref /\ forall j v, lk a (length data - 1) j = Some v -> clt (n_dist v) cinf = false) \/
  (exists j v js p, lk a (length data - 1) j = Some v /\ clt (n_dist v) cinf = true /\
     (forall j' v', lk a (length data - 1) j' = Some v' -> cle (n_dist v) (n_dist v')) /\
     tr 0 a (length data - 1) j js /\ picks data js p /\ get_path_nodes true a = Ok (pn 0 js)).
Proof.
  intros Hs Hne Hfin. pose proof Hs as (Hl & _).
  assert (Hpos : 0 < length data) by (destruct data; [congruence|simpl; lia]).
  unfold get_path_nodes. destruct a as [|c0 a0] eqn:Ea; [simpl in Hl; lia|]. rewrite <- Ea in *. rewrite Hl.
  destruct (best_goal_spec (length data - 1) (nth (length data - 1) a []) 0 cinf PNone) as [[H1 H2]|(k & v & H1 & H2 & H3 & H4)].
  - left. rewrite H1. split; [reflexivity|]. intros j v Hv. rewrite lk_nth in Hv. exact (H2 _ _ Hv).
  - right. rewrite H2. simpl plus. rewrite <- lk_nth in H1. destruct (Hfin _ _ H1 H3) as (js & Htr).
    assert (Hlt : length data - 1 < length data) by lia.
    destruct (tr_picks _ _ _ _ Hs Hlt Htr) as (p & Hp).
    exists k, v, js, p. split; auto. split; auto. split. { intros j' v' Hv'. rewrite lk_nth in Hv'. eauto. }
    split; auto. split.
    + rewrite firstn_all2 in Hp by lia. exact Hp.
    + rewrite (cfollow_tr _ _ _ _ ltac:(intros ? ? ? Hm; eapply cshape_si in Hm; eauto; tauto) Htr).
      * rewrite app_nil_r. reflexivity.
      * apply tr_count in Htr. lia.
Qed.

(** Same, for the public functions. *)
Lemma get_path_ok (s : cgraph K F) js p : path_found s = true -> get_path_nodes true (na s) = Ok (pn 0 js) ->
  cshape data (na s) -> picks data js p ->
  get_path (length data) s = Ok (Some (map Z.of_nat js)).
Proof.
  intros Hf Hg Hs Hp. unfold get_path. rewrite Hf, Hg. cbn [bind].
  pose proof (picks_length _ _ _ Hp) as [L _]. rewrite pn_length, L, Nat.eqb_refl.
  destruct (picks_pts (na s) Hs js p 0 Hp) as [E _]. rewrite E. reflexivity.
Qed.
End W.
End P.
