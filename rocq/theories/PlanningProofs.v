(** * Proofs about planning.py: get_shortest_path. *)
From Coq Require Import String List Arith ZArith Lia Bool Permutation.
From Verif Require Import PyBase Cost SpecPath GraphCommon GraphProofs GraphWalks CppGraph CppGraphProofs CppSearch CppHeap CppMain CppFinal Planning.
Import ListNotations.
Local Open Scope nat_scope.

(** Q built from arrays of one dtype with n columns. *)
Definition arrays {F} (t : dtype) (n : nat) (data : list (list (list F))) : list (qent F) := map (QArr t n) data.
(** data as seen by the graph: rounded when the arrays are float64 *)
Definition seen {F} (to32 : F -> F) (t : dtype) (data : list (list (list F))) : list (list (list F)) :=
  match t with F32 => data | F64 => map (map (map to32)) data end.
(** a float32 array with rows of the declared width, or the empty list *)
Definition wf_entry {F} (e : qent F) : Prop :=
  match e with QArr F32 nc rows => Forall (fun r => length r = nc) rows | QArr F64 _ _ => False | QNil => True end.

Section G.
Context {K : CostStruct} {F : Type} (f1 : F) (sq_acc : K -> F -> F -> F -> K) (pq : pqueue K F) (to32 : F -> F).
Notation gsp_ := (get_shortest_path f1 sq_acc pq to32).

Lemma seen_uniform t n data : uniform n data -> uniform n (seen to32 t data).
Proof.
  intros H. destruct t; auto. unfold uniform in *. cbn [seen]. apply Forall_map. eapply Forall_impl; [|exact H].
  intros col Hc. apply Forall_map. eapply Forall_impl; [|exact Hc]. intros r Hr. rewrite map_length. exact Hr.
Qed.
Lemma seen_ne t data : Forall (fun col => col <> []) data -> Forall (fun col => col <> []) (seen to32 t data).
Proof.
  intros H. destruct t; auto. cbn [seen]. apply Forall_map. eapply Forall_impl; [|exact H].
  intros col Hc E. apply Hc. destruct col; [auto|discriminate].
Qed.
Lemma seen_length t data : length (seen to32 t data) = length data.
Proof. destruct t; auto. apply map_length. Qed.

Lemma check_arrays t n data : data <> [] -> check_dtype to32 (arrays t n data) = Ok (arrays F32 n (seen to32 t data)).
Proof.
  destruct data as [|c data]; [congruence|]. intros _. destruct t; [reflexivity|].
  unfold arrays. cbn [map check_dtype]. change (QArr F64 n c :: map (QArr F64 n) data) with (map (QArr F64 n) (c :: data)).
  generalize (c :: data). intros l. induction l as [|x l IH]; [reflexivity|].
  cbn [map mapM astype32 bind seen]. rewrite IH. reflexivity.
Qed.

Lemma add_columns_ok n : forall data (g : cgraph K F), uniform n data -> Forall (fun col => col <> []) data ->
  add_columns (arrays F32 n data) g = (r <- foldM (fun s rows => add_data_column (concat rows) (length rows) n s) data g ;; Ok (Some r)).
Proof.
  induction data as [|c data IH]; intros g Hu Hc; [reflexivity|].
  inversion Hu; subst. inversion Hc; subst. cbn [arrays map add_columns qlen foldM].
  destruct c as [|r c]; [congruence|]. replace (length (r :: c) =? 0) with false by reflexivity.
  destruct (add_data_column (concat (r :: c)) (length (r :: c)) n g) as [g'| |]; cbn [bind]; [apply IH; auto|reflexivity|reflexivity].
Qed.

(** The graph built by get_shortest_path is the one of [load]. *)
Lemma build_graph n data ow : uniform n data -> data <> [] -> Forall (fun col => col <> []) data ->
  (og <- add_columns (arrays F32 n data) (match ow with Some w => set_weights w cnew | None => cnew end) ;;
   match og with None => Ok None | Some g => g' <- init f1 g ;; Ok (Some g') end) = Ok (Some (loaded f1 n data ow : cgraph K F)) /\
  load f1 n data ow = Ok (loaded f1 n data ow : cgraph K F).
Proof.
  intros Hu Hne Hc. split.
  2:{ apply load_ok; auto. destruct data as [|[|row col] rest]; [congruence| |eauto]. inversion Hc; congruence. }
  rewrite add_columns_ok, load_rows by auto. cbn [bind].
  destruct data as [|[|row col] rest] eqn:Ed; [congruence|inversion Hc; congruence|].
  assert (Hn : length row = n) by (inversion Hu; subst; inversion H1; auto).
  rewrite <- Ed in *.
  destruct ow as [w|]; cbn [set_weights cnew gd na path_found shortest_path_cost num_goals max_path_index weights app].
  - rewrite (init_loaded f1 data w n row col rest); auto.
  - rewrite (init_loaded f1 data [] n row col rest); auto. cbn [bind]. unfold loaded, eff_weights.
    destruct (Nat.eqb_spec (length (@nil F)) n) as [H|H]; auto. simpl in H. subst n. rewrite <- H. reflexivity.
Qed.

(** What happens once the graph is loaded. *)
Definition search_part (Q : list (qent F)) (method : string) (g0 : cgraph K F) : res (gsp K F) :=
  g <- (if String.eqb method "bfs" then run_bfs sq_acc g0
        else if String.eqb method "dijkstra" then run_dijkstra sq_acc pq g0
        else Raise NotImplementedError) ;;
  _ <- get_path_nodes (path_found g) (na g) ;;
  op <- get_path (length Q) g ;;
  match op with
  | None => Raise OutOfBounds
  | Some p_i =>
      z <- py_index p_i 0 ;;
      if Z.eqb z (-1) then Ok GspFail
      else path <- mapM pick_row (combine Q p_i) ;; Ok (GspOk path (get_path_cost g))
  end.

Lemma gsp_arrays t n data method ow : uniform n data -> data <> [] -> Forall (fun col => col <> []) data ->
  gsp_ (arrays t n data) method ow =
  search_part (arrays F32 n (seen to32 t data)) method (loaded f1 n (seen to32 t data) ow) /\
  load f1 n (seen to32 t data) ow = Ok (loaded f1 n (seen to32 t data) ow : cgraph K F).
Proof.
  intros Hu Hne Hc. assert (Hne' : seen to32 t data <> []).
  { intros E. apply Hne. apply length_zero_iff_nil. rewrite <- (seen_length t). rewrite E. reflexivity. }
  destruct (build_graph n (seen to32 t data) ow (seen_uniform t n data Hu) Hne' (seen_ne t data Hc)) as [H1 H2].
  split; auto. unfold get_shortest_path. rewrite check_arrays by auto. cbn [bind].
  destruct (add_columns _ _) as [[g|]| |]; cbn [bind] in *; try discriminate.
  destruct (init f1 g) as [g'| |]; cbn [bind] in *; try discriminate. injection H1 as ->. reflexivity.
Qed.

Lemma pick_rows n : forall (data : list (list (list F))) js p, picks data js p ->
  mapM pick_row (combine (arrays F32 n data) (map Z.of_nat js)) = Ok p.
Proof.
  induction data as [|c data IH]; intros [|j js] [|x p] H; cbn in H; try tauto; try reflexivity; try discriminate.
  destruct H as [H1 H2]. cbn [arrays map combine mapM pick_row].
  unfold py_index_z. replace (Z.of_nat j <? 0)%Z with false by (symmetry; apply Z.ltb_ge; lia).
  rewrite Nat2Z.id. unfold py_index. rewrite H1. cbn [bind]. fold (@arrays F F32 n data). rewrite (IH js p H2). reflexivity.
Qed.

Lemma search_finish n (data : list (list (list F))) (g : cgraph K F) js p : data <> [] -> get_path (length data) g = Ok (Some (map Z.of_nat js)) -> picks data js p ->
  path_found g = true ->
  (_ <- get_path_nodes (path_found g) (na g) ;;
   op <- get_path (length (arrays F32 n data)) g ;;
   match op with
   | None => Raise OutOfBounds
   | Some p_i =>
      z <- py_index p_i 0 ;;
      if Z.eqb z (-1) then Ok GspFail
      else path <- mapM pick_row (combine (arrays F32 n data) p_i) ;; Ok (GspOk path (get_path_cost g))
   end) = Ok (GspOk p (get_path_cost g)).
Proof.
  intros Hne Hg Hp Hf. assert (Hl : length (arrays F32 n data) = length data) by (unfold arrays; apply map_length). rewrite Hl.
  assert (Hn : exists l, get_path_nodes (path_found g) (na g) = Ok l).
  { unfold get_path in Hg. rewrite Hf in Hg |- *. destruct (get_path_nodes true (na g)); cbn [bind] in Hg; [eauto|discriminate|discriminate]. }
  destruct Hn as (l & ->). cbn [bind]. rewrite Hg. cbn [bind].
  destruct data as [|c data]; [congruence|]. destruct js as [|j js]; [destruct p; simpl in Hp; tauto|].
  cbn [map py_index nth_error bind]. unfold py_index. cbn [nth_error bind].
  destruct (Z.eqb_spec (Z.of_nat j) (-1)); [lia|]. change (Z.of_nat j :: map Z.of_nat js) with (map Z.of_nat (j :: js)).
  rewrite (pick_rows n _ _ _ Hp). reflexivity.
Qed.

Section A.
Context (t : dtype) (n : nat) (data : list (list (list F))) (ow : option (list F)).
Context (Hu : uniform n data) (Hne : data <> []) (Hc : Forall (fun col => col <> []) data).
Notation sd := (seen to32 t data).
Notation ct := (jcost sq_acc (eff_weights f1 n ow)).

Lemma seen_not_nil : sd <> [].
Proof. intros E. apply Hne. apply length_zero_iff_nil. rewrite <- (seen_length t). rewrite E. reflexivity. Qed.

Lemma gsp_bfs_spec :
  (gsp_ (arrays t n data) "bfs" ow = Raise NullDeref /\ forall js p, picks sd js p -> clt (walk_cost ct p) cinf = false) \/
  (exists js p, gsp_ (arrays t n data) "bfs" ow = Ok (GspOk p (walk_cost ct p)) /\ picks sd js p /\ clt (walk_cost ct p) cinf = true /\
    forall js' p', picks sd js' p' -> cle (walk_cost ct p) (walk_cost ct p')).
Proof.
  destruct (gsp_arrays t n data "bfs" ow Hu Hne Hc) as [E HL]. rewrite E. unfold search_part. cbn [String.eqb Ascii.eqb Bool.eqb].
  destruct (cbfs_spec f1 sq_acc n sd ow (seen_uniform t n data Hu) _ HL) as [[H1 H2]|(s' & js & p & H1 & H2 & H3 & H4 & H5 & H6 & H7)].
  - left. rewrite H1. auto.
  - right. exists js, p. rewrite H1. cbn [bind]. split; [|auto].
    rewrite (search_finish n sd s' js p seen_not_nil H3 H4); [rewrite H5; reflexivity|].
    clear -H1. unfold run_bfs in H1.
    destruct (multi_source_bfs _ _ _) as [a| |]; cbn [bind] in H1; try discriminate.
    destruct (get_path_nodes true a) as [l| |]; cbn [bind] in H1; try discriminate.
    destruct (path_cost _ _ a l); cbn [bind] in H1; try discriminate. injection H1 as <-. reflexivity.
Qed.

Lemma run_dij_found (g g' : cgraph K F) : run_dijkstra sq_acc pq g = Ok g' -> path_found g' = true.
Proof.
  intros H1. unfold run_dijkstra in H1.
  destruct (multi_source_dijkstra _ _ _ _ _ _) as [[a k]| |]; cbn [bind] in H1; try discriminate.
  destruct (get_path_nodes true a) as [l| |]; cbn [bind] in H1; try discriminate.
  destruct (path_cost _ _ a l); cbn [bind] in H1; try discriminate. injection H1 as <-. reflexivity.
Qed.

Lemma gsp_dij_spec : pq_ok pq -> (forall js p, picks sd js p -> clt (walk_cost ct p) cinf = true) ->
  exists js p, gsp_ (arrays t n data) "dijkstra" ow = Ok (GspOk p (walk_cost ct p)) /\ picks sd js p.
Proof.
  intros Hpq Hfin.
  destruct (gsp_arrays t n data "dijkstra" ow Hu Hne Hc) as [E HL]. rewrite E. unfold search_part. cbn [String.eqb Ascii.eqb Bool.eqb].
  destruct (cdij_spec f1 sq_acc n sd ow (seen_uniform t n data Hu) seen_not_nil (seen_ne t data Hc) Hfin pq Hpq _ HL)
    as (s' & js & p & H1 & H2 & H3 & H4).
  exists js, p. rewrite H1. cbn [bind]. split; auto.
  rewrite (search_finish n sd s' js p seen_not_nil H2 H3); [rewrite H4; reflexivity|]. eapply run_dij_found; eauto.
Qed.

Lemma gsp_unknown method : method <> "bfs"%string -> method <> "dijkstra"%string ->
  gsp_ (arrays t n data) method ow = Raise NotImplementedError.
Proof.
  intros H1 H2. destruct (gsp_arrays t n data method ow Hu Hne Hc) as [E _]. rewrite E. unfold search_part.
  apply String.eqb_neq in H1, H2. rewrite H1, H2. reflexivity.
Qed.
End A.

(** ** empty entries *)
Lemma add_columns_empty : forall Q (g : cgraph K F), Forall wf_entry Q -> Exists (fun e => qlen (F:=F) e = 0) Q -> add_columns Q g = Ok None.
Proof.
  induction Q as [|e Q IH]; intros g Hw He; [inversion He|]. cbn [add_columns].
  destruct (Nat.eqb_spec (qlen e) 0) as [|Hn]; auto.
  inversion Hw; subst. inversion He; subst; [congruence|]. destruct e as [[|] nc rows|]; simpl in H1; try tauto.
  rewrite add_rows_ok by auto. cbn [bind]. apply IH; auto.
Qed.
Lemma gsp_empty nc rows Q method ow : Forall wf_entry (QArr F32 nc rows :: Q) -> Exists (fun e => qlen e = 0) (QArr F32 nc rows :: Q) ->
  gsp_ (QArr F32 nc rows :: Q) method ow = Ok GspFail.
Proof.
  intros Hw He. unfold get_shortest_path. cbn [check_dtype bind]. rewrite add_columns_empty by auto. reflexivity.
Qed.
Lemma gsp_first_empty Q method ow : gsp_ (QNil :: Q) method ow = Raise AttributeError.
Proof. reflexivity. Qed.
Lemma gsp_f64_empty nc rows Q method ow : In QNil Q -> gsp_ (QArr F64 nc rows :: Q) method ow = Raise AttributeError.
Proof.
  intros Hin. unfold get_shortest_path. cbn [check_dtype]. cbn [mapM astype32 bind].
  assert (H : mapM (astype32 to32) Q = Raise AttributeError).
  { induction Q as [|e Q IH]; [destruct Hin|]. cbn [mapM]. destruct Hin as [->|Hin]; [reflexivity|].
    destruct e as [[|] a b|]; cbn [astype32 bind]; auto; rewrite IH by auto; reflexivity. }
  rewrite H. reflexivity.
Qed.

(** ** every returned row is a row of its column, for any queue and any Q *)
Lemma get_path_length m (g : cgraph K F) p : get_path m g = Ok (Some p) -> length p = m.
Proof.
  unfold get_path. destruct (path_found g).
  - destruct (get_path_nodes true (na g)) as [l| |]; cbn [bind]; try discriminate.
    destruct (Nat.eqb_spec m (length l)); [|discriminate].
    destruct (mapM (pt_index (na g)) l) as [idx| |] eqn:E; cbn [bind]; try discriminate. intros H. injection H as <-.
    apply mapM_Ok_length in E. rewrite map_length. congruence.
  - intros H. injection H as <-. apply repeat_length.
Qed.

Definition row_of (e : qent F) (q : list F) : Prop := match e with QArr _ _ rows => In q rows | QNil => False end.

Lemma gsp_rows Q method ow path c : gsp_ Q method ow = Ok (GspOk path c) ->
  exists Q', check_dtype to32 Q = Ok Q' /\ Forall2 row_of Q' path.
Proof.
  unfold get_shortest_path. destruct (check_dtype to32 Q) as [Q'| |]; cbn [bind]; try discriminate.
  intros H. exists Q'. split; auto.
  destruct (add_columns Q' _) as [[g|]| |]; cbn [bind] in H; try discriminate.
  destruct (init f1 g) as [g1| |]; cbn [bind] in H; try discriminate.
  match type of H with bind ?x _ = _ => destruct x as [g2| |]; cbn [bind] in H; try discriminate end.
  destruct (get_path_nodes _ _); cbn [bind] in H; try discriminate.
  destruct (get_path _ g2) as [[p_i|]| |] eqn:Ep; cbn [bind] in H; try discriminate.
  destruct (py_index p_i 0); cbn [bind] in H; try discriminate. destruct (Z.eqb a0 (-1)); try discriminate.
  destruct (mapM pick_row (combine Q' p_i)) as [l| |] eqn:Em; cbn [bind] in H; try discriminate. injection H as -> _.
  apply get_path_length in Ep. apply mapM_Ok_Forall2 in Em. clear -Ep Em.
  revert p_i path Ep Em. induction Q' as [|e Q IH]; intros [|i p_i] path Ep Em; simpl in Ep; try discriminate; inversion Em; subst; constructor.
  - destruct e as [tt nc rows|]; cbn [pick_row row_of] in *; [|discriminate].
    unfold py_index_z in H1. destruct (i <? 0)%Z; [destruct (_ <? 0)%Z; [discriminate|]|]; apply py_index_Ok in H1; eapply nth_error_In; eauto.
  - eapply IH; eauto.
Qed.
End G.
