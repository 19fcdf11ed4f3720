(** * Programs of calls on the graph answer alike with addresses and with positions. *)
From Coq Require Import List Arith ZArith Lia Bool.
From Verif Require Import PyBase Cost SpecPath GraphCommon GraphProofs GraphWalks CppGraph CppGraphProofs CppSearch CppMain CppFinal CppMem CppMemProofs.
Import ListNotations.

Section Runs.
Context {K : CostStruct} {F : Type}.
Context (f1 : F) (sq_acc : K -> F -> F -> F -> K).
Local Notation jv := (list F).

(** ** Building the node array *)
Lemma F2_impl {A B} (P Q : A -> B -> Prop) l l' : Forall2 P l l' -> (forall a b, P a b -> Q a b) -> Forall2 Q l l'.
Proof. induction 1; constructor; auto. Qed.
Lemma Rpar_cols md cols cols' p p' : md <> Linked -> Rpar md cols p p' -> Rpar md cols' p p'.
Proof. destruct md; cbn; auto. congruence. Qed.
Lemma Rnode_cols md cols cols' (rows : list (list jv)) (n : node K jv) m : md <> Linked -> Rnode md cols rows n m -> Rnode md cols' rows n m.
Proof. intros H (N1 & N2 & N3 & N4 & N5 & N6). repeat split; auto. eapply Rpar_cols; eauto. Qed.
Lemma F2_of {A B} (P : A -> B -> Prop) : forall l l', length l = length l' -> (forall k a b, nth_error l k = Some a -> nth_error l' k = Some b -> P a b) -> Forall2 P l l'.
Proof. induction l as [|a l IH]; intros [|b l'] L H; cbn in L; try discriminate; constructor; [apply (H 0); reflexivity|apply IH; [lia|]]. intros k. apply (H (S k)). Qed.
Lemma Rarr_lt md (rows : list (list jv)) cols (a : narr K jv) h b : Rarr md rows cols a h -> In b cols -> b < length h.
Proof. intros H I. destruct (In_nth_error _ _ I) as (i & E). destruct (Rarr_col _ _ _ _ _ _ _ H E) as (c & m & _ & E' & _). apply nth_error_Some. congruence. Qed.
Lemma NoDup_upd (l : list nat) : forall i x, NoDup l -> ~ In x l -> NoDup (upd l i x).
Proof.
  induction l as [|a l IH]; intros [|i] x N I; cbn [upd]; auto; inversion N as [|? ? N1 N2]; subst; constructor; auto; [intros X; apply I; right; auto| |apply IH; auto; intros X; apply I; right; auto].
  intros X. destruct (In_nth_error _ _ X) as (k & E). destruct (Nat.eq_dec i k) as [->|D]; [rewrite nth_error_upd in E; destruct (Nat.eq_dec k k); [|congruence]; destruct (lt_dec k (length l)); [|discriminate]; injection E as <-; apply I; left; auto|].
  rewrite nth_error_upd_other in E by auto. apply N1. eapply nth_error_In; eauto.
Qed.
Lemma nth_error_old {A} (l : list A) x b : b < length l -> nth_error (l ++ x) b = nth_error l b.
Proof. apply nth_error_app1. Qed.
Lemma vpush_rel md (rows : list (list jv)) (na : list (nat * nat)) (a : narr K jv) h i v n m : md <> Linked -> Rarr md rows (map fst na) a h -> nth_error na i = Some v -> Rnode md [] rows n m ->
  Rarr md rows (map fst (upd na i (snd (vpush h v m)))) (upd a i (nth i a [] ++ [n])) (fst (vpush h v m)).
Proof.
  intros Hm H E Hn. assert (Ec : nth_error (map fst na) i = Some (fst v)) by (rewrite nth_error_map, E; reflexivity). destruct (Rarr_col _ _ _ _ _ _ _ H Ec) as (col & mcol & Ea & Eh & Hc). unfold vpush. rewrite (nth_some _ _ _ _ Ea), (nth_some _ _ _ _ Eh).
  assert (Hc' : forall cols, Forall2 (Rnode md cols rows) (col ++ [n]) (mcol ++ [m])). { intros cols. apply Forall2_app; [|constructor; [|constructor]; eapply Rnode_cols; eauto]. clear - Hc Hm. induction Hc; constructor; auto. eapply Rnode_cols; eauto. }
  destruct (Nat.ltb _ _); cbn [fst snd].
  - rewrite upd_map, (upd_id _ _ _ Ec). eapply Rarr_set; eauto.
  - rewrite upd_map. cbn [fst]. assert (Lb : fst v < length h) by (apply nth_error_Some; congruence). assert (New : ~ In (length h) (map fst na)) by (intros I; apply (Rarr_lt _ _ _ _ _ _ H) in I; lia). pose proof (Rarr_len _ _ _ _ _ H) as L. split; [apply NoDup_upd; [apply H|exact New]|].
    apply F2_of; [rewrite !upd_length; auto|]. intros k c b Ek Eb. destruct (Nat.eq_dec i k) as [<-|D].
    + rewrite nth_error_upd_same in Ek by (apply nth_error_Some; congruence). rewrite nth_error_upd_same in Eb by (apply nth_error_Some; congruence). injection Ek as <-. injection Eb as <-. exists (mcol ++ [m]). split; auto. rewrite nth_error_app2 by (rewrite upd_length; auto). rewrite upd_length, Nat.sub_diag. reflexivity.
    + rewrite nth_error_upd_other in Ek by auto. rewrite nth_error_upd_other in Eb by auto. destruct (F2_nth _ _ _ (proj2 H) _ _ Ek) as (b' & E' & mc & Em & Hmc). rewrite E' in Eb. injection Eb as ->. exists mc. split.
      * rewrite nth_error_app1 by (rewrite upd_length; apply nth_error_Some; congruence). rewrite nth_error_upd_other; auto. eapply cols_other; eauto. apply H.
      * clear - Hmc Hm. induction Hmc; constructor; auto. eapply Rnode_cols; eauto.
Qed.
Lemma upd_out {A} (l : list A) : forall i x, length l <= i -> upd l i x = l.
Proof. induction l as [|a l IH]; intros [|i] x L; cbn in *; auto; [lia|f_equal; apply IH; lia]. Qed.
Lemma fill_rel md (rows : list (list jv)) i gb : md <> Linked -> forall col j na (a : narr K jv) h, Rarr md rows (map fst na) a h -> i < length na -> (forall k x, nth_error col k = Some x -> jderef rows (gb, j + k) = Ok x) ->
  forall v, nth_error na i = Some v -> let r := m_fill i gb j (length col) h v in Rarr md rows (map fst (upd na i (snd r))) (upd a i (nth i a [] ++ cmk_col i j col)) (fst r).
Proof.
  intros Hm. induction col as [|x col IH]; intros j na a h H L J v E; cbn [length m_fill cmk_col]; cbv zeta.
  - cbn [fst snd]. rewrite (upd_id _ _ _ E), app_nil_r. pose proof (Rarr_len _ _ _ _ _ H) as La. rewrite map_length in La. rewrite upd_id; [exact H|]. rewrite (nth_error_nth' a []) by lia. reflexivity.
  - pose proof (vpush_rel md rows na a h i v (mkNode i j x cinf PDummy false) (mkNode i j (gb, j) cinf PDummy false) Hm H E) as V. pose proof (Rarr_len _ _ _ _ _ H) as La. rewrite map_length in La.
    destruct (vpush h v (mkNode i j (gb, j) cinf PDummy false)) as [h' v'] eqn:Ev. cbn [fst snd] in V.
    assert (V' : Rarr md rows (map fst (upd na i v')) (upd a i (nth i a [] ++ [mkNode i j x cinf PDummy false])) h').
    { apply V. repeat split; cbn; auto; [rewrite <- (J 0 x eq_refl), Nat.add_0_r; reflexivity|destruct md; cbn; auto; congruence]. }
    specialize (IH (S j) _ _ _ V' ltac:(rewrite upd_length; exact L)). specialize (IH ltac:(intros k y Ek; rewrite <- (J (S k) y Ek); f_equal; f_equal; lia) v'). rewrite nth_error_upd_same in IH by auto. specialize (IH eq_refl). cbv zeta in IH. rewrite !upd_upd in IH.
    rewrite nth_upd in IH by lia. rewrite Nat.eqb_refl, <- app_assoc in IH. exact IH.
Qed.
Lemma grow_rel md (rows : list (list jv)) (na : list (nat * nat)) (a : narr K jv) h : Rarr md rows (map fst na) a h -> md <> Linked -> Rarr md rows (map fst (na ++ [(length h, 0)])) (a ++ [[]]) (h ++ [[]]).
Proof.
  intros H Hm. rewrite map_app. cbn [map fst]. assert (New : ~ In (length h) (map fst na)) by (intros I; apply (Rarr_lt _ _ _ _ _ _ H) in I; lia). split.
  - rewrite <- (rev_involutive (map fst na ++ [length h])), rev_app_distr. apply NoDup_rev. cbn. constructor; [rewrite <- in_rev; auto|apply NoDup_rev, H].
  - apply Forall2_app; [|constructor; [|constructor]; exists []; split; [|constructor]; rewrite nth_error_app2, Nat.sub_diag by auto; reflexivity].
    eapply F2_impl; [exact (proj2 H)|]. intros col b (mc & Em & Hc). exists mc. split; [rewrite nth_error_app1; auto; apply nth_error_Some; congruence|]. eapply F2_impl; [exact Hc|]. intros. eapply Rnode_cols; eauto.
Qed.
Lemma array_rel md (rows : list (list jv)) : md <> Linked -> forall data gds, Forall2 (fun col b => nth_error rows b = Some col) data gds -> forall i na (a : narr K jv) h, i <= length na -> Rarr md rows (map fst na) a h ->
  let r := m_to_node_array rows i gds h na in Rarr md rows (map fst (snd r)) (to_node_array i data a) (fst r).
Proof.
  intros Hm. induction 1 as [|col b data gds E _ IH]; intros i na a h L H; cbn [m_to_node_array to_node_array]; cbv zeta; [exact H|].
  pose proof (grow_rel _ _ _ _ _ H Hm) as G. rewrite (nth_some _ _ _ _ E). set (na1 := na ++ [(length h, 0)]) in *. assert (L1 : i < length na1) by (unfold na1; rewrite app_length; cbn; lia).
  pose proof (fill_rel md rows i b Hm col 0 na1 _ _ G L1) as P. specialize (P ltac:(intros k x Ek; unfold jderef; cbn [fst snd]; rewrite E, Nat.add_0_l, Ek; reflexivity) (nth i na1 (0, 0)) ltac:(apply nth_error_nth'; exact L1)). cbv zeta in P.
  destruct (m_fill i b 0 (length col) (h ++ [[]]) (nth i na1 (0, 0))) as [h2 v]. cbn [fst snd] in P. apply IH; [rewrite upd_length; lia|exact P].
Qed.
(** ** Reset *)
Lemma clear_rel md (rows : list (list jv)) : forall (na : list (nat * nat)) (a : narr K jv) h cols, NoDup (map fst na) -> Forall2 (fun col b => exists mcol, nth_error h b = Some mcol /\ Forall2 (Rnode md cols rows) col mcol) a (map fst na) ->
  Forall2 (fun col b => exists mcol, nth_error (m_clear h na) b = Some mcol /\ Forall2 (Rnode Clean cols rows) col mcol) (map (map creset_node) a) (map fst na) /\
  forall b, ~ In b (map fst na) -> nth_error (m_clear h na) b = nth_error h b.
Proof.
  induction na as [|v na IH]; intros a h cols N H; cbn [map] in *; inversion H as [|col b a' ? (mcol & Em & Hc) H']; subst; [split; [constructor|auto]|]. inversion N as [|? ? N1 N2]; subst. unfold m_clear. cbn [fold_left]. fold (m_clear (K := K) (upd h (fst v) (map (fun n => mkNode (n_pi n) (n_si n) (n_data n) cinf PDummy false) (nth (fst v) h []))) na).
  rewrite (nth_some _ _ _ _ Em). set (h1 := upd h (fst v) _). assert (Lb : fst v < length h) by (apply nth_error_Some; congruence). destruct (IH a' h1 cols N2) as [I1 I2].
  { assert (D : Forall (fun b => b <> fst v) (map fst na)) by (apply Forall_forall; intros b Ib ->; auto). clear - H' D. revert D H'. generalize (map fst na) as l. intros l D H'. induction H' as [|c b a0 l0 (mc & E & Q) _ IH]; constructor; inversion D; subst; auto. exists mc. split; auto. unfold h1. rewrite nth_error_upd_other; auto. }
  split.
  - constructor; auto. eexists. split; [rewrite I2 by auto; unfold h1; apply nth_error_upd_same; auto|]. clear - Hc. induction Hc as [|n m col mcol (H1 & H2 & H3 & _) _ IH]; cbn [map]; constructor; auto. repeat split; auto.
  - intros b Nb. rewrite I2 by (intros X; apply Nb; right; auto). unfold h1. rewrite nth_error_upd_other; auto. intros Eb. apply Nb. left; auto.
Qed.
Lemma reset_rel md (rows : list (list jv)) (na : list (nat * nat)) (a : narr K jv) h : Rarr md rows (map fst na) a h -> Rarr Clean rows (map fst na) (map (map creset_node) a) (m_clear h na).
Proof. intros [N H]. split; auto. apply (clear_rel md rows na a h (map fst na) N H). Qed.

(** ** States *)
Record Rgraph (md : mode) (s : cgraph K F) (m : mgraph K F) : Prop := {
  rg_gd : Forall2 (fun col b => nth_error (m_rows m) b = Some col) (gd s) (m_gd m);
  rg_na : Rarr md (m_rows m) (map fst (m_na m)) (na s) (m_heap m);
  rg_found : m_found m = path_found s; rg_cost : m_cost m = shortest_path_cost s; rg_goals : m_goals m = num_goals s; rg_max : m_max m = max_path_index s; rg_w : m_w m = weights s;
  rg_stale : md = Stale -> na s <> [] /\ nth (length (na s) - 1) (na s) [] = [] /\ path_found s = false }.
Lemma Rarr_weak (rows : list (list jv)) cols (a : narr K jv) h : Rarr Clean rows cols a h -> Rarr Linked rows cols a h.
Proof.
  intros [N H]. split; auto. eapply F2_impl; [exact H|]. intros col b (mc & E & Hc). exists mc. split; auto. eapply F2_impl; [exact Hc|]. intros n m (H1 & H2 & H3 & H4 & [P1 P2] & H6). repeat split; auto. cbn. rewrite P1, P2. exact I.
Qed.
Lemma linked md (rows : list (list jv)) cols (a : narr K jv) h : md <> Stale -> Rarr md rows cols a h -> Rarr Linked rows cols a h.
Proof. destruct md; intros; auto using Rarr_weak; congruence. Qed.
Lemma new_rel : Rgraph Clean cnew (mnew (K := K) (F := F)).
Proof. split; cbn; auto; try discriminate. split; constructor. Qed.
Lemma block_rel md (rows : list (list jv)) (na : list (nat * nat)) (a : narr K jv) h i : Rarr md rows (map fst na) a h -> i < length na -> block_len h (nth i na (0, 0)) = length (nth i a []).
Proof.
  intros H L. assert (E : nth_error (map fst na) i = Some (fst (nth i na (0, 0)))) by (rewrite nth_error_map, (nth_error_nth' na (0, 0)) by auto; reflexivity). destruct (Rarr_col _ _ _ _ _ _ _ H E) as (c & mc & Ea & Eh & Hc). unfold block_len. rewrite (nth_some _ _ _ _ Eh), (nth_some _ _ _ _ Ea). apply (F2_len _ _ _ Hc).
Qed.
Lemma add_rel md s m mat r n : Rgraph md s m -> rr (fun s m => Rgraph md s m) (add_data_column mat r n s) (m_add mat r n m).
Proof.
  intros [R1 R2 R3 R4 R5 R6 R7 R8]. unfold add_data_column, m_add. destruct (mapM _ _) as [c| |]; cbn; auto. split; cbn; auto.
  - apply Forall2_app; [|constructor; [|constructor]; rewrite nth_error_app2, Nat.sub_diag by auto; reflexivity]. clear - R1. induction R1; constructor; auto. rewrite nth_error_app1; auto. apply nth_error_Some. congruence.
  - destruct R2 as [N H]. split; auto. eapply F2_impl; [exact H|]. intros col b (mc & E1 & Hc). exists mc. split; auto. eapply F2_impl; [exact Hc|]. intros x y (H1 & H2 & H3 & H4 & H5 & H6). repeat split; auto.
    unfold jderef in *. destruct (nth_error (m_rows m) (fst (n_data y))) as [l|] eqn:E; [|discriminate]. rewrite nth_error_app1 by (apply nth_error_Some; congruence). rewrite E. exact H3.
Qed.
(** what a call does to the mode *)
Definition after (md : mode) (c : call F) : mode :=
  match c, md with CInit, Clean => Clean | CInit, _ => Stale | CReset, _ => Clean | CBfs, _ | CDijkstra, _ => Linked | _, _ => md end.
Lemma stale_last (data : list (list jv)) (a : narr K jv) : a <> [] -> to_node_array 0 data a <> [] /\ (data <> [] -> nth (length (to_node_array 0 data a) - 1) (to_node_array 0 data a) [] = []).
Proof.
  intros N. assert (L := to_na_length (K := K) data 0 a). assert (La : 0 < length a) by (destruct a; [congruence|cbn; lia]). split; [intros Z; rewrite Z in L; cbn in L; lia|]. intros Nd. assert (Ld : 0 < length data) by (destruct data; [congruence|cbn; lia]).
  rewrite (to_na_nth data 0 a ltac:(lia)), L. rewrite nth_overflow by lia. cbn [app]. destruct (Nat.ltb_spec (length a + length data - 1) (0 + length data)); [lia|]. rewrite andb_false_r. reflexivity.
Qed.
Lemma Rarr_stale md (rows : list (list jv)) cols (a : narr K jv) h : Rarr md rows cols a h -> Rarr Stale rows cols a h.
Proof.
  intros [N H]. split; auto. eapply F2_impl; [exact H|]. intros col b (mc & E & Hc). exists mc. split; auto. eapply F2_impl; [exact Hc|]. intros n m (H1 & H2 & H3 & H4 & _ & H6). repeat split; auto.
Qed.

Lemma init_rel md s m : Rgraph md s m -> (md = Linked -> na s <> []) -> rr (fun s m => Rgraph (after md CInit) s m) (init f1 s) (m_init f1 m).
Proof.
  intros [R1 R2 R3 R4 R5 R6 R7 R8] Hl. set (md' := after md CInit). assert (Hmd : md' <> Linked) by (unfold md'; destruct md; cbn; discriminate).
  assert (R2' : Rarr md' (m_rows m) (map fst (m_na m)) (na s) (m_heap m)) by (unfold md'; destruct md; cbn; auto; eapply Rarr_stale; eauto).
  pose proof (array_rel md' (m_rows m) Hmd (gd s) (m_gd m) R1 0 (m_na m) (na s) (m_heap m) ltac:(lia) R2') as H. cbv zeta in H. unfold init, m_init. destruct (m_to_node_array (m_rows m) 0 (m_gd m) (m_heap m) (m_na m)) as [h a] eqn:Ea. cbn [fst snd] in H.
  pose proof (Rarr_len _ _ _ _ _ H) as L. rewrite map_length in L. destruct (to_node_array 0 (gd s) (na s)) as [|c0 a0] eqn:Et; destruct a as [|v a]; cbn in L; try discriminate; [reflexivity|].
  inversion R1 as [|col gb gds gds' E1 E2 Eg Em]; [reflexivity|]. rewrite (nth_some _ _ _ _ E1). destruct col as [|row col]; [reflexivity|]. cbn [rr]. set (i := length (c0 :: a0) - 1). replace (length (v :: a) - 1) with i by (unfold i; cbn; lia).
  split; cbn [gd na path_found shortest_path_cost num_goals max_path_index weights m_rows m_gd m_heap m_na m_found m_cost m_goals m_max m_w]; auto.
  - eapply block_rel; eauto. unfold i. cbn in *. lia.
  - rewrite R7. reflexivity.
  - intros Es. split; [discriminate|]. split; auto. assert (Na : na s <> []). { unfold md' in Es. destruct md; cbn in Es; [discriminate|apply Hl; auto|apply R8; auto]. }
    destruct (stale_last (gd s) (na s) Na) as [_ W]. rewrite Et in W. apply W. rewrite <- Eg. discriminate.
Qed.
Lemma creset_rel md s m : Rgraph md s m -> rr (fun s m => Rgraph Clean s m) (creset s) (m_reset m).
Proof.
  intros [R1 R2 R3 R4 R5 R6 R7 R8]. unfold creset, m_reset. pose proof (reset_rel _ _ _ _ _ R2) as H. pose proof (Rarr_len _ _ _ _ _ H) as L. rewrite !map_length in L. rewrite map_length. destruct (m_na m) as [|v a] eqn:Ea; destruct (na s) as [|c0 a0] eqn:Es; cbn in L; try discriminate; [reflexivity|]. cbn [map rr].
  replace (length (v :: a) - 1) with (length (c0 :: a0) - 1) by (cbn; lia). split; cbn [gd na path_found shortest_path_cost num_goals max_path_index weights m_rows m_gd m_heap m_na m_found m_cost m_goals m_max m_w]; auto; [|discriminate].
  rewrite (block_rel _ _ _ _ _ _ H) by (cbn in *; lia). reflexivity.
Qed.
Lemma mode_na md s m : Rgraph md s m -> md <> Stale -> md = Clean \/ md = Linked.
Proof. destruct md; auto. congruence. Qed.
(** a search on related graphs *)
Lemma finish_rel s m a h g : Rgraph Linked s m -> Rarr Linked (m_rows m) (map fst (m_na m)) a h ->
  rr (fun s m => Rgraph Linked s m)
    (path <- get_path_nodes true a ;; c <- path_cost sq_acc (weights s) a path ;; Ok (mkCG (gd s) a true c g (max_path_index s) (weights s)))
    (path <- m_path_nodes true h (m_na m) ;; c <- m_path_cost sq_acc (m_rows m) (m_w m) h path ;; Ok (mkMG (m_rows m) (m_gd m) h (m_na m) true c g (m_max m) (m_w m))).
Proof.
  intros [R1 R2 R3 R4 R5 R6 R7 R8] H. eapply rr_bind; [eapply path_rel; eauto|]. intros p p' Hp. rewrite R7, (cost_rel sq_acc _ _ _ _ _ _ _ H Hp). destruct (m_path_cost _ _ _ _ _); cbn; auto. split; cbn; auto. discriminate.
Qed.
Lemma weak_graph md s m : Rgraph md s m -> md <> Stale -> Rgraph Linked s m.
Proof. intros [R1 R2 R3 R4 R5 R6 R7 R8] H. split; auto; [eapply linked; eauto|discriminate]. Qed.
Lemma shape_last (a a' : narr K jv) : shape_of a' = shape_of a -> a <> [] -> nth (length a - 1) a [] = [] -> a' <> [] /\ nth (length a' - 1) a' [] = [].
Proof.
  intros E N Z. assert (L : length a' = length a) by (apply (f_equal (@length _)) in E; unfold shape_of in E; rewrite !map_length in E; exact E). split; [intros ->; destruct a; cbn in *; [congruence|lia]|].
  assert (Q : nth (length a - 1) (shape_of a') 0 = 0) by (rewrite E; unfold shape_of; change 0 with (length (@nil (node K jv))) at 2; rewrite map_nth, Z; reflexivity). unfold shape_of in Q. change 0 with (length (@nil (node K jv))) in Q at 2. rewrite map_nth, <- L in Q. destruct (nth _ a' []); [reflexivity|discriminate].
Qed.
Lemma bfs_call md s m : Rgraph md s m -> rr (fun s m => Rgraph Linked s m) (run_bfs sq_acc s) (m_run_bfs sq_acc m).
Proof.
  intros R. unfold run_bfs, m_run_bfs. destruct md.
  1, 2: (apply weak_graph in R; [|discriminate]; destruct R as [R1 R2 R3 R4 R5 R6 R7 R8] eqn:RR; clear RR; eapply rr_bind; [rewrite R7; eapply (search_bfs sq_acc Linked); eauto; discriminate|]; intros a h [Ha _]; rewrite R5; apply finish_rel; [constructor|]; auto).
  destruct R as [R1 R2 R3 R4 R5 R6 R7 R8]. destruct (R8 eq_refl) as (N & Z & _). rewrite R7. assert (S := search_bfs sq_acc Stale (m_rows m) _ (weights s) _ _ (m_na m) ltac:(discriminate) R2 eq_refl). destruct (multi_source_bfs _ _ _) as [a| |]; destruct (m_bfs _ _ _ _ _) as [h| |]; cbn in S; try contradiction; cbn [bind rr]; auto.
  destruct S as [Sa Ss]. destruct (shape_last _ _ Ss N Z) as [N' Z']. destruct (no_goal _ _ _ _ _ _ Sa eq_refl N' Z') as [-> ->]. reflexivity.
Qed.
Lemma dij_call md s m : Rgraph md s m -> rr (fun s m => Rgraph Linked s m) (run_dijkstra sq_acc stl_queue s) (m_run_dijkstra sq_acc m).
Proof.
  intros R. unfold run_dijkstra, m_run_dijkstra. destruct md.
  1, 2: (apply weak_graph in R; [|discriminate]; destruct R as [R1 R2 R3 R4 R5 R6 R7 R8] eqn:RR; clear RR; eapply rr_bind; [rewrite R7, R6, R5; eapply (search_dij sq_acc Linked); eauto; discriminate|]; intros [a g] [h g'] (Ha & _ & Hg); cbn [fst snd] in *; subst g'; apply finish_rel; [constructor|]; auto).
  destruct R as [R1 R2 R3 R4 R5 R6 R7 R8]. destruct (R8 eq_refl) as (N & Z & _). rewrite R7, R6, R5. assert (S := search_dij sq_acc Stale (m_rows m) _ (weights s) (max_path_index s) (num_goals s) _ _ (m_na m) ltac:(discriminate) R2 eq_refl). destruct (multi_source_dijkstra _ _ _ _ _ _) as [[a g]| |]; destruct (m_dijkstra _ _ _ _ _ _ _) as [[h g']| |]; cbn in S; try contradiction; cbn [bind rr]; auto.
  destruct S as (Sa & Ss & _). cbn [fst snd] in *. destruct (shape_last _ _ Ss N Z) as [N' Z']. destruct (no_goal _ _ _ _ _ _ Sa eq_refl N' Z') as [-> ->]. reflexivity.
Qed.
Lemma get_call md s m n : Rgraph md s m -> get_path n s = m_get_path n m.
Proof.
  intros R. unfold get_path, m_get_path. rewrite (rg_found _ _ _ R). destruct (path_found s) eqn:Ef; auto. assert (md <> Stale) by (intros E; destruct (rg_stale _ _ _ R E) as (_ & _ & E'); congruence). apply weak_graph in R; auto. destruct R as [R1 R2 R3 R4 R5 R6 R7 R8].
  pose proof (path_rel _ _ _ _ (m_na m) true R2 eq_refl) as P. destruct (get_path_nodes true (na s)) as [p| |]; destruct (m_path_nodes true (m_heap m) (m_na m)) as [p'| |]; cbn in P; try contradiction; cbn [bind]; auto; [|congruence]. rewrite (F2_len _ _ _ P). destruct (Nat.eqb _ _); auto.
  assert (E : mapM (pt_index (na s)) p = mapM (m_pt_index (m_heap m)) p') by (clear - P R2; induction P as [|x y p p' Hx _ IH]; cbn [mapM]; auto; rewrite (index_rel _ _ _ _ _ _ R2 Hx), IH; reflexivity). rewrite E. reflexivity.
Qed.
Lemma print_node_rel (rows : list (list jv)) cols (a : narr K jv) h n m : Rarr Linked rows cols a h -> Rnode Linked cols rows n m -> rr eq (print_node a n) (m_print_node h m).
Proof.
  intros H (N1 & N2 & _ & N4 & P & _). unfold print_node, m_print_node. cbn in P. destruct (n_parent n), (n_parent m); cbn in P; try contradiction; try (cbn; congruence). eapply rr_bind; [eapply Rarr_deref; eauto|]. intros x y (Hx & Hy & _). cbn. congruence.
Qed.
Lemma Forall2_eq {A} (l l' : list A) : Forall2 eq l l' -> l = l'.
Proof. induction 1; congruence. Qed.
Lemma print_call md s m : Rgraph md s m -> md <> Stale -> print_graph s = m_print_graph m.
Proof.
  intros R H. apply weak_graph in R; auto. destruct R as [_ R2 _ _ _ _ _ _]. unfold print_graph, m_print_graph. apply rr_eq. eapply rr_impl; [|intros a b E; apply Forall2_eq; exact E].
  apply (rr_mapM (fun col v => Rcol Linked (map fst (m_na m)) (m_rows m) (m_heap m) col (fst v)) eq).
  - intros col v (mc & E & Hc). rewrite (nth_some _ _ _ _ E). eapply rr_impl; [|intros a b E'; apply Forall2_eq; exact E']. eapply rr_mapM; [|exact Hc]. intros. eapply print_node_rel; eauto.
  - destruct R2 as [_ R2]. revert R2. generalize (Rcol Linked (map fst (m_na m)) (m_rows m) (m_heap m)). intros Q. generalize (na s) as a. induction (m_na m) as [|v l IH]; intros a R2; inversion R2; subst; constructor; auto.
Qed.
Lemma print_path_call md s m : Rgraph md s m -> print_path s = m_print_path m.
Proof.
  intros R. unfold print_path, m_print_path. rewrite (rg_found _ _ _ R). destruct (path_found s) eqn:Ef; auto. assert (md <> Stale) by (intros E; destruct (rg_stale _ _ _ R E) as (_ & _ & E'); congruence). apply weak_graph in R; auto. destruct R as [R1 R2 R3 R4 R5 R6 R7 R8].
  apply rr_eq. eapply rr_bind; [eapply path_rel; eauto|]. intros p p' Hp. eapply rr_impl; [|intros a b E; apply Forall2_eq; exact E]. eapply rr_mapM; [|exact Hp]. intros x y Hx. destruct x, y; cbn in Hx; try contradiction; try (cbn; auto; fail). eapply rr_bind; [eapply Rarr_deref; eauto|]. intros. eapply print_node_rel; eauto.
Qed.

(** ** Programs *)
(** Linked and Stale graphs have columns *)
Definition Rany md s m : Prop := Rgraph md s m /\ (md = Linked -> na s <> []).
Lemma path_na (a : narr K jv) p : get_path_nodes true a = Ok p -> a <> [].
Proof. intros H ->. discriminate H. Qed.
Lemma found_na (s : cgraph K F) s' : run_bfs sq_acc s = Ok s' -> na s' <> [].
Proof.
  unfold run_bfs. intros H. destruct (multi_source_bfs _ _ _) as [a| |]; cbn [bind] in H; try discriminate. destruct (get_path_nodes true a) eqn:E; cbn [bind] in H; try discriminate. destruct (path_cost _ _ _ _); cbn [bind] in H; try discriminate. injection H as <-. cbn. eapply path_na; eauto.
Qed.
Lemma found_na2 (s : cgraph K F) s' : run_dijkstra sq_acc stl_queue s = Ok s' -> na s' <> [].
Proof.
  unfold run_dijkstra. intros H. destruct (multi_source_dijkstra _ _ _ _ _ _) as [[a g]| |]; cbn [bind] in H; try discriminate. destruct (get_path_nodes true a) eqn:E; cbn [bind] in H; try discriminate. destruct (path_cost _ _ _ _); cbn [bind] in H; try discriminate. injection H as <-. cbn. eapply path_na; eauto.
Qed.
Lemma rr_quiet {A B} (P : A -> B -> Prop) x y : rr P x y -> rr (fun s m => (P (fst s) (fst m) /\ x = Ok (fst s)) /\ snd s = snd m) (quiet (K := K) (F := F) x) (quiet y).
Proof. destruct x, y; cbn; auto. Qed.
Lemma call_rel md c s m : Rany md s m -> (md = Stale -> c <> CPrint) -> rr (fun x y => Rany (after md c) (fst x) (fst y) /\ snd x = snd y) (pos_call f1 sq_acc c s) (mem_call f1 sq_acc c m).
Proof.
  intros [R Na] Hc. destruct c; cbn [pos_call mem_call after].
  - eapply rr_impl; [apply rr_quiet, add_rel; exact R|]. intros x y [[H E] H']. split; auto. split; auto. intros E'. unfold add_data_column in E. destruct (mapM _ _); cbn in E; try discriminate. injection E as <-. cbn. apply Na; auto.
  - cbn. split; auto. split; [|exact Na]. destruct R as [R1 R2 R3 R4 R5 R6 R7 R8]. split; auto.
  - eapply rr_impl; [apply rr_quiet, (init_rel md); auto|]. intros x y [[H E] H']. split; auto. split; [exact H|]. destruct md; discriminate.
  - eapply rr_impl; [apply rr_quiet, (creset_rel md); exact R|]. intros x y [[H E] H']. split; auto. split; [exact H|discriminate].
  - eapply rr_impl; [apply rr_quiet, (bfs_call md); exact R|]. intros x y [[H E] H']. split; auto. split; [exact H|]. intros _. eapply found_na; eauto.
  - eapply rr_impl; [apply rr_quiet, (dij_call md); exact R|]. intros x y [[H E] H']. split; auto. split; [exact H|]. intros _. eapply found_na2; eauto.
  - rewrite (get_call md s m n R). destruct (m_get_path n m); cbn; auto. split; [split; auto|reflexivity].
  - cbn. rewrite (rg_cost _ _ _ R). split; [split; auto|reflexivity].
  - assert (H : md <> Stale) by (intros E; apply (Hc E); reflexivity). rewrite (print_call md s m R H). destruct (m_print_graph m); cbn; auto. split; [split; auto|reflexivity].
  - rewrite (print_path_call md s m R). destruct (m_print_path m); cbn; auto. split; [split; auto|reflexivity].
  - unfold m_print_data. rewrite (proj2 (mapM_Ok_Forall2 _ (m_gd m) (gd s))); [cbn; split; [split; auto|reflexivity]|]. pose proof (rg_gd _ _ _ R) as G. clear - G. induction G as [|c b l l' E _ IH]; constructor; auto. rewrite E. reflexivity.
Qed.
Fixpoint calm (md : mode) (cs : list (call F)) : Prop := match cs with [] => True | c :: cs' => (md = Stale -> c <> CPrint) /\ calm (after md c) cs' end.
Lemma answers_calm : forall cs md s m, Rany md s m -> calm md cs -> answers (mem_call f1 sq_acc) cs m = answers (pos_call f1 sq_acc) cs s.
Proof.
  induction cs as [|c cs IH]; intros md s m R C; cbn [answers]; auto. destruct C as [C1 C2]. pose proof (call_rel md c s m R C1) as H. destruct (pos_call f1 sq_acc c s) as [[s' o]| |]; destruct (mem_call f1 sq_acc c m) as [[m' o']| |]; cbn in H; try contradiction; auto; [|congruence]. destruct H as [H1 H2]. cbn [fst snd] in *. f_equal; [congruence|eapply IH; eauto].
Qed.
(** the searches, the paths and the costs of every program *)
Lemma answers_same cs : (forall c, In c cs -> c <> CPrint) -> answers (mem_call f1 sq_acc) cs mnew = answers (pos_call f1 sq_acc) cs cnew.
Proof.
  intros H. apply (answers_calm cs Clean); [split; [apply new_rel|discriminate]|]. generalize Clean as md. induction cs as [|c cs IH]; intros md; cbn [calm]; auto. split; [intros _; apply H; left; auto|]. apply IH. intros c' I. apply H. right. auto.
Qed.
(** init is called before the searches, or again only after a reset *)
Fixpoint in_order (searched : bool) (cs : list (call F)) : bool :=
  match cs with
  | [] => true
  | CInit :: cs' => negb searched && in_order false cs'
  | CReset :: cs' => in_order false cs'
  | (CBfs | CDijkstra) :: cs' => in_order true cs'
  | _ :: cs' => in_order searched cs'
  end.
Lemma order_calm : forall cs b md, in_order b cs = true -> md <> Stale -> (b = false -> md = Clean) -> calm md cs.
Proof.
  induction cs as [|c cs IH]; intros b md E N B; cbn [calm]; auto. split; [congruence|].
  destruct c; cbn [in_order after] in *; try (eapply IH; eauto; fail); try (eapply IH; [exact E|discriminate|auto; discriminate]).
  apply andb_true_iff in E. destruct E as [E1 E2]. destruct b; [discriminate|]. rewrite (B eq_refl). eapply IH; eauto. discriminate.
Qed.
Lemma answers_order cs : in_order false cs = true -> answers (mem_call f1 sq_acc) cs mnew = answers (pos_call f1 sq_acc) cs cnew.
Proof. intros H. apply (answers_calm cs Clean); [split; [apply new_rel|discriminate]|]. eapply order_calm; eauto. discriminate. Qed.

(** ** The calls of the planner *)
Lemma answers_adds n : forall data (s : cgraph K F) cs, uniform n data ->
  answers (pos_call f1 sq_acc) (map (fun rows => CAdd (concat rows) (length rows) n) data ++ cs) s =
  repeat (Ok ANone) (length data) ++ answers (pos_call f1 sq_acc) cs (mkCG (gd s ++ data) (na s) (path_found s) (shortest_path_cost s) (num_goals s) (max_path_index s) (weights s)).
Proof.
  induction data as [|rows data IH]; intros s cs U; cbn [map app length repeat].
  - rewrite app_nil_r. destruct s; reflexivity.
  - inversion U; subst. cbn [answers pos_call]. rewrite add_rows_ok by auto. cbn [quiet bind fst snd]. rewrite IH by auto. cbn [gd na path_found shortest_path_cost num_goals max_path_index weights]. rewrite <- app_assoc. reflexivity.
Qed.
Lemma answers_load n data ow (s : cgraph K F) cs : uniform n data -> load f1 n data ow = Ok s ->
  answers (pos_call f1 sq_acc) (load_calls n data ow ++ cs) cnew = repeat (Ok ANone) (length (load_calls n data ow)) ++ answers (pos_call f1 sq_acc) cs s.
Proof.
  intros U H. unfold load_calls. rewrite <- !app_assoc. unfold load in H. rewrite load_rows in H by auto. cbn [bind] in H. rewrite !app_length, map_length, !repeat_app, <- !app_assoc.
  destruct ow as [w|]; cbn [app answers pos_call length repeat]; [f_equal|]; rewrite answers_adds by auto; f_equal; cbn [answers pos_call app repeat]; unfold set_weights in *; cbn [app cnew gd na path_found shortest_path_cost num_goals max_path_index weights] in H |- *; rewrite H; reflexivity.
Qed.
Lemma load_no_print n (data : list (list jv)) ow c : In c (load_calls n data ow) -> c <> CPrint.
Proof. unfold load_calls. rewrite !in_app_iff, in_map_iff. intros [H|[(x & <- & _)|[<-|[]]]]; try discriminate. destruct ow; [destruct H as [<-|[]]; discriminate|destruct H]. Qed.
(** printing after a search *)
Lemma mapM_some {A B} (f : A -> res B) : forall l, (forall x, In x l -> exists y, f x = Ok y) -> exists l', mapM f l = Ok l'.
Proof. induction l as [|x l IH]; intros H; cbn [mapM]; eauto. destruct (H x) as (y & ->); [left; auto|]. destruct IH as (l' & ->); [intros; apply H; right; auto|]. cbn [bind]. eauto. Qed.
Definition linked_up (a : narr K jv) : Prop := forall i j v, lk a i j = Some v -> n_parent v = PDummy \/ exists i' j' u, n_parent v = PNode i' j' /\ lk a i' j' = Some u.
Lemma print_node_some (a : narr K jv) i j v : linked_up a -> lk a i j = Some v -> exists r, print_node a v = Ok r /\ fst (fst (fst r)) = (n_pi v, n_si v).
Proof. intros H E. unfold print_node. destruct (H _ _ _ E) as [-> | (i' & j' & u & -> & Eu)]; [eexists; split; reflexivity|]. rewrite deref_lk, Eu. cbn [bind]. eexists; split; reflexivity. Qed.
Lemma print_graph_some (s : cgraph K F) : linked_up (na s) -> exists g, print_graph s = Ok g.
Proof.
  intros H. unfold print_graph. apply mapM_some. intros col Ic. destruct (In_nth_error _ _ Ic) as (i & Ei). apply mapM_some. intros v Iv. destruct (In_nth_error _ _ Iv) as (j & Ej). destruct (print_node_some (na s) i j v H) as (r & E & _); eauto. unfold lk. rewrite Ei. exact Ej.
Qed.
Lemma print_path_some data (a : narr K jv) : linked_up a -> cshape data a -> forall js k, (forall i j, nth_error js i = Some j -> lk a (k + i) j <> None) ->
  exists l, mapM (fun p => match p with PNode i j => n <- deref a (i, j) ;; print_node a n | _ => Raise NullDeref end) (pn k js) = Ok l /\ map (fun r => fst (fst (fst r))) l = combine (seq k (length js)) js.
Proof.
  intros H S. induction js as [|j js IH]; intros k P; cbn [pn mapM length seq combine].
  - exists []. split; reflexivity.
  - rewrite deref_lk. specialize (P 0 j eq_refl) as P0. rewrite Nat.add_0_r in P0. destruct (lk a k j) as [v|] eqn:E; [|congruence]. cbn [bind]. destruct (print_node_some a k j v H E) as (r & -> & Er). cbn [bind]. destruct (IH (Datatypes.S k)) as (l & -> & El); [intros i j' Ei; replace (Datatypes.S k + i) with (k + Datatypes.S i) by lia; apply P; exact Ei|]. cbn [bind]. exists (r :: l). split; [reflexivity|]. cbn [map]. rewrite Er, El. destruct (cshape_si _ _ _ _ _ S E) as (-> & -> & _). reflexivity.
Qed.
Lemma tr_up (a : narr K jv) : forall i j js, tr 0 a i j js -> forall v, lk a i j = Some v -> n_parent v = PDummy \/ exists i' j' u, n_parent v = PNode i' j' /\ lk a i' j' = Some u.
Proof.
  intros i j js T. destruct T as [j n Hn Hp|i j j' n js Hn Hp T]; intros v E; rewrite Hn in E; injection E as <-; [left; auto|]. right. exists i, j. destruct T as [j1 n1 H1 _|i1 j1 j1' n1 js1 H1 _ _]; eauto.
Qed.
Lemma picks_lk data (a : narr K jv) : cshape data a -> forall js p, picks data js p -> forall i j, nth_error js i = Some j -> lk a (0 + i) j <> None.
Proof.
  intros (_ & _ & Hk) js p P i j E Z. specialize (Hk (0 + i) j). rewrite Z, lk_cfresh in Hk. cbn [Nat.add] in Hk. assert (X : datQ data i j <> None). { clear - P E. revert js p i P E. induction data as [|c data IH]; intros [|j0 js] [|x p] [|i] P E; cbn in P, E; try contradiction; try discriminate. - injection E as ->. unfold datQ. cbn. destruct P as [-> _]. discriminate. - apply (IH js p i (proj2 P) E). }
  destruct (datQ data i j); [discriminate|congruence].
Qed.
Lemma bfs_prints n data ow (s : cgraph K F) : uniform n data -> load f1 n data ow = Ok s -> (exists js p, picks data js p /\ clt (walk_cost (jcost sq_acc (eff_weights f1 n ow)) p) cinf = true) ->
  exists s' js p l g, run_bfs sq_acc s = Ok s' /\ picks data js p /\ get_path (length data) s' = Ok (Some (map Z.of_nat js)) /\ shortest_path_cost s' = walk_cost (jcost sq_acc (eff_weights f1 n ow)) p /\
    (forall js' p', picks data js' p' -> cle (walk_cost (jcost sq_acc (eff_weights f1 n ow)) p) (walk_cost (jcost sq_acc (eff_weights f1 n ow)) p')) /\
    print_path s' = Ok l /\ map (fun r => fst (fst (fst r))) l = combine (seq 0 (length js)) js /\ print_graph s' = Ok g.
Proof.
  intros U L (js0 & p0 & P0 & C0). destruct (load_inv f1 n data ow s U L) as [-> Hne].
  destruct (run_bfs_spec sq_acc n (eff_weights f1 n ow) data (eff_weights_length f1 n ow) U Hne (loaded f1 n data ow)) as [[H1 H2]|(a & js & p & H1 & H2 & H3 & H4 & H5 & H6 & H7)]; [reflexivity|apply cshape_fresh|apply fresh_untouched|exfalso; apply H2; exists js0, p0; auto|].
  assert (Up : linked_up a) by (intros i j v E; destruct (H3 i j v E) as (_ & _ & [[_ Q]|(_ & _ & js' & T & _)]); [left; auto|eapply tr_up; eauto]).
  destruct (print_path_some data a Up H2 js 0 (picks_lk data a H2 js p H5)) as (l & El & Ml). set (s' := mkCG _ a true _ _ _ _) in H1. destruct (print_graph_some s' Up) as (g & Eg).
  exists s', js, p, l, g. repeat split; auto.
  - eapply get_path_ok; eauto.
  - unfold print_path. cbn [s' path_found na]. rewrite H4. cbn [bind]. exact El.
Qed.
Lemma mem_plan n data ow (s : cgraph K F) : uniform n data -> load f1 n data ow = Ok s -> (exists js p, picks data js p /\ clt (walk_cost (jcost sq_acc (eff_weights f1 n ow)) p) cinf = true) ->
  exists js p l, picks data js p /\
    answers (mem_call f1 sq_acc) (plan_calls n data ow) mnew =
    repeat (Ok ANone) (S (length (load_calls n data ow))) ++ [Ok (APrint [l]); Ok (APath (Some (map Z.of_nat js))); Ok (ACost (walk_cost (jcost sq_acc (eff_weights f1 n ow)) p))] /\
    map (fun r => fst (fst (fst r))) l = combine (seq 0 (length js)) js /\
    forall js' p', picks data js' p' -> cle (walk_cost (jcost sq_acc (eff_weights f1 n ow)) p) (walk_cost (jcost sq_acc (eff_weights f1 n ow)) p').
Proof.
  intros U L X. destruct (bfs_prints n data ow s U L X) as (s' & js & p & l & g & H & P & G & C & M & El & Ml & _). exists js, p, l. split; auto. split; auto. unfold plan_calls.
  rewrite answers_same; [|intros c I; rewrite in_app_iff in I; destruct I as [I|I]; [eapply load_no_print; eauto|cbn in I; destruct I as [<-|[<-|[<-|[<-|[]]]]]; discriminate]].
  rewrite (answers_load n data ow s _ U L), <- (Nat.add_1_r (length _)), repeat_app, <- app_assoc. f_equal. cbn [answers pos_call]. rewrite H. cbn [quiet bind fst snd]. rewrite El. cbn [bind]. rewrite G. cbn [bind repeat app]. rewrite C. reflexivity.
Qed.
Lemma load_order n (data : list (list jv)) ow cs : in_order false cs = true -> in_order false (load_calls n data ow ++ cs) = true.
Proof.
  intros H. assert (X : forall d, in_order false (map (fun rows => CAdd (concat rows) (length rows) n) d ++ [CInit] ++ cs) = true) by (induction d as [|r d IH]; cbn; auto). unfold load_calls. rewrite <- !app_assoc. destruct ow; cbn [app in_order]; apply X.
Qed.
(** the whole graph can be printed too *)
Lemma mem_print n data ow (s : cgraph K F) : uniform n data -> load f1 n data ow = Ok s -> (exists js p, picks data js p /\ clt (walk_cost (jcost sq_acc (eff_weights f1 n ow)) p) cinf = true) ->
  exists g, answers (mem_call f1 sq_acc) (load_calls n data ow ++ [CBfs; CPrint]) mnew = repeat (Ok ANone) (S (length (load_calls n data ow))) ++ [Ok (APrint g)] /\ map (@length _) g = map (@length _) data.
Proof.
  intros U L X. destruct (bfs_prints n data ow s U L X) as (s' & js & p & l & g & H & P & G & C & M & El & Ml & Eg). exists g. split.
  - rewrite answers_order by (apply load_order; reflexivity). rewrite (answers_load n data ow s _ U L), <- (Nat.add_1_r (length _)), repeat_app, <- app_assoc. f_equal. cbn [answers pos_call]. rewrite H. cbn [quiet bind fst snd]. rewrite Eg. reflexivity.
  - destruct (load_inv f1 n data ow s U L) as [-> Hne]. destruct (run_bfs_spec sq_acc n (eff_weights f1 n ow) data (eff_weights_length f1 n ow) U Hne (loaded f1 n data ow)) as [[H1 _]|(a & js1 & p1 & H1 & H2 & _)]; [reflexivity|apply cshape_fresh|apply fresh_untouched|congruence|]. rewrite H1 in H. injection H as <-. unfold print_graph in Eg. cbn [na] in Eg.
    assert (E1 : map (@length _) g = map (@length _) a). { apply mapM_Ok_Forall2 in Eg. clear - Eg. induction Eg as [|c r a1 g1 E _ IH]; cbn [map]; auto. f_equal; auto. apply mapM_Ok_Forall2 in E. exact (F2_len _ _ _ E). }
    rewrite E1. destruct H2 as (L1 & L2 & _). apply (nth_ext _ _ 0 0); rewrite !map_length; auto. intros i Li. change 0 with (length (@nil (node K jv))) at 1. change 0 with (length (@nil jv)). rewrite !map_nth. specialize (L2 i). rewrite collen_cfresh in L2. rewrite <- L2. unfold collen. destruct (nth_error a i) as [c|] eqn:E; [rewrite (nth_some _ _ _ _ E); reflexivity|rewrite nth_overflow by (apply nth_error_None; auto); reflexivity].
Qed.
End Runs.
