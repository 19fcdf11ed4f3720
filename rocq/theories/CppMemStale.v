(** * A second init after a search leaves parents that point into freed blocks. *)
From Coq Require Import List Arith ZArith Lia Bool.
From Verif Require Import PyBase Cost SpecPath GraphCommon GraphProofs GraphWalks CppGraph CppGraphProofs CppSearch CppMain CppExamples CppFinal CppMem CppMemProofs CppMemRuns.
Import ListNotations.

Section Stale.
Context {K : CostStruct} {F : Type}.
Context (f1 : F) (sq_acc : K -> F -> F -> F -> K).
Local Notation jv := (list F).
Local Notation mheap := (narr K ref).
Definition dummies (t : list (node K ref)) : Prop := Forall (fun n => n_parent n = PDummy) t.
Definition at_ (h : mheap) (b : nat) : list (node K ref) := nth b h [].

(** ** push_back and the capacity *)
Lemma at_upd (h : mheap) i b c : i < length h -> at_ (upd h i c) b = if Nat.eqb i b then c else at_ h b.
Proof.
  intros L. unfold at_. destruct (Nat.eqb_spec i b) as [<-|D].
  - apply nth_some. apply nth_error_upd_same. auto.
  - destruct (nth_error h b) as [x|] eqn:E; [rewrite (nth_some _ _ _ _ E); apply nth_some; rewrite nth_error_upd_other; auto|]. assert (length h <= b) by (apply nth_error_None; auto). rewrite !nth_overflow; auto. rewrite upd_length. auto.
Qed.
Lemma at_app (h : mheap) c b : at_ (h ++ [c]) b = if Nat.eqb b (length h) then c else at_ h b.
Proof.
  unfold at_. destruct (Nat.eqb_spec b (length h)) as [->|D]; [rewrite app_nth2, Nat.sub_diag; auto|]. destruct (lt_dec b (length h)); [rewrite app_nth1; auto|]. rewrite !nth_overflow; auto; [lia|]. rewrite app_length. cbn. lia.
Qed.
Definition tight (h : mheap) (v : nat * nat) : Prop := fst v < length h /\ length (at_ h (fst v)) <= snd v /\ (length (at_ h (fst v)) = 0 /\ snd v = 0 \/ snd v < 2 * length (at_ h (fst v))).
Record filled (h h' : mheap) (v v' : nat * nat) (n : nat) : Prop := {
  fi_tight : tight h' v';
  fi_long : length h <= length h';
  fi_data : exists t, dummies t /\ length t = n /\ at_ h' (fst v') = at_ h (fst v) ++ t;
  fi_other : forall b, b < length h -> b <> fst v -> at_ h' b = at_ h b;
  fi_stay : length (at_ h (fst v)) + n <= snd v -> v' = v;
  fi_move : snd v < length (at_ h (fst v)) + n -> length h <= fst v' /\ at_ h' (fst v) = [] }.
Lemma fill_spec i gb : forall n j h v, tight h v -> filled h (fst (m_fill i gb j n h v)) v (snd (m_fill i gb j n h v)) n.
Proof.
  induction n as [|n IH]; intros j h v T; cbn [m_fill].
  - cbn [fst snd]. constructor; auto; [exists []; rewrite app_nil_r; repeat split; auto; constructor|]. destruct T as (_ & T & _). lia.
  - set (nd := mkNode i j (gb, j) cinf PDummy false). destruct (vpush h v nd) as [h1 v1] eqn:E. unfold vpush in E. fold (at_ h (fst v)) in E. destruct T as (T1 & T2 & T3). destruct (Nat.ltb_spec (length (at_ h (fst v))) (snd v)) as [Lt|Ge]; injection E as <- <-.
    + assert (A : at_ (upd h (fst v) (at_ h (fst v) ++ [nd])) (fst v) = at_ h (fst v) ++ [nd]) by (rewrite at_upd, Nat.eqb_refl by auto; auto).
      assert (T' : tight (upd h (fst v) (at_ h (fst v) ++ [nd])) v) by (unfold tight; rewrite A, upd_length, app_length; cbn [length]; lia). specialize (IH (S j) _ v T'). set (h2 := fst (m_fill _ _ _ _ _ _)) in *. set (v2 := snd (m_fill _ _ _ _ _ _)) in *. destruct IH as [I1 I2 I3 I4 I5 I6]. rewrite A, app_length in *. cbn [length] in *. rewrite upd_length in *. constructor; auto.
      * destruct I3 as (t & D & Lt' & Et). exists (nd :: t). split; [constructor; auto|]. split; [cbn; auto|]. rewrite Et, <- app_assoc. reflexivity.
      * intros b Lb Nb. rewrite I4 by auto. rewrite at_upd by auto. destruct (Nat.eqb_spec (fst v) b); [congruence|auto].
      * intros H. apply I5. lia.
      * intros H. apply I6. lia.
    + set (h1 := upd h (fst v) [] ++ [at_ h (fst v) ++ [nd]]). assert (Lu : length h = length (upd h (fst v) ([] : list (node K ref)))) by (rewrite upd_length; auto). assert (L1 : length h1 = S (length h)) by (unfold h1; rewrite app_length, <- Lu; cbn; lia). set (v1 := (length h, length (at_ h (fst v)) + Nat.max (length (at_ h (fst v))) 1)).
      assert (A : at_ h1 (length h) = at_ h (fst v) ++ [nd]) by (unfold h1; rewrite at_app, <- Lu, Nat.eqb_refl; auto).
      assert (T' : tight h1 v1) by (unfold tight, v1; cbn [fst snd]; rewrite A, L1, app_length; cbn [length]; lia). specialize (IH (S j) _ v1 T'). set (h2 := fst (m_fill _ _ _ _ _ _)) in *. set (v2 := snd (m_fill _ _ _ _ _ _)) in *. destruct IH as [I1 I2 I3 I4 I5 I6]. unfold v1 in I3, I4, I5, I6. cbn [fst snd] in I3, I4, I5, I6. rewrite A, app_length in *. cbn [length] in *. rewrite L1 in *.
      assert (Old : forall b, b < length h -> at_ h2 b = if Nat.eqb (fst v) b then [] else at_ h b) by (intros b Lb; rewrite I4 by lia; unfold h1; rewrite at_app, <- Lu; destruct (Nat.eqb_spec b (length h)); [lia|apply at_upd; auto]).
      constructor; auto; try lia.
      * destruct I3 as (t & D & Lt' & Et). exists (nd :: t). split; [constructor; auto|]. split; [cbn; auto|]. rewrite Et, <- app_assoc. reflexivity.
      * intros b Lb Nb. rewrite Old by auto. destruct (Nat.eqb_spec (fst v) b); [congruence|auto].
      * intros _. split; [|rewrite Old, Nat.eqb_refl; auto]. destruct (le_lt_dec (length (at_ h (fst v)) + 1 + n) (length (at_ h (fst v)) + Nat.max (length (at_ h (fst v))) 1)) as [C|C]; [rewrite (I5 C); cbn; lia|destruct (I6 C); lia].
Qed.
(** ** all columns *)
Definition content (h : mheap) (na : list (nat * nat)) (k : nat) : list (node K ref) := match nth_error na k with Some v => at_ h (fst v) | None => [] end.
Definition sound (h : mheap) (na : list (nat * nat)) : Prop := NoDup (map fst na) /\ Forall (tight h) na.
Record built (rows : list (list jv)) (i : nat) (data : list nat) (h h' : mheap) (na na' : list (nat * nat)) : Prop := {
  bu_sound : sound h' na';
  bu_long : length h <= length h';
  bu_data : forall k, exists t, dummies t /\ content h' na' k = content h na k ++ t;
  bu_dead : forall b, b < length h -> ~ In b (map fst na) -> at_ h' b = at_ h b;
  bu_keep : forall k, k < i -> k < length na -> nth_error na' k = nth_error na k }.
Lemma sound_other h na i k v w : sound h na -> nth_error na i = Some v -> nth_error na k = Some w -> i <> k -> fst v <> fst w.
Proof. intros [N _] E1 E2 D. eapply (cols_other (map fst na) i k); eauto; rewrite nth_error_map; [rewrite E1|rewrite E2]; auto. Qed.
Lemma sound_at h na k v : sound h na -> nth_error na k = Some v -> tight h v.
Proof. intros [_ T] E. rewrite Forall_forall in T. apply T. eapply nth_error_In; eauto. Qed.
(** one column *)
Lemma column_spec i gb n h na : sound h na -> i <= length na ->
  let na1 := na ++ [(length h, 0)] in let v := nth i na1 (0, 0) in let r := m_fill i gb 0 n (h ++ [[]]) v in
  nth_error na1 i = Some v /\ sound (h ++ [[]]) na1 /\ filled (h ++ [[]]) (fst r) v (snd r) n /\ sound (fst r) (upd na1 i (snd r)).
Proof.
  intros S L na1 v r. assert (E : nth_error na1 i = Some v) by (apply nth_error_nth'; unfold na1; rewrite app_length; cbn; lia).
  assert (S1 : sound (h ++ [[]]) na1).
  { destruct S as [N T]. assert (Old : forall w, In w na -> fst w < length h) by (intros w I; rewrite Forall_forall in T; apply (T _ I)). split.
    - unfold na1. rewrite map_app. cbn [map fst]. rewrite <- (rev_involutive (map fst na ++ [length h])), rev_app_distr. apply NoDup_rev. cbn. constructor; [|apply NoDup_rev, N]. rewrite <- in_rev, in_map_iff. intros (w & Ew & I). apply Old in I. lia.
    - unfold na1. apply Forall_app. split; [|constructor; [|constructor]; unfold tight; cbn [fst snd]; rewrite at_app, Nat.eqb_refl, app_length; cbn; lia]. rewrite Forall_forall in *. intros w I. specialize (T w I) as (T1 & T2). unfold tight. rewrite at_app, app_length. destruct (Nat.eqb_spec (fst w) (length h)); [lia|]. split; [cbn; lia|auto]. }
  split; auto. split; auto. assert (Fi := fill_spec i gb n 0 (h ++ [[]]) v (sound_at _ _ _ _ S1 E)). fold r in Fi. split; auto.
  destruct Fi as [I1 I2 I3 I4 I5 I6]. assert (Li : i < length na1) by (apply nth_error_Some; congruence). destruct (sound_at _ _ _ _ S1 E) as (Tv & _).
  assert (New : forall k w, nth_error na1 k = Some w -> k <> i -> fst w <> fst (snd r)).
  { intros k w Ek D. destruct (sound_at _ _ _ _ S1 Ek) as (Lw & _). destruct (le_lt_dec (length (at_ (h ++ [[]]) (fst v)) + n) (snd v)) as [C|C]; [rewrite (I5 C); eapply sound_other; eauto|destruct (I6 C); lia]. }
  split.
  - rewrite upd_map. destruct (in_dec Nat.eq_dec (fst (snd r)) (map fst na1)) as [I|I]; [|apply NoDup_upd; [apply S1|auto]]. apply in_map_iff in I. destruct I as (w & Ew & I). destruct (In_nth_error _ _ I) as (k & Ek). destruct (Nat.eq_dec k i) as [->|D]; [|exfalso; eapply New; eauto]. rewrite upd_id; [apply S1|]. rewrite nth_error_map, Ek. cbn. congruence.
  - apply Forall_forall. intros w I. destruct (In_nth_error _ _ I) as (k & Ek). destruct (Nat.eq_dec i k) as [<-|D]; [rewrite nth_error_upd_same in Ek by auto; injection Ek as <-; auto|]. rewrite nth_error_upd_other in Ek by auto. pose proof (sound_at _ _ _ _ S1 Ek) as (Tw1 & Tw2). unfold tight. rewrite (I4 (fst w)); [split; [lia|auto]|auto|]. intros Ew. eapply (sound_other _ _ i k); eauto.
Qed.
Lemma content_step i gb n h na : sound h na -> i <= length na ->
  let na1 := na ++ [(length h, 0)] in let r := m_fill i gb 0 n (h ++ [[]]) (nth i na1 (0, 0)) in
  forall k, exists t, dummies t /\ content (fst r) (upd na1 i (snd r)) k = content h na k ++ t.
Proof.
  intros S L na1 r k. destruct (column_spec i gb n h na S L) as (E & S1 & Fi & _). fold na1 in E, S1, Fi. fold r in Fi. assert (Li : i < length na1) by (apply nth_error_Some; congruence). destruct Fi as [I1 I2 (t & Dt & _ & Et) I4 _ _].
  assert (C : content (h ++ [[]]) na1 k = content h na k).
  { unfold content, na1. destruct (lt_dec k (length na)) as [Lk|Lk]; [rewrite nth_error_app1 by auto; destruct (nth_error na k) as [w|] eqn:Ek; auto; destruct (sound_at _ _ _ _ S Ek) as (Lw & _); rewrite at_app; destruct (Nat.eqb_spec (fst w) (length h)); [lia|auto]|]. rewrite nth_error_app2 by lia. rewrite (proj2 (nth_error_None na k)) by lia. destruct (k - length na) as [|x]; cbn [nth_error]; [cbn [fst]; rewrite at_app, Nat.eqb_refl; auto|destruct x; auto]. }
  rewrite <- C. unfold content. destruct (Nat.eq_dec i k) as [<-|D].
  - rewrite nth_error_upd_same, E by auto. exists t. auto.
  - rewrite nth_error_upd_other by auto. exists []. rewrite app_nil_r. split; [constructor|]. destruct (nth_error na1 k) as [w|] eqn:Ek; auto. apply I4; [apply (sound_at _ _ _ _ S1 Ek)|]. intros Ew. eapply (sound_other _ _ i k); eauto.
Qed.
Lemma array_spec (rows : list (list jv)) : forall data i h na, sound h na -> i <= length na -> built rows i data h (fst (m_to_node_array rows i data h na)) na (snd (m_to_node_array rows i data h na)).
Proof.
  induction data as [|gb data IH]; intros i h na Sd L; cbn [m_to_node_array].
  - constructor; auto. intros k. exists []. rewrite app_nil_r. split; [constructor|auto].
  - set (na1 := na ++ [(length h, 0)]). set (n := length (nth gb rows [])). destruct (column_spec i gb n h na Sd L) as (E & S1 & Fi & S2). pose proof (content_step i gb n h na Sd L) as C. fold na1 in E, S1, Fi, S2, C. cbv zeta in C. destruct (m_fill i gb 0 n (h ++ [[]]) (nth i na1 (0, 0))) as [h2 v] eqn:Ef. cbn [fst snd] in Fi, S2, C. assert (Li : i < length na1) by (apply nth_error_Some; congruence). assert (L1 : length na1 = S (length na)) by (unfold na1; rewrite app_length; cbn; lia).
    destruct (IH (S i) h2 (upd na1 i v) S2 ltac:(rewrite upd_length; lia)) as [B1 B2 B3 B4 B5]. destruct Fi as [I1 I2 I3 I4 I5 I6]. rewrite app_length in I2, I4, I6. cbn [length] in I2, I4, I6. constructor; auto; try lia.
    + intros k. destruct (B3 k) as (t & Dt & ->). destruct (C k) as (t' & Dt' & ->). exists (t' ++ t). split; [apply Forall_app; auto|rewrite app_assoc; auto].
    + intros b Lb Nb. assert (Nv : b <> fst (nth i na1 (0, 0))). { intros ->. apply Nb. unfold na1 in E. destruct (lt_dec i (length na)) as [Li'|Li']; [rewrite nth_error_app1 in E by auto; apply in_map; eapply nth_error_In; eauto|]. rewrite nth_error_app2 in E by lia. replace (i - length na) with 0 in E by lia. cbn in E. injection E as E. fold na1 in E. rewrite <- E in Lb. cbn in Lb. lia. }
      rewrite B4; [rewrite I4 by (auto; lia); rewrite at_app; destruct (Nat.eqb_spec b (length h)); [lia|auto]|lia|]. rewrite upd_map. intros I. destruct (In_nth_error _ _ I) as (k & Ek). destruct (Nat.eq_dec i k) as [<-|D].
      * rewrite nth_error_upd_same in Ek by (rewrite map_length; auto). injection Ek as <-. destruct (le_lt_dec (length (at_ (h ++ [[]]) (fst (nth i na1 (0, 0)))) + n) (snd (nth i na1 (0, 0)))) as [Q|Q]; [rewrite (I5 Q) in Nv; congruence|destruct (I6 Q); lia].
      * rewrite nth_error_upd_other in Ek by auto. apply nth_error_In in Ek. unfold na1 in Ek. rewrite map_app, in_app_iff in Ek. destruct Ek as [Ek|[Ek|[]]]; [auto|cbn in Ek; lia].
    + intros k Lk Lk'. rewrite B5 by (rewrite ?upd_length; lia). rewrite nth_error_upd_other by lia. unfold na1. apply nth_error_app1. auto.
Qed.
(** ** the second init *)
Lemma first_freed (rows : list (list jv)) gb data h v0 na : sound h (v0 :: na) -> length (nth gb rows []) = length (at_ h (fst v0)) -> 0 < length (at_ h (fst v0)) ->
  at_ (fst (m_to_node_array rows 0 (gb :: data) h (v0 :: na))) (fst v0) = [].
Proof.
  intros Sd E P. cbn [m_to_node_array]. set (na1 := (v0 :: na) ++ [(length h, 0)]). set (n := length (nth gb rows [])) in *. destruct (column_spec 0 gb n h (v0 :: na) Sd ltac:(lia)) as (_ & S1 & Fi & S2). fold na1 in S1, Fi, S2. change (nth 0 na1 (0, 0)) with v0 in *. cbv zeta in Fi, S2. destruct (m_fill 0 gb 0 n (h ++ [[]]) v0) as [h2 v] eqn:Ef. cbn [fst snd] in Fi, S2.
  destruct Fi as [I1 I2 I3 I4 I5 I6]. destruct (sound_at _ _ 0 v0 Sd eq_refl) as (T1 & T2 & T3). assert (Q : at_ (h ++ [[]]) (fst v0) = at_ h (fst v0)) by (rewrite at_app; destruct (Nat.eqb_spec (fst v0) (length h)); [lia|auto]). rewrite Q in I6. destruct I6 as [M1 M2]; [lia|]. rewrite app_length in M1, I2. cbn [length] in M1, I2.
  destruct (array_spec rows data 1 h2 (upd na1 0 v) S2 ltac:(rewrite upd_length; unfold na1; rewrite app_length; cbn; lia)) as [_ _ _ B4 _]. rewrite B4; auto; [lia|]. unfold na1. cbn [app upd map]. intros [I|I]; [lia|]. destruct S1 as [N _]. unfold na1 in N. cbn [app map] in N. inversion N; auto.
Qed.
Lemma rarr_at md (rows : list (list jv)) (na : list (nat * nat)) (a : narr K jv) h k v : Rarr md rows (map fst na) a h -> nth_error na k = Some v -> exists col, nth_error a k = Some col /\ Forall2 (Rnode md (map fst na) rows) col (at_ h (fst v)) /\ fst v < length h.
Proof.
  intros H E. destruct (Rarr_col md rows (map fst na) a h k (fst v) H) as (col & mcol & Ea & Eh & Hc); [rewrite nth_error_map, E; auto|]. exists col. unfold at_. rewrite (nth_some _ _ _ _ Eh). repeat split; auto. apply nth_error_Some. congruence.
Qed.
Lemma sound_keep md md' (rows : list (list jv)) (na : list (nat * nat)) (a a' : narr K jv) h h' : sound h na -> Rarr md rows (map fst na) a h -> Rarr md' rows (map fst na) a' h' -> shape_of a' = shape_of a -> sound h' na.
Proof.
  intros [N T] H H' E. split; auto. apply Forall_forall. intros v I. destruct (In_nth_error _ _ I) as (k & Ek). destruct (rarr_at _ _ _ _ _ _ _ H Ek) as (c & Ec & Fc & _). destruct (rarr_at _ _ _ _ _ _ _ H' Ek) as (c' & Ec' & Fc' & L'). rewrite Forall_forall in T. specialize (T v I) as (T1 & T2). unfold tight. split; auto.
  assert (X : length (at_ h' (fst v)) = length (at_ h (fst v))). { rewrite (F2_len _ _ _ Fc), (F2_len _ _ _ Fc'). apply (f_equal (fun l => nth_error l k)) in E. unfold shape_of in E. rewrite !nth_error_map, Ec, Ec' in E. cbn in E. congruence. }
  rewrite X. auto.
Qed.
(** consecutive elements of a path are linked *)
Fixpoint chain (a : narr K jv) (l : list parent) : Prop :=
  match l with
  | x :: (y :: _) as t => (exists i j v, y = PNode i j /\ deref a (i, j) = Ok v /\ n_parent v = x) /\ chain a t
  | _ => True
  end.
Lemma follow_chain (a : narr K jv) : forall fuel p acc l, cfollow fuel a p acc = Ok l -> chain a (p :: acc) -> chain a l.
Proof.
  induction fuel as [|fuel IH]; intros p acc l H C; cbn [cfollow] in H; destruct p as [| |i j]; try discriminate; try (injection H as <-; auto; fail). destruct (deref a (i, j)) as [v| |] eqn:E; cbn [bind] in H; try discriminate. destruct (Nat.ltb 0 (n_pi v)); [|injection H as <-; auto]. eapply IH; eauto. split; [exists i, j, v; auto|auto].
Qed.
Lemma path_chain (a : narr K jv) l : get_path_nodes true a = Ok l -> chain a l.
Proof. unfold get_path_nodes. destruct a; [discriminate|]. intros H. eapply follow_chain; eauto. exact I. Qed.
(** ** the program *)
Lemma mem_adds n : forall data (s : cgraph K F) m cs, uniform n data -> Rgraph Clean s m -> na s = [] -> m_na m = [] ->
  exists m', answers (mem_call f1 sq_acc) (map (fun rows => CAdd (concat rows) (length rows) n) data ++ cs) m = repeat (Ok ANone) (length data) ++ answers (mem_call f1 sq_acc) cs m' /\ m_na m' = [] /\
    Rgraph Clean (mkCG (gd s ++ data) (na s) (path_found s) (shortest_path_cost s) (num_goals s) (max_path_index s) (weights s)) m'.
Proof.
  induction data as [|rows data IH]; intros s m cs U R Na Ma; cbn [map app length repeat].
  - exists m. rewrite app_nil_r. split; auto. split; auto. destruct s; auto.
  - inversion U; subst. cbn [answers mem_call]. pose proof (add_rel Clean s m (concat rows) (length rows) n R) as A. rewrite add_rows_ok in A by auto. destruct (m_add (concat rows) (length rows) n m) as [m1| |] eqn:E; cbn [rr] in A; try contradiction. cbn [quiet bind fst snd]. destruct (IH _ m1 cs ltac:(auto) A Na) as (m' & E' & Mn & R').
    + unfold m_add in E. destruct (mapM _ _); cbn [bind] in E; try discriminate. injection E as <-. exact Ma.
    + exists m'. rewrite E'. split; auto. split; auto. cbn [gd na path_found shortest_path_cost num_goals max_path_index weights] in R'. rewrite <- app_assoc in R'. exact R'.
Qed.
Lemma mem_load n data ow (s : cgraph K F) cs : uniform n data -> load f1 n data ow = Ok s ->
  exists m, answers (mem_call f1 sq_acc) (load_calls n data ow ++ cs) mnew = repeat (Ok ANone) (length (load_calls n data ow)) ++ answers (mem_call f1 sq_acc) cs m /\ Rgraph Clean s m /\ sound (m_heap m) (m_na m).
Proof.
  intros U H. unfold load_calls. rewrite <- !app_assoc. unfold load in H. rewrite load_rows in H by auto. cbn [bind] in H. rewrite !app_length, map_length, !repeat_app.
  assert (X : forall s0 m0, Rgraph Clean s0 m0 -> na s0 = [] -> m_na m0 = [] -> init f1 (mkCG (gd s0 ++ data) (na s0) (path_found s0) (shortest_path_cost s0) (num_goals s0) (max_path_index s0) (weights s0)) = Ok s ->
    exists m, answers (mem_call f1 sq_acc) (map (fun rows => CAdd (concat rows) (length rows) n) data ++ [CInit] ++ cs) m0 = repeat (Ok ANone) (length data) ++ repeat (Ok ANone) 1 ++ answers (mem_call f1 sq_acc) cs m /\ Rgraph Clean s m /\ sound (m_heap m) (m_na m)).
  { intros s0 m0 R0 N0 M0 Hi. destruct (mem_adds n data s0 m0 ([CInit] ++ cs) U R0 N0 M0) as (m1 & -> & M1 & R1). pose proof (init_rel f1 Clean _ _ R1 ltac:(discriminate)) as Q. rewrite Hi in Q. destruct (m_init f1 m1) as [m2| |] eqn:E2; cbn [rr] in Q; try contradiction. exists m2. split; [|split; auto].
    - f_equal. cbn [app answers mem_call]. rewrite E2. reflexivity.
    - unfold m_init in E2. rewrite M1 in E2. destruct (array_spec (m_rows m1) (m_gd m1) 0 (m_heap m1) []) as [B _ _ _ _]; [split; constructor|auto|]. destruct (m_to_node_array (m_rows m1) 0 (m_gd m1) (m_heap m1) []) as [h a]. cbn [fst snd] in B. destruct a; [discriminate|]. destruct (m_gd m1); [discriminate|]. destruct (nth _ (m_rows m1) []); [discriminate|]. injection E2 as <-. exact B. }
  destruct ow as [w|]; cbn [app answers mem_call length repeat].
  - destruct (X (set_weights w cnew) (m_set_weights w mnew)) as (m & E & R & S); auto; [pose proof (new_rel (K := K) (F := F)) as [R1 R2 R3 R4 R5 R6 R7 R8]; split; auto|]. exists m. split; auto. cbn [app repeat] in E |- *. rewrite E, <- app_assoc. reflexivity.
  - destruct (X cnew mnew) as (m & E & R & S); auto; [apply new_rel|]. exists m. split; auto. cbn [app repeat] in E |- *. rewrite E, <- app_assoc. reflexivity.
Qed.
Lemma mapM_raises {A B} (f : A -> res B) e x : forall l, In x l -> (forall y, In y l -> f y <> OutOfFuel /\ forall e', f y = Raise e' -> e' = e) -> f x = Raise e -> mapM f l = Raise e.
Proof.
  induction l as [|y l IH]; intros I H E; [destruct I|]. cbn [mapM]. destruct (f y) as [b|e'|] eqn:Ey; cbn [bind].
  - destruct I as [->|I]; [congruence|]. rewrite (IH I); auto. intros z Iz. apply H. right; auto.
  - f_equal. apply (H y); [left; auto|auto].
  - destruct (H y); [left; auto|congruence].
Qed.
Lemma mapM_only {A B} (f : A -> res B) e : forall l, (forall y, In y l -> f y <> OutOfFuel /\ forall e', f y = Raise e' -> e' = e) -> mapM f l <> OutOfFuel /\ forall e', mapM f l = Raise e' -> e' = e.
Proof.
  induction l as [|y l IH]; intros H; cbn [mapM]; [split; discriminate|]. destruct (H y (or_introl eq_refl)) as [H1 H2]. destruct (f y) as [b|e1|]; cbn [bind]; [|split; [discriminate|intros e2 E2; injection E2 as <-; apply H2; auto]|congruence]. destruct IH as [I1 I2]; [intros; apply H; right; auto|]. destruct (mapM f l); cbn [bind]; split; try discriminate; auto.
Qed.
Lemma shown_only (h : mheap) n : n_parent n <> PNone -> m_print_node h n <> OutOfFuel /\ forall e, m_print_node h n = Raise e -> e = OutOfBounds.
Proof.
  intros N. unfold m_print_node. destruct (n_parent n) as [| |i j]; [congruence|split; discriminate|]. unfold deref. cbn [fst snd]. destruct (nth_error h i) as [c|]; [destruct (nth_error c j)|]; cbn [bind]; split; try discriminate; intros e E; injection E as <-; auto.
Qed.
Lemma init_again n data ow (s : cgraph K F) : uniform n data -> 2 <= length data -> load f1 n data ow = Ok s -> (exists js p, picks data js p /\ clt (walk_cost (jcost sq_acc (eff_weights f1 n ow)) p) cinf = true) ->
  answers (mem_call f1 sq_acc) (load_calls n data ow ++ [CBfs; CInit; CPrint]) mnew = repeat (Ok ANone) (S (S (length (load_calls n data ow)))) ++ [Raise OutOfBounds].
Proof.
  intros U L2 L (js0 & p0 & P0 & C0). destruct (mem_load n data ow s [CBfs; CInit; CPrint] U L) as (m & -> & R & Sd). destruct (load_inv f1 n data ow s U L) as [Es Hne].
  destruct (run_bfs_spec sq_acc n (eff_weights f1 n ow) data (eff_weights_length f1 n ow) U Hne s) as [[H1 H2]|(a & js & p & H1 & H2 & H3 & H4 & H5 & H6 & H7)]; [rewrite Es; reflexivity|rewrite Es; apply cshape_fresh|rewrite Es; apply fresh_untouched|exfalso; apply H2; exists js0, p0; auto|].
  assert (Up : linked_up a) by (intros i j v E; destruct (H3 i j v E) as (_ & _ & [[_ Q]|(_ & _ & js' & T & _)]); [left; auto|eapply tr_up; eauto]).
  pose proof (bfs_call sq_acc Clean s m R) as B. rewrite H1 in B. destruct (m_run_bfs sq_acc m) as [m2| |] eqn:Em; cbn [rr] in B; try contradiction.
  assert (Mn : m_na m2 = m_na m /\ m_rows m2 = m_rows m). { unfold m_run_bfs in Em. destruct (m_bfs _ _ _ _ _); cbn [bind] in Em; try discriminate. destruct (m_path_nodes _ _ _); cbn [bind] in Em; try discriminate. destruct (m_path_cost _ _ _ _ _); cbn [bind] in Em; try discriminate. injection Em as <-. auto. }
  destruct Mn as [Mn Mr]. set (s2 := mkCG _ a true _ _ _ _) in H1, B. assert (Gd : gd s2 = data) by (cbn; rewrite Es; reflexivity).
  assert (Shape : shape_of a = map (@length jv) data). { destruct H2 as (A1 & A2 & _). unfold shape_of. apply (nth_ext _ _ 0 0); rewrite !map_length; auto. intros i Li. change 0 with (length (@nil (node K jv))) at 1. change 0 with (length (@nil jv)). rewrite !map_nth. specialize (A2 i). rewrite collen_cfresh in A2. rewrite <- A2. unfold collen. destruct (nth_error a i) as [c|] eqn:E; [rewrite (nth_some _ _ _ _ E); reflexivity|rewrite nth_overflow by (apply nth_error_None; auto); reflexivity]. }
  assert (Shape0 : shape_of (na s) = map (@length jv) data). { rewrite Es. cbn [na loaded]. unfold shape_of. apply (nth_ext _ _ 0 0); rewrite !map_length, ?fresh_length; auto. intros i Li. change 0 with (length (@nil (node K jv))) at 1. change 0 with (length (@nil jv)). rewrite !map_nth, fresh_nth. apply cmk_col_length. }
  assert (Sd2 : sound (m_heap m2) (m_na m2)). { rewrite Mn. eapply (sound_keep Clean Linked (m_rows m) (m_na m) (na s) a (m_heap m)); auto; [apply R|rewrite <- Mr, <- Mn; apply B|congruence]. }
  (* the second node of the path *)
  destruct (picks_length _ _ _ H5) as [Ljs _]. destruct js as [|j0 [|j1 js]]; cbn [length] in Ljs; try lia. pose proof (path_chain a _ H4) as Ch. cbn [pn chain] in Ch. destruct Ch as [(i1 & j1' & v1 & E1 & D1 & Pv1) _]. injection E1 as <- <-.
  (* columns 0 and 1 *)
  pose proof (rg_na _ _ _ B) as Rn. cbn [na s2] in Rn. pose proof (Rarr_len _ _ _ _ _ Rn) as Ln. rewrite map_length in Ln. assert (La : length a = length data) by apply H2. destruct (m_na m2) as [|v0 [|w1 na2]] eqn:Ena; cbn [length] in Ln; try lia.
  destruct (rarr_at _ _ _ _ _ 0 v0 Rn eq_refl) as (c0 & Ec0 & F0 & _). destruct (rarr_at _ _ _ _ _ 1 w1 Rn eq_refl) as (c1 & Ec1 & F1 & _).
  assert (Dv1 : nth_error c1 j1 = Some v1). { unfold deref in D1. cbn [fst snd] in D1. rewrite Ec1 in D1. destruct (nth_error c1 j1); [congruence|discriminate]. }
  destruct (F2_nth _ _ _ F1 _ _ Dv1) as (m1 & Em1 & (_ & _ & _ & _ & Pm1 & _)). cbn [Rpar] in Pm1. rewrite Pv1 in Pm1. destruct (n_parent m1) as [| |b0 jm] eqn:Epm; cbn in Pm1; try contradiction. destruct Pm1 as [Pm1 _]. cbn in Pm1. injection Pm1 as Eb0.
  (* data *)
  pose proof (rg_gd _ _ _ B) as Rg. rewrite Gd in Rg. assert (Ld : exists row col rest, data = (row :: col) :: rest). { destruct data as [|[|row col] rest]; [congruence| |eauto]. cbn in H5. destruct j0; destruct p; cbn in H5; destruct H5; discriminate. }
  destruct Ld as (row & col & rest & Ed). assert (Lc0 : length c0 = S (length col)). { apply (f_equal (fun l => nth_error l 0)) in Shape. unfold shape_of in Shape. rewrite !nth_error_map, Ec0, Ed in Shape. cbn in Shape. congruence. }
  destruct (m_gd m2) as [|gb gds] eqn:Egd; [rewrite Ed in Rg; inversion Rg|]. assert (Eg : nth_error (m_rows m2) gb = Some (row :: col)) by (rewrite Ed in Rg; inversion Rg; auto).
  assert (Freed : at_ (fst (m_to_node_array (m_rows m2) 0 (gb :: gds) (m_heap m2) (v0 :: w1 :: na2))) (fst v0) = []). { apply first_freed; auto; [rewrite (nth_some _ _ _ _ Eg), (F2_len _ _ _ F0); cbn; auto|rewrite (F2_len _ _ _ F0); lia]. }
  destruct (array_spec (m_rows m2) (gb :: gds) 0 (m_heap m2) (v0 :: w1 :: na2) Sd2 ltac:(lia)) as [B1 _ B3 _ _].
  (* the calls *)
  cbn [answers mem_call]. rewrite Em. cbn [quiet bind fst snd]. unfold m_init. rewrite Ena, Egd. destruct (m_to_node_array (m_rows m2) 0 (gb :: gds) (m_heap m2) (v0 :: w1 :: na2)) as [h3 a3] eqn:Ea3. cbn [fst snd] in Freed, B1, B3.
  destruct (B3 1) as (t1 & _ & Et1). unfold content in Et1 at 2. cbn [nth_error] in Et1.
  assert (E3 : exists w3, nth_error a3 1 = Some w3 /\ at_ h3 (fst w3) = at_ (m_heap m2) (fst w1) ++ t1). { unfold content in Et1. destruct (nth_error a3 1) as [w3|]; [eauto|]. apply (f_equal (fun l => nth_error l j1)) in Et1. rewrite nth_error_app1 in Et1 by (apply nth_error_Some; congruence). rewrite Em1 in Et1. destruct j1; discriminate. }
  destruct E3 as (w3 & Ew3 & Aw3). destruct a3 as [|z3 a3]; [discriminate|]. rewrite (nth_some _ _ _ _ Eg). unfold quiet. cbn [bind fst snd].
  rewrite <- (Nat.add_1_r (S (length _))), <- (Nat.add_1_r (length _)), !repeat_app, <- !app_assoc. cbn [repeat app]. unfold m_print_graph. cbn [m_na m_heap].
  assert (Ok3 : forall v, In v (z3 :: a3) -> forall x, In x (at_ h3 (fst v)) -> n_parent x <> PNone).
  { intros v Iv x Ix Z. destruct (In_nth_error _ _ Iv) as (k & Ek). destruct (B3 k) as (t & Dt & Ct). unfold content in Ct at 1. rewrite Ek in Ct. rewrite Ct, in_app_iff in Ix. destruct Ix as [Ix|Ix]; [|unfold dummies in Dt; rewrite Forall_forall in Dt; rewrite (Dt _ Ix) in Z; discriminate].
    unfold content in Ix. destruct (nth_error (v0 :: w1 :: na2) k) as [w|] eqn:Ew; [|destruct Ix]. destruct (rarr_at _ _ _ _ _ k w Rn Ew) as (c & Ec & Fc & _). destruct (In_nth_error _ _ Ix) as (j & Ej). destruct (F2_nth_r _ _ _ Fc _ _ Ej) as (y & Ey & (_ & _ & _ & _ & Py & _)). rewrite Z in Py. cbn in Py. destruct (Up k j y) as [Q|(i' & j' & u & Q & _)]; [unfold lk; rewrite Ec; auto| |]; rewrite Q in Py; exact Py. }
  assert (Fall : forall v, In v (z3 :: a3) -> mapM (m_print_node h3) (at_ h3 (fst v)) <> OutOfFuel /\ forall e, mapM (m_print_node h3) (at_ h3 (fst v)) = Raise e -> e = OutOfBounds) by (intros v Iv; apply mapM_only; intros y Iy; apply shown_only; eapply Ok3; eauto).
  rewrite (mapM_raises (fun v => mapM (m_print_node h3) (nth (fst v) h3 [])) OutOfBounds w3 (z3 :: a3)); [reflexivity|eapply nth_error_In; eauto|exact Fall|]. fold (at_ h3 (fst w3)). apply (mapM_raises _ _ m1); [rewrite Aw3, in_app_iff; left; eapply nth_error_In; eauto|intros y Iy; apply shown_only; eapply Ok3; [eapply nth_error_In; exact Ew3|exact Iy]|].
  unfold m_print_node. rewrite Epm, <- Eb0. unfold deref. cbn [fst snd]. unfold at_ in Freed. destruct (nth_error h3 (fst v0)) as [c|] eqn:Ec3; [|reflexivity]. rewrite (nth_some _ _ _ _ Ec3) in Freed. subst c. destruct jm; reflexivity.
Qed.
End Stale.
(** a program whose last answer depends on the addresses *)
Lemma answers_differ : exists cs : list (call Z), answers (mem_call (K := ZCost) 1%Z zsq) cs mnew <> answers (pos_call 1%Z zsq) cs cnew.
Proof. exists (load_calls 1 [[[0]]; [[1]]]%Z None ++ [CBfs; CInit; CPrint]). vm_compute. discriminate. Qed.
