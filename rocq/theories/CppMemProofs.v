(** * The searches never follow an address that is out of date: [CppGraph] and [CppMem]
    answer alike. *)
From Coq Require Import List Arith ZArith Lia Bool.
From Verif Require Import PyBase Cost GraphCommon CppGraph CppGraphProofs CppMem.
Import ListNotations.

(** ** Related results *)
Definition rr {A B} (P : A -> B -> Prop) (x : res A) (y : res B) : Prop :=
  match x, y with Ok a, Ok b => P a b | Raise e, Raise e' => e = e' | OutOfFuel, OutOfFuel => True | _, _ => False end.
Lemma rr_bind {A B A' B'} (P : A -> B -> Prop) (Q : A' -> B' -> Prop) x y f g : rr P x y -> (forall a b, P a b -> rr Q (f a) (g b)) -> rr Q (bind x f) (bind y g).
Proof. destruct x, y; cbn; intros; subst; try tauto; auto. Qed.
Lemma rr_impl {A B} (P Q : A -> B -> Prop) x y : rr P x y -> (forall a b, P a b -> Q a b) -> rr Q x y.
Proof. destruct x, y; cbn; auto. Qed.
Lemma rr_eq {A} (x y : res A) : rr eq x y <-> x = y.
Proof. destruct x, y; cbn; split; intros H; try tauto; try discriminate; congruence. Qed.
Lemma rr_mapM {A B A' B'} (P : A -> B -> Prop) (Q : A' -> B' -> Prop) f g : (forall a b, P a b -> rr Q (f a) (g b)) -> forall l l', Forall2 P l l' -> rr (Forall2 Q) (mapM f l) (mapM g l').
Proof.
  intros H. induction 1 as [|a b l l' Hab _ IH]; cbn [mapM]; [cbn; constructor|]. eapply rr_bind; [apply H; exact Hab|]. intros x y Hx. eapply rr_bind; [exact IH|]. intros xs ys Hs. cbn. constructor; auto.
Qed.
Lemma rr_foldM {A B S S'} (P : A -> B -> Prop) (Q : S -> S' -> Prop) f g : (forall s s' a b, Q s s' -> P a b -> rr Q (f s a) (g s' b)) ->
  forall l l', Forall2 P l l' -> forall s s', Q s s' -> rr Q (foldM f l s) (foldM g l' s').
Proof. intros H. induction 1 as [|a b l l' Hab _ IH]; intros s s' Hs; cbn [foldM]; [exact Hs|]. eapply rr_bind; [apply H; eauto|]. auto. Qed.
(** ** Lists *)
Lemma F2_nth {A B} (P : A -> B -> Prop) l l' : Forall2 P l l' -> forall i a, nth_error l i = Some a -> exists b, nth_error l' i = Some b /\ P a b.
Proof. induction 1 as [|x y l l' H _ IH]; intros [|i] a E; cbn in E |- *; try discriminate; [injection E as <-; eauto|eauto]. Qed.
Lemma F2_nth_r {A B} (P : A -> B -> Prop) l l' : Forall2 P l l' -> forall i b, nth_error l' i = Some b -> exists a, nth_error l i = Some a /\ P a b.
Proof. induction 1 as [|x y l l' H _ IH]; intros [|i] a E; cbn in E |- *; try discriminate; [injection E as <-; eauto|eauto]. Qed.
Lemma F2_upd {A B} (P : A -> B -> Prop) l l' : Forall2 P l l' -> forall i a b, P a b -> Forall2 P (upd l i a) (upd l' i b).
Proof. induction 1 as [|x y l l' H H' IH]; intros [|i] a b K; cbn [upd]; constructor; auto. Qed.
Lemma F2_len {A B} (P : A -> B -> Prop) l l' : Forall2 P l l' -> length l' = length l.
Proof. intros H. symmetry. induction H; cbn; auto. Qed.
Lemma upd_map {A B} (f : A -> B) (l : list A) : forall i x, map f (upd l i x) = upd (map f l) i (f x).
Proof. induction l as [|a l IH]; intros [|i] x; cbn; f_equal; auto. Qed.
Lemma upd_id {A} (l : list A) : forall i x, nth_error l i = Some x -> upd l i x = l.
Proof. induction l as [|a l IH]; intros [|i] x E; cbn in *; try discriminate; [congruence|f_equal; auto]. Qed.
Lemma upd_upd {A} (l : list A) : forall i x y, upd (upd l i x) i y = upd l i y.
Proof. induction l as [|a l IH]; intros [|i] x y; cbn; f_equal; auto. Qed.
Lemma nth_some {A} (l : list A) i d x : nth_error l i = Some x -> nth i l d = x.
Proof. intros. erewrite nth_error_nth; eauto. Qed.

Section Sim.
Context {K : CostStruct} {F : Type}.
Context (f1 : F) (sq_acc : K -> F -> F -> F -> K).
Local Notation jv := (list F).

(** Clean: no search since the last reset; Linked: parents are addresses in use;
    Stale: the blocks have moved since the parents were written *)
Inductive mode : Type := Clean | Linked | Stale.
Definition Rref (cols : list nat) (r r' : ref) : Prop := nth_error cols (fst r) = Some (fst r') /\ snd r = snd r'.
Definition Rlink (cols : list nat) (p p' : parent) : Prop :=
  match p, p' with PNone, PNone => True | PDummy, PDummy => True | PNode i j, PNode b j' => Rref cols (i, j) (b, j') | _, _ => False end.
Definition Rpar (md : mode) (cols : list nat) (p p' : parent) : Prop :=
  match md with Clean => p = PDummy /\ p' = PDummy | Linked => Rlink cols p p' | Stale => True end.
Definition Rnode md cols (rows : list (list jv)) (n : node K jv) (m : node K ref) : Prop :=
  n_pi m = n_pi n /\ n_si m = n_si n /\ jderef rows (n_data m) = Ok (n_data n) /\ n_dist m = n_dist n /\ Rpar md cols (n_parent n) (n_parent m) /\ n_visited m = n_visited n.
Definition Rcol md cols rows (h : narr K ref) (col : list (node K jv)) (b : nat) : Prop := exists mcol, nth_error h b = Some mcol /\ Forall2 (Rnode md cols rows) col mcol.
Definition Rarr md rows cols (a : narr K jv) (h : narr K ref) : Prop := NoDup cols /\ Forall2 (Rcol md cols rows h) a cols.

Lemma Rarr_len md rows cols a h : Rarr md rows cols a h -> length cols = length a.
Proof. intros [_ H]. eapply F2_len; eauto. Qed.
Lemma Rarr_col md rows cols a h i b : Rarr md rows cols a h -> nth_error cols i = Some b -> exists col mcol, nth_error a i = Some col /\ nth_error h b = Some mcol /\ Forall2 (Rnode md cols rows) col mcol.
Proof. intros [_ H] E. destruct (F2_nth_r _ _ _ H i b E) as (col & E1 & mcol & E2 & E3). eauto 6. Qed.
Lemma Rarr_deref md rows cols a h r r' : Rarr md rows cols a h -> Rref cols r r' -> rr (Rnode md cols rows) (deref a r) (deref h r').
Proof.
  intros H [E1 E2]. destruct (Rarr_col _ _ _ _ _ _ _ H E1) as (col & mcol & Ea & Eh & Hc). unfold deref. rewrite Ea, Eh, <- E2. destruct (nth_error col (snd r)) as [n|] eqn:En.
  - destruct (F2_nth _ _ _ Hc _ _ En) as (m & -> & Hn). exact Hn.
  - apply nth_error_None in En. rewrite <- (F2_len _ _ _ Hc) in En. apply nth_error_None in En. rewrite En. reflexivity.
Qed.
(** writing to one block leaves the other columns alone *)
Lemma cols_other (cols : list nat) i k b b' : NoDup cols -> nth_error cols i = Some b -> nth_error cols k = Some b' -> i <> k -> b <> b'.
Proof. intros N E1 E2 D ->. apply D. eapply NoDup_nth_error; eauto; [apply nth_error_Some; congruence|congruence]. Qed.
Lemma Rarr_set md rows cols a h i b col mcol : Rarr md rows cols a h -> nth_error cols i = Some b -> Forall2 (Rnode md cols rows) col mcol -> Rarr md rows cols (upd a i col) (upd h b mcol).
Proof.
  intros [N H] E Hc. split; auto. assert (Lb : b < length h). { destruct (Rarr_col md rows cols a h i b (conj N H) E) as (c0 & m0 & _ & E0 & _). apply nth_error_Some. congruence. }
  assert (G : forall k c b', nth_error a k = Some c -> nth_error cols k = Some b' -> Rcol md cols rows h c b' -> k <> i -> Rcol md cols rows (upd h b mcol) c b').
  { intros k c b' _ Ek (m & Em & Hm) D. exists m. split; auto. rewrite nth_error_upd_other; auto. eapply cols_other; eauto. }
  assert (L := F2_len _ _ _ H).
  assert (Q : forall k c b', nth_error (upd a i col) k = Some c -> nth_error cols k = Some b' -> Rcol md cols rows (upd h b mcol) c b').
  { intros k c b' Ec Eb. destruct (Nat.eq_dec k i) as [->|D].
    - rewrite nth_error_upd_same in Ec by (rewrite <- L; apply nth_error_Some; congruence). injection Ec as <-. rewrite E in Eb. injection Eb as <-. exists mcol. split; auto. apply nth_error_upd_same; auto.
    - rewrite nth_error_upd_other in Ec by auto. apply (G k); auto. destruct (F2_nth _ _ _ H k c Ec) as (b'' & E'' & R). congruence. }
  assert (L' : length (upd a i col) = length cols) by (rewrite upd_length; auto). clear - Q L'. revert Q L'. generalize (upd a i col) as l. generalize (upd h b mcol) as hh. intros hh l. revert cols. 
  assert (W : forall (P : list (node K jv) -> nat -> Prop) l cols, (forall k c b', nth_error l k = Some c -> nth_error cols k = Some b' -> P c b') -> length l = length cols -> Forall2 P l cols).
  { intros P. clear. induction l as [|c l IH]; intros [|b cols] Q L; cbn in L; try discriminate; constructor; [apply (Q 0); reflexivity|apply IH; [|lia]]. intros k. apply (Q (S k)). }
  intros cols Q L. apply W; auto.
Qed.
Lemma Rarr_write md rows cols a h r r' n m : Rarr md rows cols a h -> Rref cols r r' -> Rnode md cols rows n m -> Rarr md rows cols (write a r n) (write h r' m).
Proof.
  intros H [E1 E2] Hn. destruct (Rarr_col _ _ _ _ _ _ _ H E1) as (col & mcol & Ea & Eh & Hc). unfold write. rewrite Ea, Eh, <- E2. eapply Rarr_set; eauto. apply F2_upd; auto.
Qed.

(** ** Shapes and valid references *)
Definition shape_of {A} (a : list (list A)) : list nat := map (@length A) a.
Definition valid (a : narr K jv) (r : ref) : Prop := exists n, deref a r = Ok n.
Lemma valid_shape a a' r : shape_of a = shape_of a' -> valid a r -> valid a' r.
Proof.
  intros E (n & H). unfold valid, deref in *. destruct (nth_error a (fst r)) as [col|] eqn:Ea; [|discriminate].
  assert (E' : nth_error (shape_of a) (fst r) = Some (length col)) by (unfold shape_of; rewrite nth_error_map, Ea; reflexivity). rewrite E in E'. unfold shape_of in E'. rewrite nth_error_map in E'.
  destruct (nth_error a' (fst r)) as [col'|]; [|discriminate]. cbn in E'. injection E' as L. destruct (nth_error col (snd r)) eqn:En; [|discriminate].
  assert (Hl : snd r < length col') by (rewrite L; apply nth_error_Some; congruence). apply nth_error_Some in Hl. destruct (nth_error col' (snd r)); [eauto|congruence].
Qed.
Lemma write_shape (a : narr K jv) r n : shape_of (write a r n) = shape_of a.
Proof.
  unfold write, shape_of. destruct (nth_error a (fst r)) as [col|] eqn:E; auto. rewrite upd_map, upd_length. apply upd_id. rewrite nth_error_map, E. reflexivity.
Qed.
Lemma start_shape (a : narr K jv) s : shape_of (start_column a s) = shape_of a.
Proof. unfold start_column, shape_of. destruct (nth_error a s) as [col|] eqn:E; auto. rewrite upd_map, map_length. apply upd_id. rewrite nth_error_map, E. reflexivity. Qed.
Lemma refs_rel md rows cols a h i b : Rarr md rows cols a h -> nth_error cols i = Some b -> Forall2 (Rref cols) (col_refs a i) (col_refs h b) /\ Forall (valid a) (col_refs a i).
Proof.
  intros H E. destruct (Rarr_col _ _ _ _ _ _ _ H E) as (col & mcol & Ea & Eh & Hc). unfold col_refs. rewrite Ea, Eh, (F2_len _ _ _ Hc). split.
  - induction (seq 0 (length col)); cbn; constructor; auto. split; auto.
  - apply Forall_map, Forall_forall. intros j Ij. apply in_seq in Ij. unfold valid, deref. cbn [fst snd]. rewrite Ea. destruct (nth_error col j) eqn:En; [eauto|]. apply nth_error_None in En. lia.
Qed.
Lemma count_rel md rows cols a h (na : list (nat * nat)) : Rarr md rows cols a h -> cols = map fst na -> m_count h na = count_nodes a.
Proof.
  intros [_ H] ->. revert H. generalize (map fst na) at 1. intros cols. revert a. induction na as [|v na IH]; intros a H; inversion H as [|? ? a' ? (mcol & E & Hc) H']; subst; auto. cbn [m_count count_nodes fold_right]. unfold block_len at 1. rewrite (nth_some _ _ _ _ E), (F2_len _ _ _ Hc). f_equal. apply IH; auto.
Qed.

(** ** Expanding a node *)
Definition Rq cols (a : narr K jv) (q q' : list ref) : Prop := Forall2 (Rref cols) q q' /\ Forall (valid a) q.
Definition Rst md rows cols sh (st : narr K jv * list ref) (st' : narr K ref * list ref) : Prop :=
  Rarr md rows cols (fst st) (fst st') /\ Rq cols (fst st) (snd st) (snd st') /\ shape_of (fst st) = sh.
Definition Rpush md rows cols (push : narr K jv -> list ref -> ref -> list ref) (push' : narr K ref -> list ref -> ref -> res (list ref)) : Prop :=
  forall a h q q' r r', Rarr md rows cols a h -> Rq cols a q q' -> Rref cols r r' -> valid a r -> exists q2, push' h q' r' = Ok q2 /\ Rq cols a (push a q r) q2.
Lemma Rq_shape cols a a' q q' : shape_of a = shape_of a' -> Rq cols a q q' -> Rq cols a' q q'.
Proof. intros E [H1 H2]. split; auto. eapply Forall_impl; [|exact H2]. intros r. apply valid_shape; auto. Qed.
Lemma relax_rel md rows cols sh w push push' cur cur' : md <> Clean -> Rpush md rows cols push push' -> Rref cols cur cur' ->
  forall st st' nb nb', Rst md rows cols sh st st' -> Rref cols nb nb' -> rr (Rst md rows cols sh) (relax1 (fun c n => cost2 sq_acc w n c) push cur st nb) (m_relax sq_acc rows w push' cur' st' nb').
Proof.
  intros Hm Hp Hcur [a q] [h q'] nb nb' (H & Q & E) Hnb. cbn [fst snd] in *. unfold relax1, m_relax.
  pose proof (Rarr_deref _ _ _ _ _ _ _ H Hcur) as D1. destruct (deref a cur) as [n|e|] eqn:Ec; destruct (deref h cur') as [m|e'|]; cbn [rr] in D1; try contradiction; [|cbn; auto|cbn; auto].
  assert (V : rr (fun x y => Rnode md cols rows x y /\ valid a nb) (deref a nb) (deref h nb')). { pose proof (Rarr_deref _ _ _ _ _ _ _ H Hnb) as D2. unfold valid. destruct (deref a nb), (deref h nb'); cbn in *; eauto. }
  cbn [bind]. eapply rr_bind; [exact V|]. intros nn mm [Hn Hv]. destruct D1 as (_ & _ & J1 & D1 & _). destruct Hn as (N1 & N2 & N3 & N4 & N5 & N6).
  unfold m_cost2. rewrite N3, J1. cbn [bind]. destruct (cost2 sq_acc w (n_data nn) (n_data n)) as [c|e|]; cbn; auto. rewrite D1, N4.
  set (nn1 := if clt (cadd (n_dist n) c) (n_dist nn) then _ else nn). set (mm1 := if clt (cadd (n_dist n) c) (n_dist nn) then _ else mm).
  assert (R1 : Rnode md cols rows nn1 mm1). { unfold nn1, mm1. destruct (clt _ _); [|repeat split; auto]. repeat split; cbn; auto. destruct md; cbn; auto; try congruence. }
  assert (Vis : n_visited mm1 = n_visited nn1) by apply R1. rewrite Vis. destruct (n_visited nn1).
  - cbn [rr]. unfold Rst. cbn [fst snd]. split; [apply Rarr_write; auto|]. split; [|rewrite write_shape; auto]. eapply Rq_shape; [|exact Q]. symmetry. apply write_shape.
  - destruct (Hp (write a nb nn1) (write h nb' mm1) q q' nb nb') as (q2 & -> & Q2); auto; [apply Rarr_write; auto|eapply Rq_shape; [symmetry; apply write_shape|exact Q]|eapply valid_shape; [symmetry; apply write_shape|auto]|].
    cbn [bind rr]. unfold Rst. cbn [fst snd]. split; [|split; [|rewrite !write_shape; auto]].
    + assert (R1' := R1). destruct R1 as (S1 & S2 & S3 & S4 & S5 & S6). apply Rarr_write; auto using Rarr_write. repeat split; auto.
    + eapply Rq_shape; [|exact Q2]. symmetry. apply write_shape.
Qed.
Lemma neighbors_rel md rows cols a h (na : list (nat * nat)) n m : Rarr md rows cols a h -> cols = map fst na -> n_pi m = n_pi n -> rr (Forall2 (Rref cols)) (get_neighbors a n) (m_neighbors h na m).
Proof.
  intros H E Ep. unfold get_neighbors, m_neighbors. rewrite Ep. assert (L : length na = length a) by (rewrite <- (Rarr_len _ _ _ _ _ H), E, map_length; auto). rewrite L. destruct (Nat.eqb _ _); [cbn; constructor|].
  destruct (nth_error na (n_pi n + 1)) as [v|] eqn:En.
  - assert (Ec : nth_error cols (n_pi n + 1) = Some (fst v)) by (rewrite E, nth_error_map, En; reflexivity). destruct (Rarr_col _ _ _ _ _ _ _ H Ec) as (col & mcol & -> & _). cbn. apply (refs_rel _ _ _ _ _ _ _ H Ec).
  - apply nth_error_None in En. rewrite L in En. apply nth_error_None in En. rewrite En. reflexivity.
Qed.
Lemma expand_rel md rows cols sh w push push' (na : list (nat * nat)) : md <> Clean -> Rpush md rows cols push push' -> cols = map fst na ->
  forall a h q q' cur cur', Rst md rows cols sh (a, q) (h, q') -> Rref cols cur cur' -> rr (Rst md rows cols sh) (cexpand sq_acc w push a q cur) (m_expand sq_acc rows w push' na h q' cur').
Proof.
  intros Hm Hp E a h q q' cur cur' S Hc. unfold cexpand, m_expand. eapply rr_bind; [eapply Rarr_deref; [apply S|exact Hc]|]. intros n m Hn. eapply rr_bind; [eapply neighbors_rel; [apply S|exact E|apply Hn]|]. intros nb nb' Hnb.
  cbn [fst]. eapply rr_foldM; [|exact Hnb|exact S]. intros. eapply relax_rel; eauto.
Qed.
(** the expanded node must be valid for the number of goals, the queue is *)
Lemma bfs_rel md rows cols sh ex ex' : (forall a h q q' cur cur', Rst md rows cols sh (a, q) (h, q') -> Rref cols cur cur' -> rr (Rst md rows cols sh) (ex a q cur) (ex' h q' cur')) ->
  forall fuel a h q q', Rst md rows cols sh (a, q) (h, q') -> rr (fun a h => Rarr md rows cols a h /\ shape_of a = sh) (bfs_loop ex fuel a q) (bfs_loop ex' fuel h q').
Proof.
  intros H. induction fuel as [|fuel IH]; intros a h q q' S; destruct S as (S1 & [S2 S3] & S4); cbn [fst snd] in *; destruct S2 as [|r r' q q' Hr S2]; cbn [bfs_loop]; try (cbn; auto; fail).
  inversion S3 as [|? ? V S3']; subst. eapply rr_bind; [apply H; [|exact Hr]; split; [exact S1|split; [split; [exact S2|exact S3']|reflexivity]]|]. intros [a2 q2] [h2 q2'] S. apply IH. exact S.
Qed.
Lemma fifo_rel md rows cols : Rpush md rows cols fifo_push m_fifo.
Proof. intros a h q q' r r' H [Q1 Q2] Hr V. eexists. split; [reflexivity|]. unfold fifo_push. split; [apply Forall2_app; auto|apply Forall_app; auto]. Qed.
Lemma start_rel md rows cols a h b : md <> Clean -> Rarr md rows cols a h -> nth_error cols 0 = Some b -> Rarr md rows cols (start_column a 0) (start_column h b).
Proof.
  intros Hm H E. destruct (Rarr_col _ _ _ _ _ _ _ H E) as (col & mcol & Ea & Eh & Hc). unfold start_column. rewrite Ea, Eh. eapply Rarr_set; eauto. clear - Hc Hm. induction Hc as [|n m col mcol (N1 & N2 & N3 & N4 & N5 & N6) _ IH]; constructor; auto. repeat split; cbn; auto. destruct md; cbn; auto; congruence.
Qed.
Lemma search_bfs md rows cols w a h (na : list (nat * nat)) : md <> Clean -> Rarr md rows cols a h -> cols = map fst na ->
  rr (fun a' h' => Rarr md rows cols a' h' /\ shape_of a' = shape_of a) (multi_source_bfs sq_acc w a) (m_bfs sq_acc rows w h na).
Proof.
  intros Hm H E. unfold multi_source_bfs, m_bfs. pose proof (Rarr_len _ _ _ _ _ H) as L. destruct na as [|v na]; destruct a as [|c a]; subst cols; cbn in L; try discriminate; [reflexivity|].
  assert (H0 := start_rel md rows _ _ _ (fst v) Hm H eq_refl). rewrite (count_rel _ _ _ _ _ (v :: na) H0 eq_refl).
  apply (bfs_rel md rows _ (shape_of (c :: a))); [intros; eapply expand_rel; eauto using fifo_rel|]. destruct (refs_rel _ _ _ _ _ 0 (fst v) H0 eq_refl) as [Q1 Q2]. split; [exact H0|]. split; [split; auto|]. apply start_shape.
Qed.

(** ** The priority queue *)
Lemma hnth_some q i r : nth_error q i = Some r -> hnth q i = r.
Proof. apply nth_some. Qed.
Lemma Rq_get md rows cols a h q q' i : Rarr md rows cols a h -> Rq cols a q q' -> i < length q ->
  exists r', hget q' i = Ok r' /\ Rref cols (hnth q i) r' /\ valid a (hnth q i) /\ dist_at h q' i = Ok (dist_of a (hnth q i)).
Proof.
  intros H [Q1 Q2] L. apply nth_error_Some in L. destruct (nth_error q i) as [r|] eqn:E; [|congruence]. destruct (F2_nth _ _ _ Q1 _ _ E) as (r' & E' & Hr). exists r'. unfold dist_at, hget. rewrite E', (hnth_some _ _ _ E). cbn [bind].
  assert (V : valid a r) by (rewrite Forall_forall in Q2; eapply Q2, nth_error_In; eauto). repeat split; try apply Hr; auto. pose proof (Rarr_deref _ _ _ _ _ _ _ H Hr) as D. destruct V as (n & En). unfold dist_of. rewrite En in *. destruct (deref h r') as [m| |]; try contradiction. cbn. f_equal. apply D.
Qed.
Lemma Forall_upd {A} (P : A -> Prop) l : Forall P l -> forall i x, P x -> Forall P (upd l i x).
Proof. induction 1 as [|a l Ha H IH]; intros [|i] x Hx; cbn [upd]; constructor; auto. Qed.
Lemma swap_length q i j : length (swap q i j) = length q.
Proof. unfold swap. rewrite !upd_length. reflexivity. Qed.
Lemma swap_rel md rows cols a h q q' i j : Rarr md rows cols a h -> Rq cols a q q' -> i < length q -> j < length q -> exists q2, hswap q' i j = Ok q2 /\ Rq cols a (swap q i j) q2.
Proof.
  intros H Q Li Lj. destruct (Rq_get _ _ _ _ _ _ _ i H Q Li) as (x & Ex & Rx & Vx & _). destruct (Rq_get _ _ _ _ _ _ _ j H Q Lj) as (y & Ey & Ry & Vy & _). unfold hswap. rewrite Ex, Ey. cbn [bind]. eexists. split; [reflexivity|]. destruct Q as [Q1 Q2].
  unfold swap. split; [apply F2_upd; auto; apply F2_upd; auto|apply Forall_upd; auto; apply Forall_upd; auto].
Qed.
Lemma half_lt hole : 0 < hole -> (hole - 1) / 2 < hole.
Proof. intros H. apply Nat.div_lt_upper_bound; lia. Qed.
Lemma up_rel md rows cols a h : Rarr md rows cols a h -> forall fuel q q' hole, Rq cols a q q' -> hole < length q -> hole < fuel ->
  exists q2, m_up fuel h q' hole = Ok q2 /\ Rq cols a (sift_up fuel a q hole) q2.
Proof.
  intros H. induction fuel as [|fuel IH]; intros q q' hole Q L Lf; [lia|]. cbn [m_up sift_up]. destruct (Nat.ltb_spec 0 hole) as [P|P]; [|eauto]. pose proof (half_lt hole P) as Hh. set (p := (hole - 1) / 2) in *.
  destruct (Rq_get _ _ _ _ _ _ _ hole H Q L) as (x & _ & _ & _ & ->). destruct (Rq_get _ _ _ _ _ _ _ p H Q ltac:(lia)) as (y & _ & _ & _ & ->). cbn [bind]. destruct (clt _ _); [|eauto].
  destruct (swap_rel _ _ _ _ _ _ _ hole p H Q L ltac:(lia)) as (q2 & -> & Q2). cbn [bind]. apply IH; auto; [rewrite swap_length; lia|lia].
Qed.
Lemma down_rel md rows cols a h : Rarr md rows cols a h -> forall fuel q q' hole, Rq cols a q q' -> hole < length q -> length q - hole <= fuel ->
  exists q2, m_down fuel h q' hole = Ok (q2, snd (sift_down fuel a q hole)) /\ Rq cols a (fst (sift_down fuel a q hole)) q2 /\ length (fst (sift_down fuel a q hole)) = length q /\ snd (sift_down fuel a q hole) < length q.
Proof.
  intros H. induction fuel as [|fuel IH]; intros q q' hole Q L Lf; [lia|]. cbn [m_down sift_down]. rewrite (F2_len _ _ _ (proj1 Q)). destruct (Nat.ltb_spec hole ((length q - 1) / 2)) as [P|P].
  - assert (P' : 2 * (hole + 1) < length q) by (pose proof (Nat.mul_div_le (length q - 1) 2 ltac:(lia)); lia). set (c := 2 * (hole + 1)) in *.
    destruct (Rq_get _ _ _ _ _ _ _ (c - 1) H Q ltac:(lia)) as (x & _ & _ & _ & ->). destruct (Rq_get _ _ _ _ _ _ _ c H Q ltac:(lia)) as (y & _ & _ & _ & ->). cbn [bind]. set (c' := if clt _ _ then c - 1 else c). assert (Lc : hole < c' < length q) by (unfold c'; destruct (clt _ _); lia).
    destruct (swap_rel _ _ _ _ _ _ _ hole c' H Q L ltac:(lia)) as (q2 & -> & Q2). cbn [bind]. destruct (IH (swap q hole c') q2 c' Q2) as (q3 & E & Q3 & L3 & L4); [rewrite swap_length; lia|rewrite swap_length; lia|]. exists q3. rewrite swap_length in *. auto.
  - destruct (Nat.even (length q) && (hole =? (length q - 2) / 2) && (1 <? length q)) eqn:B.
    + apply andb_true_iff in B. destruct B as [B B3]. apply andb_true_iff in B. destruct B as [B1 B2]. apply Nat.even_spec in B1. destruct B1 as [k Ek]. apply Nat.eqb_eq in B2. apply Nat.ltb_lt in B3.
      assert (B4 : hole = k - 1). { rewrite B2, Ek. replace (2 * k - 2) with ((k - 1) * 2) by lia. apply Nat.div_mul. lia. }
      destruct (swap_rel _ _ _ _ _ _ _ hole (2 * (hole + 1) - 1) H Q L ltac:(lia)) as (q2 & E & Q2). exists q2. cbn [fst snd]. rewrite E. cbn [bind]. rewrite swap_length. repeat split; auto; try apply Q2. lia.
    + exists q'. cbn [fst snd]. auto.
Qed.
Lemma push_rel md rows cols : Rpush md rows cols (heap_push (K := K) (F := F)) m_push.
Proof.
  intros a h q q' r r' H [Q1 Q2] Hr V. unfold m_push, heap_push. rewrite (F2_len _ _ _ Q1). eapply up_rel; eauto; [split; [apply Forall2_app; auto|apply Forall_app; auto]|rewrite app_length; cbn; lia].
Qed.
Lemma pop_rel md rows cols a h q q' : Rarr md rows cols a h -> Rq cols a q q' ->
  match heap_pop a q with
  | None => m_pop h q' = Ok None
  | Some (r, q1) => exists r' q1', m_pop h q' = Ok (Some (r', q1')) /\ Rref cols r r' /\ valid a r /\ Rq cols a q1 q1'
  end.
Proof.
  intros H [Q1 Q2]. unfold heap_pop, m_pop. destruct Q1 as [|r r' q q' Hr Q1]; [reflexivity|]. inversion Q2 as [|? ? V Q2']; subst. destruct (rev q) as [|l t] eqn:E.
  - assert (q = []) by (apply (f_equal (@rev _)) in E; rewrite rev_involutive in E; exact E). subst q. inversion Q1; subst. cbn. exists r', []. repeat split; auto; apply Hr.
  - assert (Eq : q = rev t ++ [l]) by (apply (f_equal (@rev _)) in E; rewrite rev_involutive in E; exact E). clear E. subst q. apply Forall2_app_inv_l in Q1. destruct Q1 as (t' & l1 & Qt & Ql & ->). inversion Ql as [|? l' ? ? Hl Qn]; subst. inversion Qn; subst. clear Ql Qn.
    rewrite rev_app_distr. cbn [rev app]. rewrite !removelast_last. apply Forall_app in Q2'. destruct Q2' as [Vt Vl]. inversion Vl; subst.
    assert (Q : Rq cols a (l :: rev t) (l' :: t')) by (split; constructor; auto).
    destruct (down_rel _ _ _ _ _ H (length (l :: rev t)) (l :: rev t) (l' :: t') 0 Q ltac:(cbn; lia) ltac:(lia)) as (q2 & E2 & R2 & L2 & L3). replace (length (l' :: t')) with (length (l :: rev t)) by (symmetry; apply (F2_len _ _ _ (proj1 Q))). rewrite E2. cbn [bind].
    destruct (sift_down (length (l :: rev t)) a (l :: rev t) 0) as [s hole]. cbn [fst snd] in *.
    destruct (up_rel _ _ _ _ _ H (length (l :: rev t)) s q2 hole R2 ltac:(lia) L3) as (q3 & -> & R3). cbn [bind]. exists r', q3. repeat split; auto; try apply Hr; apply R3.
Qed.
Lemma dij_rel md rows cols sh w maxp (na : list (nat * nat)) : md <> Clean -> cols = map fst na -> forall fuel a h q q' g, Rst md rows cols sh (a, q) (h, q') ->
  rr (fun x y => Rarr md rows cols (fst x) (fst y) /\ shape_of (fst x) = sh /\ snd x = snd y) (dij_loop sq_acc stl_queue w maxp fuel a q g) (m_dij_loop sq_acc rows w na maxp fuel h q' g).
Proof.
  intros Hm E. induction fuel as [|fuel IH]; intros a h q q' [|g] (S1 & S2 & S3); cbn [fst snd] in *; cbn [dij_loop m_dij_loop]; try (cbn; auto; fail).
  - pose proof (pop_rel _ _ _ _ _ _ _ S1 S2) as P. cbn [pq_pop stl_queue]. destruct (heap_pop a q) as [[r q1]|]; [|rewrite P; cbn; auto]. destruct P as (r' & q1' & -> & _). cbn. auto.
  - pose proof (pop_rel _ _ _ _ _ _ _ S1 S2) as P. cbn [pq_pop stl_queue]. destruct (heap_pop a q) as [[r q1]|]; [|rewrite P; cbn; auto]. destruct P as (r' & q1' & -> & Hr & V & Q1). cbn [bind].
    eapply rr_bind; [eapply Rarr_deref; eauto|]. intros n m Hn. replace (n_pi m) with (n_pi n) by (symmetry; apply Hn).
    eapply rr_bind; [eapply (expand_rel md rows cols sh); eauto; [apply push_rel|split; [exact S1|split; [exact Q1|exact S3]]]|]. intros [a2 q2] [h2 q2'] S. apply IH. exact S.
Qed.
Lemma push_all_rel md rows cols a h : Rarr md rows cols a h -> forall l l', Forall2 (Rref cols) l l' -> Forall (valid a) l -> forall q q', Rq cols a q q' ->
  exists q2, foldM (fun q r => m_push h q r) l' q' = Ok q2 /\ Rq cols a (fold_left (fun q r => pq_push stl_queue a q r) l q) q2.
Proof.
  intros H. induction 1 as [|r r' l l' Hr _ IH]; intros V q q' Q; cbn [foldM fold_left]; [eauto|]. inversion V; subst. destruct (push_rel md rows cols a h q q' r r' H Q Hr ltac:(auto)) as (q2 & -> & Q2). cbn [bind]. apply IH; auto.
Qed.
Lemma search_dij md rows cols w maxp goals a h (na : list (nat * nat)) : md <> Clean -> Rarr md rows cols a h -> cols = map fst na ->
  rr (fun x y => Rarr md rows cols (fst x) (fst y) /\ shape_of (fst x) = shape_of a /\ snd x = snd y) (multi_source_dijkstra sq_acc stl_queue w maxp goals a) (m_dijkstra sq_acc rows w maxp goals h na).
Proof.
  intros Hm H E. unfold multi_source_dijkstra, m_dijkstra. pose proof (Rarr_len _ _ _ _ _ H) as L. destruct na as [|v na]; destruct a as [|c a]; subst cols; cbn in L; try discriminate; [reflexivity|].
  assert (H0 := start_rel md rows _ _ _ (fst v) Hm H eq_refl). rewrite (count_rel _ _ _ _ _ (v :: na) H0 eq_refl). destruct (refs_rel _ _ _ _ _ 0 (fst v) H0 eq_refl) as [Q1 Q2].
  destruct (push_all_rel _ _ _ _ _ H0 _ _ Q1 Q2 [] []) as (q2 & -> & Qq); [split; constructor|]. cbn [bind]. apply dij_rel; auto. split; [exact H0|]. split; [exact Qq|]. apply start_shape.
Qed.

(** ** The path *)
Lemma best_rel rows cols i b : nth_error cols i = Some b -> forall col mcol, Forall2 (Rnode Linked cols rows) col mcol -> forall j d g g', Rlink cols g g' -> Rlink cols (best_goal i j col d g) (m_best_goal b j mcol d g').
Proof.
  intros E. induction 1 as [|n m col mcol Hn _ IH]; intros j d g g' Hg; cbn [best_goal m_best_goal]; auto. destruct Hn as (_ & _ & _ & -> & _). destruct (clt _ _); apply IH; auto. split; auto.
Qed.
Lemma follow_rel rows cols a h : Rarr Linked rows cols a h -> forall fuel p p' acc acc', Rlink cols p p' -> Forall2 (Rlink cols) acc acc' -> rr (Forall2 (Rlink cols)) (cfollow fuel a p acc) (m_follow fuel h p' acc').
Proof.
  intros H. induction fuel as [|fuel IH]; intros p p' acc acc' Hp Ha; destruct p, p'; cbn in Hp; try contradiction; cbn [cfollow m_follow]; try (cbn; auto; fail); try (cbn; constructor; cbn; auto; fail).
  eapply rr_bind; [eapply Rarr_deref; eauto|]. intros n m Hn. destruct Hn as (-> & _ & _ & _ & Hq & _). destruct (Nat.ltb _ _); [apply IH; auto|cbn]; constructor; auto.
Qed.
Lemma path_rel rows cols a h (na : list (nat * nat)) found : Rarr Linked rows cols a h -> cols = map fst na -> rr (Forall2 (Rlink cols)) (get_path_nodes found a) (m_path_nodes found h na).
Proof.
  intros H E. unfold get_path_nodes, m_path_nodes. destruct found; [|cbn; constructor]. pose proof (Rarr_len _ _ _ _ _ H) as L. assert (L' : length na = length a) by (rewrite <- L, E, map_length; reflexivity).
  destruct na as [|v na]; destruct a as [|c a]; cbn in L'; try discriminate; [reflexivity|]. rewrite (count_rel _ _ _ _ _ _ H E). set (i := length (c :: a) - 1). replace (length (v :: na) - 1) with i by (unfold i; cbn; lia).
  assert (Ei : nth_error cols i = Some (fst (nth i (v :: na) (0, 0)))). { rewrite E, nth_error_map. rewrite (nth_error_nth' (v :: na) (0, 0)) by (unfold i; cbn in *; lia). reflexivity. }
  destruct (Rarr_col _ _ _ _ _ _ _ H Ei) as (col & mcol & Ea & Eh & Hc). rewrite (nth_some _ _ [] _ Ea), (nth_some _ _ [] _ Eh). apply (follow_rel rows); auto. apply (best_rel rows); auto. exact I.
Qed.
(** without nodes in the last column both searches end at the null pointer *)
Lemma no_goal md rows cols a h (na : list (nat * nat)) : Rarr md rows cols a h -> cols = map fst na -> a <> [] -> nth (length a - 1) a [] = [] -> get_path_nodes true a = Raise NullDeref /\ m_path_nodes true h na = Raise NullDeref.
Proof.
  intros H E N Z. unfold get_path_nodes, m_path_nodes. pose proof (Rarr_len _ _ _ _ _ H) as L. assert (L' : length na = length a) by (rewrite <- L, E, map_length; reflexivity).
  destruct na as [|v na]; destruct a as [|c a]; cbn in L'; try discriminate; [congruence|]. set (i := length (c :: a) - 1) in *. replace (length (v :: na) - 1) with i by (unfold i; cbn; lia).
  assert (Ei : nth_error cols i = Some (fst (nth i (v :: na) (0, 0)))). { rewrite E, nth_error_map. rewrite (nth_error_nth' (v :: na) (0, 0)) by (unfold i; cbn in *; lia). reflexivity. }
  destruct (Rarr_col _ _ _ _ _ _ _ H Ei) as (col & mcol & Ea & Eh & Hc). rewrite (nth_some _ _ [] _ Eh), Z. rewrite (nth_some _ _ [] _ Ea) in Z. subst col. inversion Hc; subst. cbn. auto.
Qed.
Lemma data_rel rows cols a h p p' : Rarr Linked rows cols a h -> Rlink cols p p' -> pt_data a p = m_pt_data rows h p'.
Proof.
  intros H Hp. destruct p, p'; cbn in Hp; try contradiction; try reflexivity. cbn [pt_data m_pt_data]. pose proof (Rarr_deref _ _ _ _ _ _ _ H Hp) as D. destruct (deref a (i, j)), (deref h (i0, j0)); cbn in *; try contradiction; try congruence. symmetry. apply D.
Qed.
Lemma index_rel rows cols a h p p' : Rarr Linked rows cols a h -> Rlink cols p p' -> pt_index a p = m_pt_index h p'.
Proof.
  intros H Hp. destruct p, p'; cbn in Hp; try contradiction; try reflexivity. cbn [pt_index m_pt_index]. pose proof (Rarr_deref _ _ _ _ _ _ _ H Hp) as D. destruct (deref a (i, j)), (deref h (i0, j0)); cbn in *; try contradiction; try congruence. f_equal. symmetry. apply D.
Qed.
Lemma cost_loop_rel rows cols w a h : Rarr Linked rows cols a h -> forall l l', Forall2 (Rlink cols) l l' -> forall p p' acc, Rlink cols p p' -> path_cost_loop sq_acc w a p l acc = m_path_cost_loop sq_acc rows w h p' l' acc.
Proof.
  intros H. induction 1 as [|x x' l l' Hx _ IH]; intros p p' acc Hp; cbn [path_cost_loop m_path_cost_loop]; auto. rewrite (data_rel _ _ _ _ _ _ H Hx), (data_rel _ _ _ _ _ _ H Hp). destruct (m_pt_data rows h x'); cbn; auto. destruct (m_pt_data rows h p'); cbn; auto. destruct (cost2 _ _ _ _); cbn; auto.
Qed.
Lemma cost_rel rows cols w a h l l' : Rarr Linked rows cols a h -> Forall2 (Rlink cols) l l' -> path_cost sq_acc w a l = m_path_cost sq_acc rows w h l'.
Proof. intros H [|x x' l0 l0' Hx Hl]; cbn; auto. eapply cost_loop_rel; eauto. Qed.
End Sim.
