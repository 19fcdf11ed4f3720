(** * Termination of get_shortest_path_segments (pygraph.py:208-259). *)
From Coq Require Import List Arith Lia Bool.
From Verif Require Import PyBase Cost SpecPath GraphCommon GraphWalks PyGraph PyGraphProofs.
Import ListNotations.
Local Open Scope nat_scope.

(** A deterministic walk s -> next s that stays below L for L steps does so forever. *)
Section Orbit.
Context (L : nat) (next : nat -> option nat).

Fixpoint rb (k s : nat) : bool :=
  Nat.ltb s L && match k with
                 | O => true
                 | S k' => match next s with Some s' => rb k' s' | None => false end
                 end.

Lemma rb_dec k : forall s, rb (S k) s = true -> rb k s = true.
Proof.
  induction k as [|k IH]; intros s H.
  - cbn [rb] in *. destruct (Nat.ltb s L); auto.
  - change (Nat.ltb s L && match next s with Some s' => rb (S k) s' | None => false end = true) in H.
    cbn [rb]. apply andb_true_iff in H. destruct H as [H1 H2]. rewrite H1. simpl.
    destruct (next s); auto.
Qed.

Definition stable k : Prop := forall s, rb (S k) s = rb k s.

Lemma stable_S k : stable k -> stable (S k).
Proof.
  intros H s. 
  change (Nat.ltb s L && match next s with Some s' => rb (S k) s' | None => false end = 
          Nat.ltb s L && match next s with Some s' => rb k s' | None => false end).
  destruct (next s); auto. rewrite H. auto.
Qed.

Lemma stable_add k j : stable k -> forall s, rb (j + k) s = rb k s.
Proof.
  intros H. induction j as [|j IH]; intros s; auto.
  assert (Hs : stable (j + k)) by (clear IH; induction j; simpl; auto using stable_S).
  simpl plus. rewrite Hs. apply IH.
Qed.

Definition cnt k : nat := length (filter (rb k) (seq 0 L)).

Lemma filter_le {A} (f g : A -> bool) l : (forall x, f x = true -> g x = true) ->
  length (filter f l) <= length (filter g l).
Proof.
  intros H. induction l as [|x l IH]; simpl; auto. specialize (H x).
  destruct (f x), (g x); simpl; try lia; try discriminate (H eq_refl).
Qed.
Lemma filter_lt {A} (f g : A -> bool) l : (forall x, f x = true -> g x = true) ->
  (exists x, In x l /\ f x = false /\ g x = true) -> length (filter f l) < length (filter g l).
Proof.
  intros H. induction l as [|x l IH]; intros (y & Hin & Hf & Hg); [destruct Hin|].
  simpl. pose proof (filter_le f g l H) as Hle. destruct Hin as [->|Hin].
  - rewrite Hf, Hg. simpl. lia.
  - assert (length (filter f l) < length (filter g l)) by (apply IH; eauto).
    pose proof (H x). destruct (f x), (g x); simpl; try lia; try discriminate (H eq_refl).
Qed.

Lemma rb_below k s : rb k s = true -> s < L.
Proof. destruct k; cbn [rb]; intros H; apply andb_true_iff in H; destruct H as [H _]; apply Nat.ltb_lt in H; auto. Qed.

Lemma stable_or_less k : stable k \/ cnt (S k) < cnt k.
Proof.
  destruct (existsb (fun s => rb k s && negb (rb (S k) s)) (seq 0 L)) eqn:E.
  - right. apply existsb_exists in E. destruct E as (s & Hin & H). apply andb_true_iff in H.
    destruct H as [H1 H2]. apply negb_true_iff in H2. apply filter_lt.
    + apply rb_dec.
    + exists s; auto.
  - left. intros s. destruct (rb (S k) s) eqn:E1; [rewrite (rb_dec _ _ E1); auto|].
    destruct (rb k s) eqn:E2; auto. exfalso.
    assert (H : existsb (fun s => rb k s && negb (rb (S k) s)) (seq 0 L) = true); [|congruence].
    apply existsb_exists. exists s. split; [apply in_seq; apply rb_below in E2; lia|].
    rewrite E1, E2. reflexivity.
Qed.

Lemma stable_exists : forall n k, cnt k <= n -> exists k', k' <= k + n /\ stable k'.
Proof.
  induction n as [|n IH]; intros k H.
  - destruct (stable_or_less k) as [Hs|Hl]; [exists k; split; auto; lia|lia].
  - destruct (stable_or_less k) as [Hs|Hl]; [exists k; split; auto; lia|].
    destruct (IH (S k)) as (k' & H1 & H2); [lia|]. exists k'. split; auto. lia.
Qed.

Lemma rb_forever s : rb L s = true -> forall k, rb k s = true.
Proof.
  intros H k.
  destruct (stable_exists L 0) as (k0 & Hk & Hs).
  { unfold cnt. etransitivity; [apply (filter_le _ (fun _ => true))|]; auto.
    clear. generalize 0. induction L; intros; simpl; auto. apply le_n_S, IHn. }
  simpl in Hk.
  assert (H0 : rb k0 s = true).
  { replace L with ((L - k0) + k0) in H by lia. rewrite stable_add in H; auto. }
  destruct (le_lt_dec k0 k) as [Hle|Hlt].
  - replace k with ((k - k0) + k0) by lia. rewrite stable_add; auto.
  - clear -Hlt H0. replace k0 with ((k0 - k) + k) in H0 by lia. revert H0. generalize (k0 - k).
    induction n as [|n IH]; simpl plus; auto. intros H. apply IH, rb_dec, H.
Qed.
End Orbit.

Section Seg.
Context {K : CostStruct} {D : Type} (cost : D -> D -> res K) (ct : D -> D -> K).
Context (data : list (list D)) (m : K).
Context (Hcost : forall x y, adjacent data x y -> cost x y = Ok (ct x y)).

Definition next (s : nat) : option nat :=
  match get_shortest_partial_path cost (skipn s data) m with
  | Ok (PpPartial _ _ i) => Some (i + 1)
  | _ => None
  end.

Lemma adjacent_skipn s x y : adjacent (skipn s data) x y -> adjacent data x y.
Proof.
  intros (i & c1 & c2 & H1 & H2 & H3). rewrite nth_error_skipn in H1, H2.
  exists (s + i), c1, c2. rewrite <- H1, <- H2. repeat split; try tauto. f_equal; lia.
Qed.

Lemma partial_ok s : s < length data - 2 -> exists r, get_shortest_partial_path cost (skipn s data) m = Ok r.
Proof.
  intros Hs. destruct (partial_path_spec cost ct (skipn s data)) with (m := m) as (r & H & _); eauto.
  - intros E. apply (f_equal (@length _)) in E. rewrite skipn_length in E. simpl in E. lia.
  - intros x y H. apply Hcost. eapply adjacent_skipn; eauto.
Qed.

Lemma loop_rb fuel : forall s paths starts costs,
  segments_loop cost fuel data m (skipn s data) s paths starts costs = OutOfFuel <->
  rb (length data - 2) next fuel s = true.
Proof.
  induction fuel as [|fuel IH]; intros s paths starts costs; cbn [segments_loop rb].
  - destruct (Nat.ltb s (length data - 2)); simpl; split; congruence.
  - destruct (Nat.ltb_spec s (length data - 2)) as [Hs|Hs]; [|simpl; split; congruence].
    destruct (partial_ok s Hs) as (r & Hr). unfold next. rewrite Hr. cbn [bind andb].
    destruct r; try (split; congruence). apply IH.
Qed.

(** Either the loop ends within (number of columns) - 2 iterations or it never ends. *)
Lemma segments_decided fuel : get_shortest_path_segments cost (length data - 2) data m = OutOfFuel ->
  get_shortest_path_segments cost fuel data m = OutOfFuel.
Proof.
  unfold get_shortest_path_segments. intros H.
  assert (Hl : segments_loop cost (length data - 2) data m (skipn 0 data) 0 [] [] [] = OutOfFuel).
  { simpl skipn. destruct (segments_loop cost (length data - 2) data m data 0 [] [] []) as [[[[[f p] s] c]|]| |]; cbn [bind] in H; try discriminate; auto.
    exfalso. unfold py_index in H. destruct (nth_error p 0); cbn [bind] in H; [|discriminate].
    destruct (nth_error c 0); cbn [bind] in H; [|discriminate]. destruct f; [destruct (length p =? 1)|]; discriminate. }
  apply loop_rb in Hl. pose proof (rb_forever _ _ _ Hl fuel) as Hf.
  apply (loop_rb fuel 0 [] [] []) in Hf. simpl skipn in Hf. rewrite Hf. reflexivity.
Qed.

(** Fuel beyond that bound does not change the result. *)
Lemma segments_loop_mono f : forall cd s p st c r, segments_loop cost f data m cd s p st c = r -> r <> OutOfFuel ->
  forall f', f <= f' -> segments_loop cost f' data m cd s p st c = r.
Proof.
  induction f as [|f IH]; intros cd s p st c r H Hr f' Hf.
  - cbn [segments_loop] in H. destruct (Nat.ltb s (length data - 2)) eqn:E; [congruence|].
    destruct f'; cbn [segments_loop]; rewrite E; auto.
  - destruct f' as [|f']; [lia|]. cbn [segments_loop] in *. destruct (Nat.ltb s (length data - 2)); auto.
    destruct (get_shortest_partial_path cost cd m) as [[|pp cc i|pp cc]| |]; cbn [bind] in *; auto.
    apply IH; auto. lia.
Qed.
End Seg.
