(** * Proofs about planning.py: from cartesian points to joint solutions. *)
From Coq Require Import String List Arith ZArith Lia Bool.
From Verif Require Import PyBase Cost SpecPath GraphCommon CppGraph CppMain Planning PlanningProofs.
Import ListNotations.
Local Open Scope nat_scope.

(** ** Specification vocabulary *)
(** the collision-free ones among the solutions of one ik call *)
Definition free {F} (cc : list F -> bool) (o : option (list (list F))) : list (list F) :=
  match o with Some qs => filter (fun q => negb (cc q)) qs | None => [] end.
(** the float32 array with these rows, or the empty list *)
Definition entry_of {F} (to32 : F -> F) (l : list (list F)) : qent F :=
  match l with [] => QNil | q :: _ => QArr F32 (length q) (map (map to32) l) end.

Section Cart.
Context {F T P S G : Type} (to32 : F -> F) (ik : T -> option (list (list F))) (ik_fix : T -> G -> option (list (list F))).
Context (coll : list F -> S -> bool * S).
Context (samples : P -> nat -> S -> res (list T * S)) (discretise : P -> S -> res (list T * S)).
Context (cc : list F -> bool) (Hcc : forall q s, fst (coll q s) = cc q).

Lemma keep_free_spec : forall qs st acc, fst (keep_free coll qs st acc) = acc ++ filter (fun q => negb (cc q)) qs.
Proof.
  induction qs as [|q qs IH]; intros; cbn [keep_free filter]; [rewrite app_nil_r; reflexivity|].
  pose proof (Hcc q st) as E. destruct (coll q st) as [c st']. cbn in E. subst c. rewrite IH.
  destruct (cc q); cbn [negb]; [reflexivity|]. rewrite <- app_assoc. reflexivity.
Qed.
Lemma collect_spec : forall Ts st acc, fst (collect ik coll Ts st acc) = acc ++ flat_map (fun t => free cc (ik t)) Ts.
Proof.
  induction Ts as [|t Ts IH]; intros; cbn [collect flat_map]; [rewrite app_nil_r; reflexivity|].
  destruct (ik t) as [qs|]; cbn [free app]; [|apply IH].
  pose proof (keep_free_spec qs st acc) as E. destruct (keep_free coll qs st acc) as [a st']. cbn in E. subst a.
  rewrite IH, <- app_assoc. reflexivity.
Qed.
Lemma collect_fix_spec t : forall qf st acc, fst (collect_fix ik_fix coll t qf st acc) = acc ++ flat_map (fun g => free cc (ik_fix t g)) qf.
Proof.
  induction qf as [|g qf IH]; intros; cbn [collect_fix flat_map]; [rewrite app_nil_r; reflexivity|].
  destruct (ik_fix t g) as [qs|]; cbn [free app]; [|apply IH].
  pose proof (keep_free_spec qs st acc) as E. destruct (keep_free coll qs st acc) as [a st']. cbn in E. subst a.
  rewrite IH, <- app_assoc. reflexivity.
Qed.

Lemma pack_Ok l e : pack to32 l = Ok e -> e = entry_of to32 l.
Proof. unfold pack, entry_of. destruct l; [congruence|]. destruct (forallb _ _); congruence. Qed.
Lemma pack_total n l : Forall (fun q => length q = n) l -> pack to32 l = Ok (entry_of to32 l).
Proof.
  intros H. unfold pack, entry_of. destruct l as [|q l]; auto.
  replace (forallb (fun q' => length q' =? length q) (q :: l)) with true; auto.
  symmetry. apply forallb_forall. intros x Hx. rewrite Forall_forall in H. apply Nat.eqb_eq.
  rewrite (H x Hx), (H q); auto. left; auto.
Qed.

(** ** cart_to_joint_no_redundancy *)
Definition sols (Ts : list T) : list (list F) := flat_map (fun t => free cc (ik t)) Ts.

Lemma no_redundancy_sound num : forall path st Q st', cart_to_joint_no_redundancy to32 ik coll samples path num st = Ok (Q, st') ->
  Forall2 (fun tp e => exists s Ts s', samples tp num s = Ok (Ts, s') /\ e = entry_of to32 (sols Ts)) path Q.
Proof. clear ik_fix discretise.
  induction path as [|tp path IH]; intros st Q st' H; cbn [cart_to_joint_no_redundancy] in H.
  - injection H as <- <-. constructor.
  - destruct (samples tp num st) as [[Ts s1]| |] eqn:Es; cbn [bind] in H; try discriminate.
    pose proof (collect_spec Ts s1 []) as Ec. destruct (collect ik coll Ts s1 []) as [l s2]. cbn in Ec. subst l.
    destruct (pack to32 _) as [e| |] eqn:Ep; cbn [bind] in H; try discriminate. apply pack_Ok in Ep.
    destruct (cart_to_joint_no_redundancy _ _ _ _ path num s2) as [[Q' s3]| |] eqn:Er; cbn [bind] in H; try discriminate.
    injection H as <- <-. constructor; [|eapply IH; eauto]. exists st, Ts, s1. auto.
Qed.

Lemma sols_length n : (forall t qs q, ik t = Some qs -> In q qs -> length q = n) -> forall Ts, Forall (fun q => length q = n) (sols Ts).
Proof. clear ik_fix discretise.
  intros Hn Ts. apply Forall_forall. intros q Hq. apply in_flat_map in Hq. destruct Hq as (t & _ & Hq).
  destruct (ik t) eqn:E; cbn [free] in Hq; [|destruct Hq]. apply filter_In in Hq. eapply Hn; eauto. tauto.
Qed.

Lemma no_redundancy_total n num : (forall t qs q, ik t = Some qs -> In q qs -> length q = n) ->
  forall path st, (forall tp s, In tp path -> exists Ts s', samples tp num s = Ok (Ts, s')) ->
  exists Q st', cart_to_joint_no_redundancy to32 ik coll samples path num st = Ok (Q, st').
Proof. clear ik_fix discretise.
  intros Hn. induction path as [|tp path IH]; intros st Hs; cbn [cart_to_joint_no_redundancy]; [eauto|].
  destruct (Hs tp st) as (Ts & s1 & E); [left; auto|]. rewrite E. cbn [bind].
  pose proof (collect_spec Ts s1 []) as Ec. destruct (collect ik coll Ts s1 []) as [l s2]. cbn in Ec. subst l.
  rewrite (pack_total n) by (apply sols_length; auto). cbn [bind].
  destruct (IH s2) as (Q & s3 & E2); [intros; apply Hs; right; auto|]. rewrite E2. cbn [bind]. eauto.
Qed.

(** With a sampler whose draws do not depend on the state the result is one equation. *)
Lemma no_redundancy_fixed n num (draw : P -> list T) : (forall t qs q, ik t = Some qs -> In q qs -> length q = n) ->
  (forall tp s, exists s', samples tp num s = Ok (draw tp, s')) ->
  forall path st, exists st', cart_to_joint_no_redundancy to32 ik coll samples path num st =
    Ok (map (fun tp => entry_of to32 (flat_map (fun t => free cc (ik t)) (draw tp))) path, st').
Proof. clear ik_fix discretise.
  intros Hn Hd path st. destruct (no_redundancy_total n num Hn path st) as (Q & st' & E).
  { intros tp s _. destruct (Hd tp s) as (s' & ->). eauto. }
  exists st'. rewrite E. do 2 f_equal. apply no_redundancy_sound in E.
  induction E as [|tp e path' Q' H _ IH]; [reflexivity|]. cbn [map]. f_equal; auto.
  destruct H as (s & Ts & s' & H1 & ->). destruct (Hd tp s) as (s'' & E). rewrite E in H1. injection H1 as <- _. reflexivity.
Qed.

(** ** cart_to_joint_simple *)
Definition fsols (qf : list G) (t : T) : list (list F) := flat_map (fun g => free cc (ik_fix t g)) qf.
Lemma simple_samples_spec qf : forall Ts t0 st o, fst (simple_samples ik_fix coll (Ts ++ [t0]) qf st o) = Some (fsols qf t0).
Proof.
  induction Ts as [|t Ts IH]; intros; cbn [simple_samples app].
  - pose proof (collect_fix_spec t0 qf st []) as Ec. destruct (collect_fix ik_fix coll t0 qf st []) as [l s2]. cbn in Ec. subst l. reflexivity.
  - destruct (collect_fix ik_fix coll t qf st []). apply IH.
Qed.

Lemma simple_last qf : forall path st o Q st',
  (forall tp s Ts s', In tp path -> discretise tp s = Ok (Ts, s') -> Ts <> []) ->
  cart_to_joint_simple to32 ik_fix coll discretise path qf st o = Ok (Q, st') ->
  Forall2 (fun tp e => exists s Ts t s', discretise tp s = Ok (Ts ++ [t], s') /\ e = entry_of to32 (fsols qf t)) path Q.
Proof. clear ik samples.
  induction path as [|tp path IH]; intros st o Q st' Hne H; cbn [cart_to_joint_simple] in H.
  - injection H as <- <-. constructor.
  - destruct (discretise tp st) as [[Ts s1]| |] eqn:Es; cbn [bind] in H; try discriminate.
    pose proof (Hne tp st Ts s1 (or_introl eq_refl) Es) as Hn.
    destruct (exists_last Hn) as (Ts' & t & ->).
    pose proof (simple_samples_spec qf Ts' t s1 o) as Ec. destruct (simple_samples ik_fix coll (Ts' ++ [t]) qf s1 o) as [l s2]. cbn in Ec. subst l.
    destruct (pack to32 _) as [e| |] eqn:Ep; cbn [bind] in H; try discriminate. apply pack_Ok in Ep.
    destruct (cart_to_joint_simple _ _ _ _ path qf s2 _) as [[Q' s3]| |] eqn:Er; cbn [bind] in H; try discriminate.
    injection H as <- <-. constructor.
    + exists st, Ts', t, s1. auto.
    + eapply IH; eauto. intros. eapply Hne; eauto. right; auto.
Qed.

Lemma simple_one_sample qf path st o Q st' : 
  (forall tp s Ts s', In tp path -> discretise tp s = Ok (Ts, s') -> length Ts = 1) ->
  cart_to_joint_simple to32 ik_fix coll discretise path qf st o = Ok (Q, st') ->
  Forall2 (fun tp e => exists s Ts s', discretise tp s = Ok (Ts, s') /\ e = entry_of to32 (flat_map (fsols qf) Ts)) path Q.
Proof. clear ik samples.
  intros H1 H. assert (Hne : forall tp s Ts s', In tp path -> discretise tp s = Ok (Ts, s') -> Ts <> []).
  { intros tp s Ts s' Hin E ->. apply H1 in E; auto. discriminate. }
  pose proof (simple_last qf path st o Q st' Hne H) as H2. clear H Hne.
  induction H2 as [|tp e path' Q' He Hr IH]; constructor.
  - destruct He as (s & Ts & t & s' & E & ->). exists s, (Ts ++ [t]), s'. split; auto.
    apply H1 in E; [|left; auto]. rewrite app_length in E. cbn in E. destruct Ts as [|]; [|cbn in E; lia].
    cbn [app flat_map]. rewrite app_nil_r. reflexivity.
  - apply IH. intros. eapply H1; eauto. right; auto.
Qed.

(** a first point without samples: the variable q_sol is unbound *)
Lemma simple_unbound tp path qf st s' : discretise tp st = Ok ([], s') ->
  cart_to_joint_simple to32 ik_fix coll discretise (tp :: path) qf st None = Raise UnboundLocalError.
Proof. intros E. cbn [cart_to_joint_simple]. rewrite E. reflexivity. Qed.

(** ** cart_to_joint_incremental *)
Definition drawn (tp : P) (t : T) : Prop := exists s Ts s', samples tp 1 s = Ok (Ts, s') /\ nth_error Ts 0 = Some t.

Lemma inc_loop_spec tp mn mx : forall fuel st q0 cnt q' st', inc_loop ik coll samples fuel tp mn mx st q0 cnt = Ok (q', st') -> cnt = length q0 ->
  exists Ts, Forall (drawn tp) Ts /\ q' = q0 ++ sols Ts /\ Nat.min mn mx <= length q' /\
    forall Ts1 t Ts2, Ts = Ts1 ++ t :: Ts2 -> length (q0 ++ sols Ts1) < mx /\ (Ts1 <> [] -> length (q0 ++ sols Ts1) < mn).
Proof. clear ik_fix discretise.
  induction fuel as [|fuel IH]; intros st q0 cnt q' st' H Hcnt; cbn [inc_loop] in H.
  - destruct (Nat.ltb_spec cnt mx); [discriminate|]. injection H as <- <-. exists []. cbn. rewrite app_nil_r.
    repeat split; auto; try lia; destruct Ts1; discriminate.
  - destruct (Nat.ltb_spec cnt mx).
    2:{ injection H as <- <-. exists []. cbn. rewrite app_nil_r. repeat split; auto; try lia; destruct Ts1; discriminate. }
    destruct (samples tp 1 st) as [[Ts s1]| |] eqn:Es; cbn [bind] in H; try discriminate.
    destruct (py_index Ts 0) as [t| |] eqn:Et; cbn [bind] in H; try discriminate. apply py_index_Ok in Et.
    assert (Hd : drawn tp t) by (exists st, Ts, s1; auto).
    match type of H with context[let '(_, _) := ?x in _] => assert (Ef : fst x = q0 ++ free cc (ik t)); [|destruct x as [q1 s2]] end.
    { destruct (ik t) as [qs|]; cbn [free fst]; [apply keep_free_spec|rewrite app_nil_r; reflexivity]. }
    cbn [fst] in Ef. subst q1.
    assert (El : cnt + (length (q0 ++ free cc (ik t)) - length q0) = length (q0 ++ free cc (ik t))) by (rewrite app_length; lia).
    rewrite El in H. destruct (Nat.leb_spec mn (length (q0 ++ free cc (ik t)))) as [Hle|Hgt].
    + injection H as <- <-. exists [t]. unfold sols. cbn [flat_map]. rewrite app_nil_r.
      split; [auto|]. split; [auto|]. split; [lia|]. intros Ts1 t' Ts2 E. destruct Ts1 as [|x [|y Ts1]]; cbn in E; try discriminate.
      cbn. rewrite app_nil_r. split; [lia|congruence].
    + destruct (IH _ _ _ _ _ H eq_refl) as (Ts' & H1 & -> & H3 & H4). exists (t :: Ts').
      split; [auto|]. split; [unfold sols; cbn [flat_map]; rewrite <- app_assoc; reflexivity|]. split; auto.
      intros Ts1 t' Ts2 E. destruct Ts1 as [|x Ts1]; cbn in E.
      * cbn. rewrite app_nil_r. split; [lia|congruence].
      * injection E as <- E. destruct (H4 _ _ _ E) as [H5 H6]. unfold sols in *. cbn [flat_map]. rewrite app_assoc. split; auto.
        intros _. destruct Ts1 as [|y Ts1]; [cbn; rewrite app_nil_r; auto|apply H6; discriminate].
Qed.

Lemma incremental_enough fuel mn mx : forall path st Q st', cart_to_joint_incremental to32 ik coll samples fuel path mn mx st = Ok (Q, st') ->
  Forall2 (fun tp e => exists Ts, Forall (drawn tp) Ts /\ e = entry_of to32 (sols Ts) /\ Nat.min mn mx <= length (sols Ts) /\
    forall Ts1 t Ts2, Ts = Ts1 ++ t :: Ts2 -> length (sols Ts1) < mx /\ (Ts1 <> [] -> length (sols Ts1) < mn)) path Q.
Proof. clear ik_fix discretise.
  induction path as [|tp path IH]; intros st Q st' H; cbn [cart_to_joint_incremental] in H.
  - injection H as <- <-. constructor.
  - destruct (inc_loop _ _ _ fuel tp mn mx st [] 0) as [[l s1]| |] eqn:Es; cbn [bind] in H; try discriminate.
    destruct (pack to32 l) as [e| |] eqn:Ep; cbn [bind] in H; try discriminate. apply pack_Ok in Ep.
    destruct (cart_to_joint_incremental _ _ _ _ _ path _ _ s1) as [[Q' s3]| |] eqn:Er; cbn [bind] in H; try discriminate.
    injection H as <- <-. constructor; [|eapply IH; eauto].
    destruct (inc_loop_spec _ _ _ _ _ _ _ _ _ Es eq_refl) as (Ts & H1 & -> & H3 & H4). exists Ts. repeat split; auto; apply (H4 _ _ _ H).
Qed.

(** no collision-free solution for any sample: the loop never stops *)
Lemma inc_diverges tp mn mx : 0 < mn -> 0 < mx -> (forall s, exists t Ts s', samples tp 1 s = Ok (t :: Ts, s') /\ free cc (ik t) = []) ->
  forall fuel st, inc_loop ik coll samples fuel tp mn mx st [] 0 = OutOfFuel.
Proof. clear ik_fix discretise.
  intros Hmn Hmx Hs. induction fuel as [|fuel IH]; intros st; cbn [inc_loop]; destruct (Nat.ltb_spec 0 mx); try lia; auto.
  destruct (Hs st) as (t & Ts & s' & E & Hf). rewrite E. cbn [bind py_index nth_error]. unfold py_index. cbn [nth_error bind].
  match goal with |- context[let '(_, _) := ?x in _] => assert (Ef : fst x = []); [|destruct x as [q1 s2]] end.
  { destruct (ik t) as [qs|]; cbn [free fst] in *; [|auto]. rewrite keep_free_spec. exact Hf. }
  cbn [fst] in Ef. subst q1. cbn [length Nat.sub Nat.add]. destruct (Nat.leb_spec mn 0); [lia|]. apply IH.
Qed.
Lemma incremental_diverges tp path mn mx : 0 < mn -> 0 < mx ->
  (forall s, exists t Ts s', samples tp 1 s = Ok (t :: Ts, s') /\ free cc (ik t) = []) ->
  forall fuel st, cart_to_joint_incremental to32 ik coll samples fuel (tp :: path) mn mx st = OutOfFuel.
Proof. clear ik_fix discretise. intros. cbn [cart_to_joint_incremental]. rewrite inc_diverges; auto. Qed.

(** every sample gives a solution: max_tries rounds suffice *)
Lemma inc_stops tp mn mx : (forall s, exists t Ts s', samples tp 1 s = Ok (t :: Ts, s') /\ free cc (ik t) <> []) ->
  forall fuel st q0, mx - length q0 <= fuel -> exists q' st', inc_loop ik coll samples fuel tp mn mx st q0 (length q0) = Ok (q', st').
Proof. clear ik_fix discretise.
  intros Hs. induction fuel as [|fuel IH]; intros st q0 Hf; cbn [inc_loop]; destruct (Nat.ltb_spec (length q0) mx); eauto; try lia.
  destruct (Hs st) as (t & Ts & s' & E & Hfr). rewrite E. cbn [bind]. unfold py_index. cbn [nth_error bind].
  match goal with |- context[let '(_, _) := ?x in _] => assert (Ef : fst x = q0 ++ free cc (ik t)); [|destruct x as [q1 s2]] end.
  { destruct (ik t) as [qs|]; cbn [free fst] in *; [apply keep_free_spec|congruence]. }
  cbn [fst] in Ef. subst q1.
  assert (El : length q0 + (length (q0 ++ free cc (ik t)) - length q0) = length (q0 ++ free cc (ik t))) by (rewrite app_length; lia).
  rewrite El. destruct (mn <=? _); eauto. apply IH. rewrite app_length. destruct (free cc (ik t)); [congruence|]. cbn [length]. lia.
Qed.
Lemma incremental_stops n mn mx : (forall t qs q, ik t = Some qs -> In q qs -> length q = n) -> 
  forall path, (forall tp s, In tp path -> exists t Ts s', samples tp 1 s = Ok (t :: Ts, s') /\ free cc (ik t) <> []) ->
  forall st, exists Q st', cart_to_joint_incremental to32 ik coll samples mx path mn mx st = Ok (Q, st').
Proof. clear ik_fix discretise.
  intros Hn. induction path as [|tp path IH]; intros Hs st; cbn [cart_to_joint_incremental]; [eauto|].
  destruct (inc_stops tp mn mx (fun s => Hs tp s (or_introl eq_refl)) mx st []) as (q & s1 & E); [cbn; lia|].
  cbn [length] in E. rewrite E. cbn [bind].
  destruct (inc_loop_spec _ _ _ _ _ _ _ _ _ E eq_refl) as (Ts & _ & -> & _). cbn [app].
  rewrite (pack_total n) by (apply sols_length; auto). cbn [bind].
  destruct (IH (fun tp' s H => Hs tp' s (or_intror H)) s1) as (Q & s3 & E2). rewrite E2. cbn [bind]. eauto.
Qed.
End Cart.
