(** * Proofs about geometry.py. *)
From Coq Require Import Reals Lra List Bool Arith Lia ClassicalDescription.
From Verif Require Import PyBase Mat Util UtilProofs Geometry.
Import ListNotations.
Local Open Scope R_scope.

(** ** Specification: the points of a box *)
Definition local_in (s : shape) (l : vec3) : Prop := Rabs (vx l) <= dx s / 2 /\ Rabs (vy l) <= dy s / 2 /\ Rabs (vz l) <= dz s / 2.
Definition in_box (s : shape) (T : mat4) (x : vec3) : Prop := exists l, local_in s l /\ x = tapply T l.
Definition satisfies (p : polyhedron) (x : vec3) : Prop := Forall2 (fun a b => vdot a x <= b) (pA p) (pb p).

Lemma rigid_tapply_inv T x : rigid T -> tapply T (tapply (tf_inverse T) x) = x.
Proof.
  intros H. rewrite <- tapply_tmul by (auto; apply tf_inverse_rigid; auto). rewrite tf_inverse_r by auto. unfold tapply. cbn. vring.
Qed.
Lemma rigid_tapply_inv' T x : rigid T -> tapply (tf_inverse T) (tapply T x) = x.
Proof.
  intros H. rewrite <- tapply_tmul by (auto; apply tf_inverse_rigid; auto). rewrite tf_inverse_l by auto. unfold tapply. cbn. vring.
Qed.
Lemma in_box_local s T x : rigid T -> in_box s T x <-> local_in s (tapply (tf_inverse T) x).
Proof.
  intros H. split.
  - intros (l & Hl & ->). rewrite rigid_tapply_inv' by auto. auto.
  - intros Hl. exists (tapply (tf_inverse T) x). split; auto. rewrite rigid_tapply_inv; auto.
Qed.

Lemma Rabs_le_iff a b : Rabs a <= b <-> a <= b /\ - a <= b.
Proof. unfold Rabs. destruct (Rcase_abs a); lra. Qed.

Lemma half : 0.5 = / 2. Proof. lra. Qed.
Lemma satisfies_rows s T x : satisfies (get_polyhedron s T) x <->
  let l := mapply (mtr (rot T)) (vsub x (pos T)) in local_in s l.
Proof.
  unfold satisfies, get_polyhedron, get_normals, local_in. cbn [pA pb map combine fst snd]. rewrite !Rabs_le_iff, half.
  destruct T as [[a b c d e f g h i] [u v w] br bw]. destruct x as [x y z].
  munf. split.
  - intros H. inversion H as [|? ? ? ? H1 T1]; subst. inversion T1 as [|? ? ? ? H2 T2]; subst. inversion T2 as [|? ? ? ? H3 T3]; subst.
    inversion T3 as [|? ? ? ? H4 T4]; subst. inversion T4 as [|? ? ? ? H5 T5]; subst. inversion T5 as [|? ? ? ? H6 T6]; subst.
    munf; repeat split; lra.
  - intros ((H1 & H2) & (H3 & H4) & (H5 & H6)). repeat (apply Forall2_cons || apply Forall2_nil); munf; lra.
Qed.
Lemma tf_inverse_apply T x : tapply (tf_inverse T) x = mapply (mtr (rot T)) (vsub x (pos T)).
Proof. unfold tf_inverse, tapply. cbn [rot pos]. destruct T as [A p b w]. cbn [rot pos]. vring. Qed.
(** C72 *)
Lemma polyhedron_local s T x : satisfies (get_polyhedron s T) x <-> local_in s (tapply (tf_inverse T) x).
Proof. rewrite satisfies_rows, tf_inverse_apply. reflexivity. Qed.
Lemma polyhedron_box s T x : rigid T -> satisfies (get_polyhedron s T) x <-> in_box s T x.
Proof. intros H. rewrite polyhedron_local, in_box_local by auto. reflexivity. Qed.
Lemma polyhedrons_box c x : Forall rigid (c_tf c) ->
  (exists p, In p (get_polyhedrons c) /\ satisfies p x) <-> exists i s T, nth_error (c_s c) i = Some s /\ nth_error (c_tf c) i = Some T /\ in_box s T x.
Proof.
  intros H. destruct c as [ss ts]. unfold get_polyhedrons. cbn [c_s c_tf] in *. revert ts H. induction ss as [|s ss IH]; intros ts H.
  - cbn. split; [intros (p & [] & _)|]. intros ([|i] & s & T & E & _); discriminate.
  - destruct ts as [|t ts].
    + cbn. split; [intros (p & [] & _)|]. intros ([|i] & s' & T & _ & E & _); discriminate.
    + inversion H; subst. cbn [combine map]. specialize (IH ts H3). split.
      * intros (p & [<-|Hin] & Hp).
        -- exists 0%nat, s, t. cbn. rewrite <- polyhedron_box by auto. auto.
        -- destruct IH as [IH _]. destruct IH as (i & s' & T & E); [eauto|]. exists (S i), s', T. auto.
      * intros ([|i] & s' & T & E1 & E2 & Hb).
        -- cbn in E1, E2. injection E1 as <-. injection E2 as <-. eexists. split; [left; reflexivity|]. apply polyhedron_box; auto.
        -- destruct IH as [_ IH]. destruct IH as (p & Hin & Hp); [exists i, s', T; auto|]. exists p. split; auto. right; auto.
Qed.

(** ** vertices and edges *)
(** corners named by the signs of their coordinates *)
Definition sgn (b : bool) (r : R) : R := if b then r else - r.
Definition corner (s : shape) (c : bool * bool * bool) : vec3 :=
  let '(a, b, d) := c in V3 (sgn a (dx s / 2)) (sgn b (dy s / 2)) (sgn d (dz s / 2)).
Definition corners8 : list (bool * bool * bool) :=
  [(false, true, true); (false, true, false); (false, false, true); (false, false, false);
   (true, true, true); (true, true, false); (true, false, true); (true, false, false)].
Lemma vertices_corners s T : exists cs, get_vertices s T = map (fun c => tapply T (corner s c)) cs /\ NoDup cs /\ forall c, In c cs.
Proof.
  exists corners8. split; [reflexivity|]. split.
  - unfold corners8. repeat constructor; cbn; intuition congruence.
  - intros [[[] []] []]; cbn; auto 10.
Qed.
Lemma corner_local s c : 0 <= dx s -> 0 <= dy s -> 0 <= dz s -> local_in s (corner s c).
Proof.
  intros. destruct c as [[a b] d]. unfold local_in, corner. cbn [vx vy vz].
  repeat split; (destruct a, b, d; cbn [sgn]; rewrite ?Rabs_Ropp, Rabs_pos_eq; lra).
Qed.
Lemma vertices_inside s T : rigid T -> 0 <= dx s -> 0 <= dy s -> 0 <= dz s -> Forall (satisfies (get_polyhedron s T)) (get_vertices s T).
Proof.
  intros HT H1 H2 H3. destruct (vertices_corners s T) as (cs & -> & _). apply Forall_map, Forall_forall. intros c _.
  apply polyhedron_box; auto. exists (corner s c). split; auto. apply corner_local; auto.
Qed.

(** corners that differ in exactly one coordinate *)
Definition neighbours (c c' : bool * bool * bool) : Prop :=
  let '(a, b, d) := c in let '(a', b', d') := c' in
  (a <> a' /\ b = b' /\ d = d') \/ (a = a' /\ b <> b' /\ d = d') \/ (a = a' /\ b = b' /\ d <> d').
Definition nc (i : nat) := nth i corners8 (true, true, true).
Definition edges12 : list ((bool * bool * bool) * (bool * bool * bool)) :=
  [ (nc 0, nc 1); (nc 1, nc 3); (nc 3, nc 2); (nc 2, nc 0); (nc 0, nc 4); (nc 1, nc 5); (nc 3, nc 7); (nc 2, nc 6);
    (nc 4, nc 5); (nc 5, nc 7); (nc 7, nc 6); (nc 6, nc 4) ].
Lemma edges_spec s T : exists es,
  get_edges s T = map (fun e => (tapply T (corner s (fst e)), tapply T (corner s (snd e)))) es /\ NoDup es /\ length es = 12%nat /\
  (forall c c', neighbours c c' <-> In (c, c') es \/ In (c', c) es) /\
  (forall c c', In (c, c') es -> ~ In (c', c) es).
Proof.
  exists edges12. split; [reflexivity|]. split; [|split; [reflexivity|split]].
  - unfold edges12. cbn. repeat constructor; cbn; intuition congruence.
  - intros [[a b] d] [[a' b'] d']. unfold edges12. cbn. destruct a, b, d, a', b', d'; cbn; intuition congruence.
  - intros [[a b] d] [[a' b'] d']. unfold edges12. cbn. destruct a, b, d, a', b', d'; cbn; intuition congruence.
Qed.
Lemma tapply_dist T x y : rotation (rot T) -> norm2 (vsub (tapply T x) (tapply T y)) = norm2 (vsub x y).
Proof.
  intros H. rewrite <- (rotation_norm (rot T) (vsub x y)) by auto. f_equal. unfold tapply. destruct T as [A p b w]. cbn [rot pos]. vring.
Qed.
Lemma edge_length s T c c' : rotation (rot T) -> neighbours c c' ->
  norm2 (vsub (tapply T (corner s c)) (tapply T (corner s c'))) =
  let '(a, b, d) := c in let '(a', b', d') := c' in
  if negb (eqb a a') then dx s * dx s else if negb (eqb b b') then dy s * dy s else dz s * dz s.
Proof.
  intros H Hn. rewrite tapply_dist by auto. destruct c as [[a b] d], c' as [[a' b'] d']. unfold neighbours in Hn.
  destruct a, b, d, a', b', d'; try (exfalso; intuition congruence); cbn [eqb negb corner sgn]; munf; field.
Qed.

(** ** Collections *)
Section Coll.
Context (prim : shape -> mat3 -> vec3 -> shape -> mat3 -> vec3 -> bool).
Notation is_in_collision := (is_in_collision prim).
Notation shape_collision := (shape_collision prim).

Lemma inner_loop_true tf1 s1 l : inner_loop prim tf1 s1 l = true <-> exists tf2 s2, In (tf2, s2) l /\ shape_collision s1 tf1 s2 tf2 = true.
Proof.
  induction l as [|[t s] l IH]; cbn [inner_loop].
  - split; [discriminate|]. intros (? & ? & [] & _).
  - destruct (shape_collision s1 tf1 s t) eqn:E.
    + split; auto. intros _. exists t, s. split; auto. left; auto.
    + rewrite IH. split.
      * intros (a & b & Hin & H). exists a, b. split; auto. right; auto.
      * intros (a & b & [Heq|Hin] & H); [|eauto]. injection Heq as <- <-. congruence.
Qed.
Lemma outer_loop_true l l2 : outer_loop prim l l2 = true <-> exists tf1 s1 tf2 s2, In (tf1, s1) l /\ In (tf2, s2) l2 /\ shape_collision s1 tf1 s2 tf2 = true.
Proof.
  induction l as [|[t s] l IH]; cbn [outer_loop].
  - split; [discriminate|]. intros (? & ? & ? & ? & [] & _).
  - destruct (inner_loop prim t s l2) eqn:E.
    + split; auto. intros _. apply inner_loop_true in E. destruct E as (a & b & Hin & H). exists t, s, a, b. split; auto. left; auto.
    + rewrite IH. split.
      * intros (a & b & c & d & Hin & H). exists a, b, c, d. split; auto. right; auto.
      * intros (a & b & c & d & [Heq|Hin] & Hin2 & H); [|exists a, b, c, d; auto]. injection Heq as <- <-.
        assert (inner_loop prim t s l2 = true) by (apply inner_loop_true; eauto). congruence.
Qed.
Lemma In_combine {A B} (l : list A) (l' : list B) x y : In (x, y) (combine l l') <-> exists i, nth_error l i = Some x /\ nth_error l' i = Some y.
Proof.
  revert l'. induction l as [|a l IH]; intros [|b l']; cbn [combine].
  - split; [intros []|]. intros ([|i] & E & _); discriminate.
  - split; [intros []|]. intros ([|i] & E & _); discriminate.
  - split; [intros []|]. intros ([|i] & _ & E); discriminate.
  - split.
    + intros [E|Hin]; [injection E as <- <-; exists 0%nat; auto|]. apply IH in Hin. destruct Hin as (i & E). exists (S i). auto.
    + intros ([|i] & E1 & E2); cbn in E1, E2; [left; congruence|]. right. apply IH. eauto.
Qed.
(** the place of a shape: its own transform, moved by the optional frame *)
Definition place (o : option mat4) (T : mat4) : mat4 := match o with Some M => tmul M T | None => T end.
Lemma moved_place o l : moved o l = map (place o) l.
Proof. destruct o; cbn [moved]; auto. symmetry. erewrite map_ext; [apply map_id|]. reflexivity. Qed.
(** shape i of a collection together with its transform *)
Definition member (c : coll) (s : shape) (T : mat4) : Prop := exists i, nth_error (c_s c) i = Some s /\ nth_error (c_tf c) i = Some T.

(** C74 *)
Lemma collision_pairs c c' o o' : is_in_collision c c' o o' = true <->
  exists s T s' T', member c s T /\ member c' s' T' /\ shape_collision s (place o T) s' (place o' T') = true.
Proof.
  unfold Geometry.is_in_collision. rewrite outer_loop_true, !moved_place.
  assert (Hm : forall c o t s, In (t, s) (combine (map (place o) (c_tf c)) (c_s c)) <-> exists T, t = place o T /\ member c s T).
  { intros d p t s. rewrite In_combine. unfold member. split.
    - intros (i & E1 & E2). rewrite nth_error_map in E1. destruct (nth_error (c_tf d) i) as [T|] eqn:E; [|discriminate]. injection E1 as <-. eauto 6.
    - intros (T & -> & i & E1 & E2). exists i. rewrite nth_error_map, E2. auto. }
  split.
  - intros (t1 & s1 & t2 & s2 & H1 & H2 & H). apply Hm in H1, H2. destruct H1 as (T1 & -> & M1), H2 as (T2 & -> & M2). exists s1, T1, s2, T2. auto.
  - intros (s1 & T1 & s2 & T2 & M1 & M2 & H). exists (place o T1), s1, (place o' T2), s2. split; [apply Hm; eauto|]. split; [apply Hm; eauto|]. auto.
Qed.

(** ** Exact box test *)
Definition exact_prim : Prop := forall s T s' T', rigid T -> rigid T' ->
  (prim s (rot T) (pos T) s' (rot T') (pos T') = true <-> exists x, in_box s T x /\ in_box s' T' x).
Definition rigid_coll (c : coll) : Prop := Forall rigid (c_tf c).
Definition rigid_opt (o : option mat4) : Prop := match o with Some T => rigid T | None => True end.
(** the points of a moved collection *)
Definition in_coll (c : coll) (o : option mat4) (x : vec3) : Prop := exists s T, member c s T /\ in_box s (place o T) x.

Lemma place_rigid c o s T : rigid_coll c -> rigid_opt o -> member c s T -> rigid (place o T).
Proof.
  intros Hc Ho (i & _ & E). apply nth_error_In in E. unfold rigid_coll in Hc. rewrite Forall_forall in Hc.
  destruct o; cbn in *; [apply rigid_tmul|]; auto.
Qed.
Lemma collision_points c c' o o' : exact_prim -> rigid_coll c -> rigid_coll c' -> rigid_opt o -> rigid_opt o' ->
  (is_in_collision c c' o o' = true <-> exists x, in_coll c o x /\ in_coll c' o' x).
Proof.
  intros He H1 H2 H3 H4. rewrite collision_pairs. split.
  - intros (s & T & s' & T' & M & M' & H).
    assert (R : rigid (place o T)) by (eapply (place_rigid c); eauto). assert (R' : rigid (place o' T')) by (eapply (place_rigid c'); eauto).
    apply (He s (place o T) s' (place o' T') R R') in H. destruct H as (x & Hx & Hx'). exists x. split; [exists s, T|exists s', T']; auto.
  - intros (x & (s & T & M & Hx) & (s' & T' & M' & Hx')). exists s, T, s', T'. split; auto. split; auto. apply He; [eapply (place_rigid c); eauto|eapply (place_rigid c'); eauto|eauto].
Qed.
Lemma bool_eq_iff (a b : bool) : (a = true <-> b = true) -> a = b.
Proof. destruct a, b; intuition congruence. Qed.
Lemma collision_sym c c' o o' : exact_prim -> rigid_coll c -> rigid_coll c' -> rigid_opt o -> rigid_opt o' ->
  is_in_collision c c' o o' = is_in_collision c' c o' o.
Proof. intros. apply bool_eq_iff. rewrite !collision_points by auto. split; intros (x & A & B); eauto. Qed.

(** both moved by G: the frame None stands for the identity *)
Definition compose (G : mat4) (o : option mat4) : option mat4 := Some (match o with Some T => tmul G T | None => G end).
Lemma in_box_move s G T x : rigid G -> rigid T -> in_box s (tmul G T) (tapply G x) <-> in_box s T x.
Proof.
  intros HG HT. unfold in_box. split; intros (l & Hl & E); exists l; split; auto.
  - rewrite tapply_tmul in E by auto. rewrite <- (rigid_tapply_inv' G x), <- (rigid_tapply_inv' G (tapply T l)) by auto. congruence.
  - rewrite tapply_tmul by auto. congruence.
Qed.
Lemma place_compose G o T : place (compose G o) T = tmul G (place o T).
Proof. destruct o; cbn; [apply tmul_assoc|reflexivity]. Qed.
Lemma collision_frame G c c' o o' : exact_prim -> rigid G -> rigid_coll c -> rigid_coll c' -> rigid_opt o -> rigid_opt o' ->
  is_in_collision c c' (compose G o) (compose G o') = is_in_collision c c' o o'.
Proof.
  intros He HG H1 H2 H3 H4. assert (Hr : forall o, rigid_opt o -> rigid_opt (compose G o)) by (intros [T|] H; cbn; auto; apply rigid_tmul; auto).
  apply bool_eq_iff. rewrite !collision_points by auto. split.
  - intros (x & (s & T & M & Hx) & (s' & T' & M' & Hx')). rewrite place_compose in Hx, Hx'. rewrite <- (rigid_tapply_inv G x) in Hx, Hx' by auto.
    exists (tapply (tf_inverse G) x). split.
    + exists s, T. split; auto. eapply (proj1 (in_box_move s G (place o T) _ HG (place_rigid c o s T ltac:(auto) ltac:(auto) ltac:(auto)))). eauto.
    + exists s', T'. split; auto. eapply (proj1 (in_box_move s' G (place o' T') _ HG (place_rigid c' o' s' T' ltac:(auto) ltac:(auto) ltac:(auto)))). eauto.
  - intros (x & (s & T & M & Hx) & (s' & T' & M' & Hx')). exists (tapply G x). split.
    + exists s, T. split; auto. rewrite place_compose. apply in_box_move; auto. eapply (place_rigid c); eauto.
    + exists s', T'. split; auto. rewrite place_compose. apply in_box_move; auto. eapply (place_rigid c'); eauto.
Qed.
End Coll.

(** an exact test exists *)
Definition box_test (s : shape) (A : mat3) (p : vec3) (s' : shape) (A' : mat3) (p' : vec3) : bool :=
  if excluded_middle_informative (exists x, in_box s (M4 A p v0 1) x /\ in_box s' (M4 A' p' v0 1) x) then true else false.
Lemma box_test_exact : exact_prim box_test.
Proof.
  intros s T s' T' H H'. unfold box_test.
  assert (E : forall T, rigid T -> M4 (rot T) (pos T) v0 1 = T) by (intros [A p b w] [_ Hb Hw]; cbn in *; congruence). rewrite !E by auto.
  destruct (excluded_middle_informative _); split; intros; auto; try discriminate; contradiction.
Qed.
