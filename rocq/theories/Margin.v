(** * Boxes without a common point are some distance apart, and stay so under small movements (C142). *)
From Coq Require Import Reals Lra Lia Psatz List Bool Arith Classical.
From Coquelicot Require Import Compactness.
From Verif Require Import PyBase Mat Util UtilProofs Geometry GeometryProofs Robot RobotProofs ResourcesProofs TaskProofs Ik IkProofs PipelineProofs Motion FloatFk FloatFkProofs FloatColl FloatCollProofs LocalIk.
Import ListNotations.
Local Open Scope R_scope.

(** ** Two boxes *)
Lemma Rabs_between x y : Rabs x <= y -> - y <= x /\ x <= y.
Proof. unfold Rabs. destruct (Rcase_abs x); lra. Qed.
Lemma len_zero v : len v = 0 -> v = v0.
Proof.
  intros H. assert (N : norm2 v = 0) by (rewrite <- len_sqr, H; ring). destruct v as [x y z]. unfold norm2, vdot in N. cbn in N.
  apply vec3_eq; cbn; nra.
Qed.
Lemma len_abs v : len v <= Rabs (vx v) + Rabs (vy v) + Rabs (vz v).
Proof.
  pose proof (Rabs_pos (vx v)). pose proof (Rabs_pos (vy v)). pose proof (Rabs_pos (vz v)). apply sqr_le; [lra|]. rewrite len_sqr. unfold norm2, vdot.
  rewrite <- (abs_sqr (vx v)), <- (abs_sqr (vy v)), <- (abs_sqr (vz v)). nra.
Qed.
Lemma len_diff u v : Rabs (len u - len v) <= len (vsub u v).
Proof.
  assert (G : forall u v, len u - len v <= len (vsub u v)). { intros a b. pose proof (len_add (vsub a b) b) as H. rewrite vsub_back in H. lra. }
  apply Rabs_le. pose proof (G u v). pose proof (G v u). rewrite (len_sym v u) in *. lra.
Qed.
Lemma boxes_margin s T s' T' : rigid T -> rigid T' -> (forall x, in_box s T x -> ~ in_box s' T' x) ->
  exists m, 0 < m /\ apart m (in_box s T) (in_box s' T').
Proof.
  intros HT HT' H.
  set (l1 := fun t : Tn 6 R => V3 (fst t) (fst (snd t)) (fst (snd (snd t)))).
  set (l2 := fun t : Tn 6 R => V3 (fst (snd (snd (snd t)))) (fst (snd (snd (snd (snd t))))) (fst (snd (snd (snd (snd (snd t))))))).
  set (f := fun t : Tn 6 R => len (vsub (tapply T (l1 t)) (tapply T' (l2 t)))).
  set (dl := fun t : Tn 6 R => if Rlt_dec 0 (f t) then f t / 12 else 1).
  assert (P : forall t, 0 < dl t) by (intros t; unfold dl; destruct (Rlt_dec 0 (f t)); lra).
  set (hi := (dx s / 2, (dy s / 2, (dz s / 2, (dx s' / 2, (dy s' / 2, (dz s' / 2, tt)))))) : Tn 6 R).
  set (lo := (- (dx s / 2), (- (dy s / 2), (- (dz s / 2), (- (dx s' / 2), (- (dy s' / 2), (- (dz s' / 2), tt)))))) : Tn 6 R).
  destruct (compactness_value 6 lo hi (fun t => mkposreal (dl t) (P t))) as ([d Hd] & C). cbn [pos] in C.
  assert (B : forall t, bounded_n 6 lo hi t <-> local_in s (l1 t) /\ local_in s' (l2 t)).
  { intros (a & b & c & a' & b' & c' & []). unfold local_in, l1, l2. cbn -[Rabs]. split.
    - intros (? & ? & ? & ? & ? & ? & _). repeat split; apply Rabs_le; lra.
    - intros ((? & ? & ?) & (? & ? & ?)). repeat match goal with H : Rabs _ <= _ |- _ => apply Rabs_between in H; destruct H end. repeat split; lra. }
  assert (F : forall t, bounded_n 6 lo hi t -> 0 < f t).
  { intros t Bt. apply B in Bt. destruct Bt as [B1 B2]. pose proof (len_nonneg (vsub (tapply T (l1 t)) (tapply T' (l2 t)))) as N. destruct N as [N|N]; [exact N|].
    symmetry in N. apply len_zero in N. exfalso. apply (H (tapply T (l1 t))); [exists (l1 t); auto|]. exists (l2 t). split; auto. rewrite <- (vsub_back (tapply T (l1 t)) (tapply T' (l2 t))), N. vring. }
  assert (L : forall t u e, close_n 6 e t u -> Rabs (f t - f u) <= 6 * e).
  { intros (a & b & c & a' & b' & c' & []) (A & B0 & C0 & A' & B' & C' & []) e (h1 & h2 & h3 & h4 & h5 & h6 & _). cbn in h1, h2, h3, h4, h5, h6.
    unfold f. eapply Rle_trans; [apply len_diff|]. unfold l1, l2. cbn [fst snd].
    set (p := V3 a b c). set (p' := V3 A B0 C0). set (q := V3 a' b' c'). set (q' := V3 A' B' C').
    replace (vsub (vsub (tapply T p) (tapply T' q)) (vsub (tapply T p') (tapply T' q'))) with (vadd (vsub (tapply T p) (tapply T p')) (vsub (tapply T' q') (tapply T' q)))
      by (generalize (tapply T p) (tapply T' q) (tapply T p') (tapply T' q'); intros; vring).
    eapply Rle_trans; [apply len_add|]. rewrite !len_tapply by auto.
    pose proof (len_abs (vsub p p')) as L1. pose proof (len_abs (vsub q' q)) as L2. cbn in L1, L2. rewrite (Rabs_minus_sym A'), (Rabs_minus_sym B'), (Rabs_minus_sym C') in L2. lra. }
  exists (d / 2). split; [lra|]. intros x y (u & Hu & ->) (v & Hv & ->).
  set (t := (vx u, (vy u, (vz u, (vx v, (vy v, (vz v, tt)))))) : Tn 6 R).
  assert (E1 : l1 t = u) by (destruct u; reflexivity). assert (E2 : l2 t = v) by (destruct v; reflexivity).
  assert (Bt : bounded_n 6 lo hi t) by (apply B; rewrite E1, E2; auto).
  replace (len (vsub (tapply T u) (tapply T' v))) with (f t) by (unfold f; rewrite E1, E2; reflexivity).
  apply Rnot_le_lt. intros K. apply (C t Bt). intros (w & Bw & Cw & Dw). pose proof (F w Bw) as Fw. pose proof (L t w _ Cw) as Q.
  assert (Dl : dl w = f w / 12) by (unfold dl; destruct (Rlt_dec 0 (f w)); [reflexivity|lra]). cbn [RIneq.pos] in *. rewrite Dl in *. apply Rabs_between in Q. lra.
Qed.

(** ** Collections of boxes *)
Lemma fin_margin {A} (P : R -> A -> Prop) l : (forall m m' a, m' <= m -> P m a -> P m' a) -> (forall a, In a l -> exists m, 0 < m /\ P m a) ->
  exists m, 0 < m /\ forall a, In a l -> P m a.
Proof.
  intros Mo. induction l as [|a l IH]; intros H; [exists 1; split; [lra|intros a []]|].
  destruct (H a (or_introl eq_refl)) as (m & Hm & Pm). destruct IH as (m' & Hm' & Pm'); [intros b I; apply H; right; auto|].
  exists (Rmin m m'). split; [apply Rmin_glb_lt; auto|]. intros b [<-|I]; (eapply Mo; [|eauto]); [apply Rmin_l|apply Rmin_r].
Qed.
Lemma apart_le m m' P Q : m' <= m -> apart m P Q -> apart m' P Q.
Proof. intros H A x y Hx Hy. pose proof (A x y Hx Hy). lra. Qed.
Lemma member_In c s T : member c s T <-> In (s, T) (combine (c_s c) (c_tf c)).
Proof. unfold member. rewrite In_combine. reflexivity. Qed.
Lemma coll_margin c o c' o' : rigid_coll c -> rigid_opt o -> rigid_coll c' -> rigid_opt o' -> (forall x, in_coll c o x -> ~ in_coll c' o' x) ->
  exists m, 0 < m /\ apart m (in_coll c o) (in_coll c' o').
Proof.
  intros H1 H2 H3 H4 D.
  destruct (fin_margin (fun m a => apart m (in_box (fst a) (place o (snd a))) (in_coll c' o')) (combine (c_s c) (c_tf c))) as (m & Hm & K).
  - intros m m' a. apply apart_le.
  - intros [s T] I. apply member_In in I. cbn [fst snd].
    destruct (fin_margin (fun m a => apart m (in_box s (place o T)) (in_box (fst a) (place o' (snd a)))) (combine (c_s c') (c_tf c'))) as (m & Hm & K).
    + intros m m' a. apply apart_le.
    + intros [s' T'] I'. apply member_In in I'. cbn [fst snd]. apply boxes_margin; [exact (place_rigid c o s T H1 H2 I)|exact (place_rigid c' o' s' T' H3 H4 I')|].
      intros x X Y. apply (D x); [exists s, T|exists s', T']; auto.
    + exists m. split; auto. intros x y X (s' & T' & M & Y). apply member_In in M. apply (K _ M x y); auto.
  - exists m. split; auto. intros x y (s & T & M & X) Y. apply member_In in M. apply (K _ M x y); auto.
Qed.

Lemma some_margin {A} (o : option A) (P : R -> A -> Prop) : (forall a, o = Some a -> exists d, 0 < d /\ P d a) -> exists d, 0 < d /\ forall a, o = Some a -> P d a.
Proof.
  destruct o as [a|]; intros H; [|exists 1; split; [lra|intros ? K; discriminate K]].
  destruct (H a eq_refl) as (d & Hd & K). exists d. split; auto. intros b E. injection E as <-. exact K.
Qed.
Lemma nth_seq {A} (l : list A) i a : nth_error l i = Some a -> In i (seq 0 (length l)).
Proof. intros E. apply in_seq. split; [lia|]. apply nth_error_Some. rewrite E. discriminate. Qed.

(** ** A robot clear of everything is clear by some distance *)
Lemma clear_margin r scene q : solid r -> rigid_coll scene -> clear r scene q -> exists d, 0 < d /\ clear_by d r scene q.
Proof.
  intros (B & RL & SB & ST) S [C1 C2].
  assert (HL : forall i l, nth_error (r_links r) i = Some l -> rigid_coll (l_geom l)) by (intros i l E; unfold rigid_links in RL; rewrite Forall_forall in RL; apply RL; eapply nth_error_In; eauto).
  assert (FR : forall i, rigid_opt (Some (frame r q i))) by (intros i; apply frame_rigid; auto).
  (* base *)
  destruct (some_margin (r_base r) (fun d b => apart d (in_coll b (Some (r_tfb r))) (in_coll scene None))) as (d1 & P1 & M1).
  { intros b Eb. apply coll_margin; auto; [exact I|]. intros x X. apply C1. left. exists b. auto. }
  (* tool *)
  destruct (some_margin (r_tool r) (fun d t => apart d (in_coll (fst t) (Some (frame r q (ndof r - 1)))) (in_coll scene None))) as (d2 & P2 & M2).
  { intros [tool tip] Et. cbn [fst]. apply coll_margin; auto; [eapply ST; eauto|exact I|]. intros x X. apply C1. right. right. exists tool, tip. auto. }
  (* links *)
  set (is := seq 0 (length (r_links r))).
  destruct (fin_margin (fun d i => forall l, nth_error (r_links r) i = Some l -> apart d (in_coll (l_geom l) (Some (frame r q i))) (in_coll scene None)) is) as (d3 & P3 & M3).
  { intros m m' i H K l E. eapply apart_le; eauto. }
  { intros i _. apply some_margin. intros l El. apply coll_margin; eauto; [exact I|]. intros x X. apply C1. right. left. exists i, l. auto. }
  (* links with links *)
  destruct (fin_margin (fun d ij => forall li lj, nth_error (r_links r) (fst ij) = Some li -> nth_error (r_links r) (snd ij) = Some lj -> r_self r = true -> r_mat r (fst ij) (snd ij) = true ->
      apart d (in_coll (l_geom li) (Some (frame r q (fst ij)))) (in_coll (l_geom lj) (Some (frame r q (snd ij))))) (list_prod is is)) as (d4 & P4 & M4).
  { intros m m' i H K li lj Ei Ej Hs Hm. eapply apart_le; eauto. }
  { intros [i j] _. cbn [fst snd]. destruct (nth_error (r_links r) i) as [li|] eqn:Ei; [|exists 1; split; [lra|intros ? ? K; discriminate K]].
    destruct (nth_error (r_links r) j) as [lj|] eqn:Ej; [|exists 1; split; [lra|intros ? ? ? K; discriminate K]].
    destruct (r_self r); [|exists 1; split; [lra|intros ? ? _ _ K; discriminate K]]. destruct (r_mat r i j) eqn:Em; [|exists 1; split; [lra|intros ? ? _ _ _ K; discriminate K]].
    destruct (coll_margin (l_geom li) (Some (frame r q i)) (l_geom lj) (Some (frame r q j))) as (d & Hd & K); eauto.
    - intros x X Y. exact (proj1 (C2 eq_refl) i j li lj x Ei Ej Em X Y).
    - exists d. split; auto. intros ? ? K1 K2 _ _. injection K1 as <-. injection K2 as <-. exact K. }
  (* links with tool *)
  destruct (fin_margin (fun d i => forall l tool tip, nth_error (r_links r) i = Some l -> r_tool r = Some (tool, tip) -> r_self r = true -> (i + 1 < ndof r)%nat ->
      apart d (in_coll (l_geom l) (Some (frame r q i))) (in_coll tool (Some (frame r q (ndof r - 1))))) is) as (d5 & P5 & M5).
  { intros m m' i H K l t p E1 E2 Hs Hn. eapply apart_le; eauto. }
  { intros i _. destruct (nth_error (r_links r) i) as [l|] eqn:El; [|exists 1; split; [lra|intros ? ? ? K; discriminate K]].
    destruct (r_tool r) as [[tool tip]|] eqn:Et; [|exists 1; split; [lra|intros ? ? ? ? K; discriminate K]].
    destruct (r_self r); [|exists 1; split; [lra|intros ? ? ? _ _ K; discriminate K]]. destruct (le_lt_dec (ndof r) (i + 1)) as [Hn|Hn]; [exists 1; split; [lra|intros; lia]|].
    destruct (coll_margin (l_geom l) (Some (frame r q i)) tool (Some (frame r q (ndof r - 1)))) as (d & Hd & K); eauto; [eapply ST; eauto| |].
    - intros x X Y. exact (proj2 (C2 eq_refl) tool tip i l x Et Hn El X Y).
    - exists d. split; auto. intros ? ? ? K1 K2 _ _. injection K1 as <-. injection K2 as <- <-. exact K. }
  set (d := Rmin d1 (Rmin d2 (Rmin d3 (Rmin d4 d5)))).
  assert (D1 : d <= d1) by apply Rmin_l. assert (Dx : d <= Rmin d2 (Rmin d3 (Rmin d4 d5))) by apply Rmin_r.
  assert (D2 : d <= d2) by (eapply Rle_trans; [exact Dx|apply Rmin_l]). assert (Dy : d <= Rmin d3 (Rmin d4 d5)) by (eapply Rle_trans; [exact Dx|apply Rmin_r]).
  assert (D3 : d <= d3) by (eapply Rle_trans; [exact Dy|apply Rmin_l]). assert (Dz : d <= Rmin d4 d5) by (eapply Rle_trans; [exact Dy|apply Rmin_r]).
  assert (D4 : d <= d4) by (eapply Rle_trans; [exact Dz|apply Rmin_l]). assert (D5 : d <= d5) by (eapply Rle_trans; [exact Dz|apply Rmin_r]).
  exists d. split; [unfold d; repeat apply Rmin_glb_lt; auto|]. split.
  - intros x y [(b & Eb & X)|[(i & l & El & X)|(tool & tip & Et & X)]] Y.
    + eapply apart_le; [exact D1|exact (M1 b Eb)|auto|auto].
    + eapply apart_le; [exact D3|exact (M3 i (nth_seq _ _ _ El) l El)|auto|auto].
    + eapply apart_le; [exact D2|exact (M2 _ Et)|auto|auto].
  - intros Hs. split.
    + intros i j li lj Ei Ej Em. eapply apart_le; [exact D4|]. apply (M4 (i, j)); auto. apply in_prod; eapply nth_seq; eauto.
    + intros tool tip i l Et Hn El. eapply apart_le; [exact D5|]. eapply M5; eauto. eapply nth_seq; eauto.
Qed.

(** ** Small movements of the joints *)
Definition joints_within (d : R) (q q' : list R) : Prop := Forall2 (fun a b => Rabs (b - a) < d) q q'.
Lemma joints_within_le d d' q q' : d <= d' -> joints_within d q q' -> joints_within d' q q'.
Proof. intros H. induction 1; constructor; auto. lra. Qed.
Lemma move_small : forall ls q t e, 0 <= t -> 0 < e -> exists d, 0 < d /\ forall q', joints_within d q q' -> move_bound ls q q' t <= e.
Proof.
  induction ls as [|l ls IH]; intros [|qi q] t e Ht He; try (exists 1; split; [lra|]; intros q' _; destruct q'; cbn [move_bound]; lra).
  destruct (IH q t (e / 2) Ht ltac:(lra)) as (d & Hd & H).
  assert (Sp : 0 <= span ls q). { clear. revert q. induction ls as [|l ls IH]; intros [|a q]; cbn [span]; try lra. pose proof (IH q). pose proof (Rabs_pos (da (l_dh l))). pose proof (Rabs_pos (match l_jt l with JP => a | _ => dd (l_dh l) end)). lra. }
  set (k := match l_jt l with JP => 1 | _ => Rabs (da (l_dh l)) + span ls q + t end).
  assert (K : 0 <= k) by (unfold k; pose proof (Rabs_pos (da (l_dh l))); destruct (l_jt l); lra).
  assert (He2 : 0 < e / (2 * (k + 1))) by (apply Rdiv_lt_0_compat; lra).
  exists (Rmin d (e / (2 * (k + 1)))). split; [apply Rmin_glb_lt; auto|]. intros q' N. inversion N as [|a b qa qb Hab Hq]; subst. cbn [move_bound]. fold k.
  assert (H2 : move_bound ls q qb t <= e / 2) by (apply H; eapply joints_within_le; [apply Rmin_l|exact Hq]).
  assert (H1 : Rabs (qi - b) * k <= e / 2); [|lra].
  assert (Rabs (qi - b) <= e / (2 * (k + 1))) by (rewrite Rabs_minus_sym; left; eapply Rlt_le_trans; [exact Hab|apply Rmin_r]).
  eapply Rle_trans; [apply Rmult_le_compat_r; [exact K|eassumption]|].
  replace (e / (2 * (k + 1)) * k) with (e / 2 * (k / (k + 1))) by (field; lra). rewrite <- (Rmult_1_r (e / 2)) at 2. apply Rmult_le_compat_l; [lra|].
  apply (Rmult_le_reg_r (k + 1)); [lra|]. unfold Rdiv. rewrite Rmult_assoc, Rinv_l by lra. lra.
Qed.
(** boxes lie within some distance of the frame they are attached to *)
Definition near_frame (L : R) (c : coll) : Prop := forall s T l, member c s T -> local_in s l -> len (tapply T l) <= L.
Lemma coll_bounded c : rigid_coll c -> exists L, 0 <= L /\ near_frame L c.
Proof.
  intros Hc. unfold near_frame. enough (E : exists L, 0 <= L /\ forall a, In a (combine (c_s c) (c_tf c)) -> rigid (snd a) -> forall l, local_in (fst a) l -> len (tapply (snd a) l) <= L).
  { destruct E as (L & HL & K). exists L. split; auto. intros s T l M Hl. pose proof M as (i & _ & Ei). apply member_In in M. apply (K _ M); auto.
    unfold rigid_coll in Hc. rewrite Forall_forall in Hc. apply Hc. eapply nth_error_In; eauto. }
  induction (combine (c_s c) (c_tf c)) as [|[s T] l (L & HL & IH)]; [exists 0; split; [lra|intros a []]|].
  exists (Rmax L (len (pos T) + (Rabs (dx s) + Rabs (dy s) + Rabs (dz s)))). split; [eapply Rle_trans; [exact HL|apply Rmax_l]|].
  intros a [<-|I] Ra x Hx.
  - cbn [fst snd] in *. eapply Rle_trans; [apply len_tapply_le; auto|]. eapply Rle_trans; [|apply Rmax_r]. apply Rplus_le_compat_l. eapply Rle_trans; [apply len_abs|].
    destruct Hx as (h1 & h2 & h3). pose proof (Rle_abs (dx s)). pose proof (Rle_abs (dy s)). pose proof (Rle_abs (dz s)). pose proof (Rabs_pos (dx s)). pose proof (Rabs_pos (dy s)). pose proof (Rabs_pos (dz s)). lra.
  - eapply Rle_trans; [apply (IH a I Ra x Hx)|apply Rmax_l].
Qed.
Lemma near_frame_le L L' c : L <= L' -> near_frame L c -> near_frame L' c.
Proof. intros H K s T l M Hl. eapply Rle_trans; [eapply K; eauto|auto]. Qed.
Lemma robot_bounded r : solid r -> exists L, 0 <= L /\ (forall i l, nth_error (r_links r) i = Some l -> near_frame L (l_geom l)) /\ (forall tool tip, r_tool r = Some (tool, tip) -> near_frame L tool).
Proof.
  intros (_ & RL & _ & ST).
  assert (A : exists L, 0 <= L /\ Forall (fun l => near_frame L (l_geom l)) (r_links r)).
  { unfold rigid_links in RL. induction RL as [|l ls Hl _ (L & HL & IH)]; [exists 0; split; [lra|constructor]|].
    destruct (coll_bounded _ Hl) as (L' & HL' & K). exists (Rmax L L'). split; [eapply Rle_trans; [exact HL|apply Rmax_l]|]. constructor; [eapply near_frame_le; [apply Rmax_r|auto]|].
    eapply Forall_impl; [|exact IH]. intros a. apply near_frame_le, Rmax_l. }
  destruct A as (L & HL & A). rewrite Forall_forall in A.
  destruct (r_tool r) as [[tool tip]|] eqn:Et.
  - destruct (coll_bounded tool (proj1 (ST _ _ eq_refl))) as (L' & HL' & K). exists (Rmax L L'). split; [eapply Rle_trans; [exact HL|apply Rmax_l]|]. split.
    + intros i l E. eapply near_frame_le; [apply Rmax_l|]. apply A. eapply nth_error_In; eauto.
    + intros t p E. injection E as <- <-. eapply near_frame_le; [apply Rmax_r|auto].
  - exists L. split; auto. split; [|intros t p E; discriminate E]. intros i l E. apply A. eapply nth_error_In; eauto.
Qed.
(** a frame that moves the points of a collection by at most e *)
Lemma in_coll_moved c F F' L e x : rigid F -> rigid F' -> rigid_coll c -> near_frame L c -> (forall y, len y <= L -> len (vsub (tapply F y) (tapply F' y)) <= e) ->
  in_coll c (Some F') x -> exists x0, in_coll c (Some F) x0 /\ len (vsub x0 x) <= e.
Proof.
  intros HF HF' Hc N K (s & T & M & l & Hl & ->). cbn [place]. pose proof M as (i & _ & Ei). unfold rigid_coll in Hc. rewrite Forall_forall in Hc. apply nth_error_In in Ei.
  exists (tapply (tmul F T) l). split; [exists s, T; split; auto; exists l; auto|]. rewrite !tapply_tmul by auto. apply K. eapply N; eauto.
Qed.
Lemma clear_open r scene q : solid r -> rigid_coll scene -> clear r scene q -> exists d, 0 < d /\ forall q', joints_within d q q' -> clear r scene q'.
Proof.
  intros S Sc C. destruct (clear_margin _ _ _ S Sc C) as (m & Hm & [A1 A2]). destruct (robot_bounded r S) as (L & HL & N1 & N2). pose proof S as (B & RL & SB & ST).
  assert (Gl : forall i l, nth_error (r_links r) i = Some l -> rigid_coll (l_geom l)) by (intros i l E; unfold rigid_links in RL; rewrite Forall_forall in RL; apply RL; eapply nth_error_In; eauto).
  assert (FR : forall q i, rigid (frame r q i)) by (intros p i; apply frame_rigid; auto).
  destruct (fin_margin (fun d i => forall q', joints_within d q q' -> move_bound (firstn (Datatypes.S i) (r_links r)) q q' L <= m / 2) (seq 0 (Datatypes.S (length (r_links r))))) as (d & Hd & K).
  { intros a b i H K q' N. apply K. eapply joints_within_le; eauto. }
  { intros i _. apply move_small; lra. }
  exists d. split; auto. intros q' N. assert (Len : length q = length q') by (clear - N; induction N; cbn; auto).
  assert (Mv : forall i, (i <= length (r_links r))%nat -> forall y, len y <= L -> len (vsub (tapply (frame r q i) y) (tapply (frame r q' i) y)) <= m / 2).
  { intros i Hi y Hy. eapply Rle_trans; [apply frame_move; auto|]. eapply Rle_trans; [apply move_bound_le; exact Hy|]. apply K; auto. apply in_seq. lia. }
  assert (Li : forall i l, nth_error (r_links r) i = Some l -> (i <= length (r_links r))%nat) by (intros i l E; assert (nth_error (r_links r) i <> None) as Hn by (rewrite E; discriminate); apply nth_error_Some in Hn; lia).
  assert (Ti : (ndof r - 1 <= length (r_links r))%nat) by (unfold ndof; lia).
  assert (Ml : forall i l x, nth_error (r_links r) i = Some l -> in_coll (l_geom l) (Some (frame r q' i)) x -> exists x0, in_coll (l_geom l) (Some (frame r q i)) x0 /\ len (vsub x0 x) <= m / 2).
  { intros i l x E. apply (in_coll_moved (l_geom l) _ _ L (m / 2) x (FR q i) (FR q' i)); eauto. }
  assert (Mt : forall tool tip x, r_tool r = Some (tool, tip) -> in_coll tool (Some (frame r q' (ndof r - 1))) x -> exists x0, in_coll tool (Some (frame r q (ndof r - 1))) x0 /\ len (vsub x0 x) <= m / 2).
  { intros tool tip x E. apply (in_coll_moved tool _ _ L (m / 2) x (FR q _) (FR q' _)); eauto. eapply ST; eauto. }
  assert (Z : forall x0 y0 x, len (vsub x0 x) <= m / 2 -> len (vsub y0 x) <= m / 2 -> m < len (vsub x0 y0) -> False).
  { intros x0 y0 x H1 H2 H3. pose proof (len_vsub3 x0 x y0). rewrite (len_sym x y0) in *. lra. }
  assert (Z0 : forall x, len (vsub x x) = 0) by (intros u; replace (vsub u u) with (V3 0 0 0) by vring; rewrite len_x; apply Rabs_R0).
  split.
  - intros x [(b & Eb & X)|[(i & l & El & X)|(tool & tip & Et & X)]] Y.
    + assert (m < len (vsub x x)) by (apply A1; [left; exists b; auto|auto]). rewrite Z0 in *. lra.
    + destruct (Ml i l x El X) as (x0 & X0 & D). apply (Z x0 x x D); [rewrite Z0; lra|]. apply A1; auto. right. left. exists i, l. auto.
    + destruct (Mt tool tip x Et X) as (x0 & X0 & D). apply (Z x0 x x D); [rewrite Z0; lra|]. apply A1; auto. right. right. exists tool, tip. auto.
  - intros Hs. destruct (A2 Hs) as [S1 S2]. split.
    + intros i j li lj x Ei Ej Em X Y. destruct (Ml i li x Ei X) as (x0 & X0 & D). destruct (Ml j lj x Ej Y) as (y0 & Y0 & D'). apply (Z x0 y0 x D D'). exact (S1 i j li lj Ei Ej Em x0 y0 X0 Y0).
    + intros tool tip i l x Et Hn El X Y. destruct (Ml i l x El X) as (x0 & X0 & D). destruct (Mt tool tip x Et Y) as (y0 & Y0 & D'). apply (Z x0 y0 x D D'). exact (S2 tool tip i l Et Hn El x0 y0 X0 Y0).
Qed.
