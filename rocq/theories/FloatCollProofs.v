(** * The collision check in floating point: proofs of C139. *)
From Coq Require Import Reals Lra Lia Psatz List Bool Arith Permutation ClassicalDescription.
From Verif Require Import PyBase Mat Util UtilProofs Geometry GeometryProofs Robot RobotProofs ResourcesProofs TaskProofs Ik IkProofs PipelineProofs Resources PipelineExamples Motion FloatFk FloatFkProofs FloatColl.
Import ListNotations.
Local Open Scope R_scope.

(** ** Specification *)
(** every face moved inwards by d; a box thinner than 2d has no points left *)
Definition shrink (d : R) (s : shape) : shape := Shape (dx s - 2 * d) (dy s - 2 * d) (dz s - 2 * d).
Definition shrink_coll (d : R) (c : coll) : coll := Coll (map (shrink d) (c_s c)) (c_tf c).
Definition shrink_link (d : R) (l : link) : link := Lk (l_dh l) (l_jt l) (shrink_coll d (l_geom l)) (l_T l).
Definition shrink_robot (d : R) (r : robot) : robot :=
  Rb (map (shrink_link d) (r_links r)) (r_limits r) (option_map (shrink_coll d) (r_base r))
     (match r_tool r with Some (c, tf) => Some (shrink_coll d c, tf) | None => None end) (r_tfb r) (r_mat r) (r_self r) (r_prio r).
(** a rigid transform with an error of at most 1/100 in each entry of the rotation part *)
Definition almost (T : mat4) : Prop := exists T0, rigid T0 /\ close (1 / 100) 0 T0 T.
(** the box test errs by at most tol: boxes reported are at most tol apart, boxes not reported have
    no common point tol below the surface of both *)
Definition test_within (prim : shape -> mat3 -> vec3 -> shape -> mat3 -> vec3 -> bool) (tol : R) : Prop :=
  forall s T s' T', almost T -> almost T' ->
  if prim s (rot T) (pos T) s' (rot T') (pos T') then exists x x', in_box s T x /\ in_box s' T' x' /\ len (vsub x x') <= tol
  else forall x, in_box (shrink tol s) T x -> in_box (shrink tol s') T' x -> False.
(** all points more than d apart *)
Definition apart (d : R) (P Q : vec3 -> Prop) : Prop := forall x y, P x -> Q y -> d < len (vsub x y).
Definition self_apart (d : R) (r : robot) (q : list R) : Prop :=
  (forall i j li lj, nth_error (r_links r) i = Some li -> nth_error (r_links r) j = Some lj -> r_mat r i j = true ->
     apart d (in_coll (l_geom li) (Some (frame r q i))) (in_coll (l_geom lj) (Some (frame r q j)))) /\
  (forall tool tip i l, r_tool r = Some (tool, tip) -> (i + 1 < ndof r)%nat -> nth_error (r_links r) i = Some l ->
     apart d (in_coll (l_geom l) (Some (frame r q i))) (in_coll tool (Some (frame r q (ndof r - 1))))).
(** robot and scene are more than d apart, and so are the parts of the robot that are checked *)
Definition clear_by (d : R) (r : robot) (scene : coll) (q : list R) : Prop :=
  apart d (in_robot r q) (in_coll scene None) /\ (r_self r = true -> self_apart d r q).
(** the same boxes, their transforms rounded *)
Definition coll_near (u eta : R) (c c' : coll) : Prop := c_s c' = c_s c /\ Forall2 (frame_near u eta) (c_tf c) (c_tf c').
Record geom_near (u eta : R) (r r' : robot) : Prop := {
  gn_links : Forall2 (fun l l' => coll_near u eta (l_geom l) (l_geom l')) (r_links r) (r_links r');
  gn_base : match r_base r, r_base r' with Some b, Some b' => coll_near u eta b b' | None, None => True | _, _ => False end;
  gn_tool : match r_tool r, r_tool r' with Some (c, _), Some (c', _) => coll_near u eta c c' | None, None => True | _, _ => False end;
  gn_mat : forall i j, r_mat r' i j = r_mat r i j;
  gn_self : r_self r' = r_self r }.
(** every box has sides adding up to at most 2D and lies within L of the frame it is attached to *)
Definition coll_size (D L : R) (c : coll) : Prop := Forall (fun s => dx s + dy s + dz s <= 2 * D) (c_s c) /\ Forall (fun T => len (pos T) <= L) (c_tf c).
Definition robot_size (D L : R) (r : robot) : Prop :=
  Forall (fun l => coll_size D L (l_geom l)) (r_links r) /\ (forall b, r_base r = Some b -> coll_size D L b) /\
  (forall tool tip, r_tool r = Some (tool, tip) -> coll_size D L tool).

(** ** One box *)
Lemma tapply_near s T T' e f l : close e f T T' -> local_in s l -> len (vsub (tapply T l) (tapply T' l)) <= e * (dx s + dy s + dz s) + 2 * f.
Proof.
  intros C (lx & ly & lz). destruct C as ((a0 & a1 & a2 & b0 & b1 & b2 & c0 & c1 & c2) & (p0 & p1 & p2) & _).
  assert (K : forall a b c a' b' c' p p', Rabs (a' - a) <= e -> Rabs (b' - b) <= e -> Rabs (c' - c) <= e -> Rabs (p' - p) <= f ->
    Rabs (a * vx l + b * vy l + c * vz l + p - (a' * vx l + b' * vy l + c' * vz l + p')) <= e * (dx s / 2 + dy s / 2 + dz s / 2) + f).
  { intros a b c a' b' c' p p' Ha Hb Hc Hp.
    replace (a * vx l + b * vy l + c * vz l + p - (a' * vx l + b' * vy l + c' * vz l + p')) with (- ((a' - a) * vx l + (b' - b) * vy l + (c' - c) * vz l + (p' - p))) by ring.
    rewrite Rabs_Ropp. eapply Rle_trans; [apply Rabs_triang|]. apply Rplus_le_compat; [|auto]. eapply Rle_trans; [apply Rabs_triang|].
    rewrite !Rmult_plus_distr_l. apply Rplus_le_compat; [eapply Rle_trans; [apply Rabs_triang|]; apply Rplus_le_compat|]; rewrite Rabs_mult; apply Rmult_le_compat; auto using Rabs_pos. }
  eapply Rle_trans; [apply (len3 _ (e * (dx s / 2 + dy s / 2 + dz s / 2) + f))|lra];
    destruct T as [[t00 t01 t02 t10 t11 t12 t20 t21 t22] [tx ty tz] tb tw], T' as [[s00 s01 s02 s10 s11 s12 s20 s21 s22] [sx sy sz] sb sw]; cbn in *.
  - eapply Rle_trans; [right; f_equal|apply (K t00 t01 t02 s00 s01 s02 tx sx); auto]. ring.
  - eapply Rle_trans; [right; f_equal|apply (K t10 t11 t12 s10 s11 s12 ty sy); auto]. ring.
  - eapply Rle_trans; [right; f_equal|apply (K t20 t21 t22 s20 s21 s22 tz sz); auto]. ring.
Qed.
Lemma in_box_near s T T' e f x' : close e f T T' -> in_box s T' x' -> exists x, in_box s T x /\ len (vsub x x') <= e * (dx s + dy s + dz s) + 2 * f.
Proof. intros C (l & Hl & ->). exists (tapply T l). split; [exists l; auto|apply tapply_near; auto]. Qed.

(** a matrix near a rotation can be inverted *)
Lemma det_near A B e : rotation A -> 0 <= e <= 1 / 100 ->
  Rabs (m00 B - m00 A) <= e -> Rabs (m01 B - m01 A) <= e -> Rabs (m02 B - m02 A) <= e ->
  Rabs (m10 B - m10 A) <= e -> Rabs (m11 B - m11 A) <= e -> Rabs (m12 B - m12 A) <= e ->
  Rabs (m20 B - m20 A) <= e -> Rabs (m21 B - m21 A) <= e -> Rabs (m22 B - m22 A) <= e -> mdet B <> 0.
Proof.
  intros RA He a0 a1 a2 b0 b1 b2 c0 c1 c2. pose proof (rot_det _ RA) as D.
  pose proof (col_len A RA) as (k0 & k1 & k2). pose proof (len_comp (col0 A)) as (q00 & q10 & q20). pose proof (len_comp (col1 A)) as (q01 & q11 & q21). pose proof (len_comp (col2 A)) as (q02 & q12 & q22).
  destruct A as [t00 t01 t02 t10 t11 t12 t20 t21 t22], B as [s00 s01 s02 s10 s11 s12 s20 s21 s22]. cbn in *.
  assert (P2 : forall x y x' y', Rabs x <= 1 -> Rabs y <= 1 -> Rabs (x' - x) <= e -> Rabs (y' - y) <= e -> Rabs (x' * y' - x * y) <= 21 / 10 * e /\ Rabs (x * y) <= 1).
  { intros x y x' y' Hx Hy Hx' Hy'. split.
    - replace (x' * y' - x * y) with ((x' - x) * y + (x' - x) * (y' - y) + x * (y' - y)) by ring. eapply Rle_trans; [apply Rabs_triang|]. eapply Rle_trans; [apply Rplus_le_compat_r, Rabs_triang|]. rewrite !Rabs_mult.
      assert (Rabs (x' - x) * Rabs y <= e * 1) by (apply Rmult_le_compat; auto using Rabs_pos). assert (Rabs (x' - x) * Rabs (y' - y) <= e * (1 / 100)) by (apply Rmult_le_compat; auto using Rabs_pos; lra).
      assert (Rabs x * Rabs (y' - y) <= 1 * e) by (apply Rmult_le_compat; auto using Rabs_pos). lra.
    - rewrite Rabs_mult. replace 1 with (1 * 1) by ring. apply Rmult_le_compat; auto using Rabs_pos. }
  assert (P3 : forall x y z x' y' z', Rabs x <= 1 -> Rabs y <= 1 -> Rabs z <= 1 -> Rabs (x' - x) <= e -> Rabs (y' - y) <= e -> Rabs (z' - z) <= e -> Rabs (x' * (y' * z') - x * (y * z)) <= 4 * e).
  { intros x y z x' y' z' Hx Hy Hz Hx' Hy' Hz'. destruct (P2 y z y' z' Hy Hz Hy' Hz') as [Q1 Q2].
    replace (x' * (y' * z') - x * (y * z)) with ((x' - x) * (y * z) + (x' - x) * (y' * z' - y * z) + x * (y' * z' - y * z)) by ring. eapply Rle_trans; [apply Rabs_triang|]. eapply Rle_trans; [apply Rplus_le_compat_r, Rabs_triang|]. rewrite !Rabs_mult.
    assert (Rabs (x' - x) * (Rabs y * Rabs z) <= e * 1) by (rewrite <- (Rabs_mult y z); apply Rmult_le_compat; auto using Rabs_pos). assert (Rabs (x' - x) * Rabs (y' * z' - y * z) <= 1 / 100 * (21 / 10 * e)) by (apply Rmult_le_compat; auto using Rabs_pos; lra).
    assert (Rabs x * Rabs (y' * z' - y * z) <= 1 * (21 / 10 * e)) by (apply Rmult_le_compat; auto using Rabs_pos). lra. }
  pose proof (P3 t00 t11 t22 s00 s11 s22 ltac:(lra) ltac:(lra) ltac:(lra) ltac:(auto) ltac:(auto) ltac:(auto)) as E1.
  pose proof (P3 t00 t12 t21 s00 s12 s21 ltac:(lra) ltac:(lra) ltac:(lra) ltac:(auto) ltac:(auto) ltac:(auto)) as E2.
  pose proof (P3 t01 t10 t22 s01 s10 s22 ltac:(lra) ltac:(lra) ltac:(lra) ltac:(auto) ltac:(auto) ltac:(auto)) as E3.
  pose proof (P3 t01 t12 t20 s01 s12 s20 ltac:(lra) ltac:(lra) ltac:(lra) ltac:(auto) ltac:(auto) ltac:(auto)) as E4.
  pose proof (P3 t02 t10 t21 s02 s10 s21 ltac:(lra) ltac:(lra) ltac:(lra) ltac:(auto) ltac:(auto) ltac:(auto)) as E5.
  pose proof (P3 t02 t11 t20 s02 s11 s20 ltac:(lra) ltac:(lra) ltac:(lra) ltac:(auto) ltac:(auto) ltac:(auto)) as E6.
  unfold mdet in *. cbn in *. intros Z. apply Rabs_le_iff in E1, E2, E3, E4, E5, E6. lra.
Qed.
Lemma solve_near A B e v : rotation A -> 0 <= e <= 1 / 100 ->
  (Rabs (m00 B - m00 A) <= e /\ Rabs (m01 B - m01 A) <= e /\ Rabs (m02 B - m02 A) <= e /\
   Rabs (m10 B - m10 A) <= e /\ Rabs (m11 B - m11 A) <= e /\ Rabs (m12 B - m12 A) <= e /\
   Rabs (m20 B - m20 A) <= e /\ Rabs (m21 B - m21 A) <= e /\ Rabs (m22 B - m22 A) <= e) -> exists w, mapply B w = v /\ len w <= 2 * len v.
Proof.
  intros RA He (a0 & a1 & a2 & b0 & b1 & b2 & c0 & c1 & c2). assert (D : mdet B <> 0) by (apply (det_near A B e); auto).
  exists (vscale (/ mdet B) (mapply (madj B) v)). set (w := vscale (/ mdet B) (mapply (madj B) v)).
  assert (Bw : mapply B w = v).
  { unfold w. clear - D. destruct B as [s00 s01 s02 s10 s11 s12 s20 s21 s22], v as [x y z]. unfold mapply, madj, vscale, vdot, mdet in *. cbn in *. apply vec3_eq; cbn; field; auto. }
  split; [exact Bw|]. clearbody w.
  assert (K : len (vsub (mapply B w) (mapply A w)) <= 2 * (e * (2 * len w))).
  { pose proof (len_comp w) as (w0 & w1 & w2).
    assert (S3 : Rabs (vx w) + Rabs (vy w) + Rabs (vz w) <= 2 * len w).
    { pose proof (sum_abs_le (V3 1 1 1) w) as S. cbn [vx vy vz] in S. rewrite !Rmult_1_l in S. pose proof (len_nonneg w).
      assert (len (V3 1 1 1) <= 2). { unfold len, norm2, vdot. cbn [vx vy vz]. replace 2 with (sqrt (2 * 2)) by (apply sqrt_square; lra). apply sqrt_le_1_alt. lra. }
      assert (len (V3 1 1 1) * len w <= 2 * len w) by (apply Rmult_le_compat_r; auto). lra. }
    assert (R3 : forall a b c, Rabs a <= e -> Rabs b <= e -> Rabs c <= e -> Rabs (a * vx w + b * vy w + c * vz w) <= e * (2 * len w)).
    { intros a b c Ha Hb Hc. eapply Rle_trans; [apply Rabs_triang|]. eapply Rle_trans; [apply Rplus_le_compat_r, Rabs_triang|]. rewrite !Rabs_mult.
      assert (Rabs a * Rabs (vx w) <= e * Rabs (vx w)) by (apply Rmult_le_compat_r; auto using Rabs_pos). assert (Rabs b * Rabs (vy w) <= e * Rabs (vy w)) by (apply Rmult_le_compat_r; auto using Rabs_pos).
      assert (Rabs c * Rabs (vz w) <= e * Rabs (vz w)) by (apply Rmult_le_compat_r; auto using Rabs_pos). assert (e * (Rabs (vx w) + Rabs (vy w) + Rabs (vz w)) <= e * (2 * len w)) by (apply Rmult_le_compat_l; lra). lra. }
    destruct A as [t00 t01 t02 t10 t11 t12 t20 t21 t22], B as [s00 s01 s02 s10 s11 s12 s20 s21 s22]. cbn in a0, a1, a2, b0, b1, b2, c0, c1, c2.
    apply len3; cbn [vsub mapply vx vy vz vdot]; unfold mapply, vsub; cbn.
    - eapply Rle_trans; [right; apply f_equal|apply (R3 (s00 - t00) (s01 - t01) (s02 - t02)); auto]. ring.
    - eapply Rle_trans; [right; apply f_equal|apply (R3 (s10 - t10) (s11 - t11) (s12 - t12)); auto]. ring.
    - eapply Rle_trans; [right; apply f_equal|apply (R3 (s20 - t20) (s21 - t21) (s22 - t22)); auto]. ring. }
  rewrite len_sym in K. pose proof (len_sub_le _ _ _ K) as Q. rewrite (len_rot A w RA), Bw in Q. pose proof (len_nonneg w) as Lw.
  assert (e * (2 * len w) <= 1 / 100 * (2 * len w)) by (apply Rmult_le_compat_r; lra). lra.
Qed.
Lemma in_box_shrunk s T T' e f d x : rigid T -> close e f T T' -> 0 <= e <= 1 / 100 -> 0 <= f -> 0 <= d -> 2 * (e * (dx s + dy s + dz s) + 2 * f) <= d ->
  in_box (shrink d s) T x -> in_box s T' x.
Proof.
  intros RT C E0 F0 D0 Hd (l & Hl & ->). destruct Hl as (lx & ly & lz). cbn [shrink dx dy dz] in lx, ly, lz.
  assert (Hs : local_in s l) by (repeat split; lra).
  pose proof (tapply_near s T T' e f l C Hs) as Kv.
  destruct (solve_near (rot T) (rot T') e (vsub (tapply T l) (tapply T' l)) (rigid_rot _ RT) E0 (proj1 C)) as (w & Ew & Lw).
  exists (vadd l w). split.
  - pose proof (len_comp w) as (w0 & w1 & w2). unfold local_in. destruct l as [a b c], w as [a' b' c']. cbn [vadd vx vy vz] in *.
    repeat split; (eapply Rle_trans; [apply Rabs_triang|]; lra).
  - unfold tapply at 2. rewrite mapply_add, Ew. unfold tapply. clear. destruct (mapply (rot T) l), (mapply (rot T') l), (pos T), (pos T'). apply vec3_eq; cbn; ring.
Qed.

(** ** Two collections *)
Section Pair.
Variables (A : arith) (prim : shape -> mat3 -> vec3 -> shape -> mat3 -> vec3 -> bool).
Definition fplace (o : option mat4) (T : mat4) : mat4 := match o with Some M => fmul A M T | None => T end.
Lemma fmoved_place o l : fmoved A o l = map (fplace o) l.
Proof. destruct o; cbn [fmoved]; auto. symmetry. erewrite map_ext; [apply map_id|]. reflexivity. Qed.
Lemma fcollide_pairs c c' o o' : fcollide A prim c c' o o' = true <->
  exists s T s' T', member c s T /\ member c' s' T' /\ shape_collision prim s (fplace o T) s' (fplace o' T') = true.
Proof.
  unfold fcollide. rewrite outer_loop_true, !fmoved_place.
  assert (Hm : forall c o t s, In (t, s) (combine (map (fplace o) (c_tf c)) (c_s c)) <-> exists T, t = fplace o T /\ member c s T).
  { intros d p t s. rewrite In_combine. unfold member. split.
    - intros (i & E1 & E2). rewrite nth_error_map in E1. destruct (nth_error (c_tf d) i) as [T|] eqn:E; [|discriminate]. injection E1 as <-. eauto 6.
    - intros (T & -> & i & E1 & E2). exists i. rewrite nth_error_map, E2. auto. }
  split.
  - intros (t1 & s1 & t2 & s2 & H1 & H2 & H). apply Hm in H1, H2. destruct H1 as (T1 & -> & M1), H2 as (T2 & -> & M2). exists s1, T1, s2, T2. auto.
  - intros (s1 & T1 & s2 & T2 & M1 & M2 & H). exists (fplace o T1), s1, (fplace o' T2), s2. split; [apply Hm; eauto|]. split; [apply Hm; eauto|]. auto.
Qed.
(** every box of c at o is a box of c' at o' up to e and f, and the other way round *)
Definition boxes_near (e f D : R) (c : coll) (o : option mat4) (c' : coll) (o' : option mat4) : Prop :=
  (forall s T, member c s T -> exists T', member c' s T' /\ dx s + dy s + dz s <= 2 * D /\ rigid (place o T) /\ close e f (place o T) (fplace o' T')) /\
  (forall s T', member c' s T' -> exists T, member c s T /\ dx s + dy s + dz s <= 2 * D /\ rigid (place o T) /\ close e f (place o T) (fplace o' T')).
Lemma close_almost e f T T' : rigid T -> close e f T T' -> e <= 1 / 100 -> almost T'.
Proof.
  intros R (C1 & _ & C3 & C4) E. exists (M4 (rot T) (pos T') (brow T) (bww T)). split.
  - destruct R as [R B W]. constructor; cbn; auto.
  - unfold close. cbn [rot pos brow bww]. rewrite !Rminus_eq_0, Rabs_R0. repeat split; try lra; auto; (eapply Rle_trans; [apply C1|lra]).
Qed.
Lemma shrink_member d c s T : member (shrink_coll d c) s T -> exists s0, s = shrink d s0 /\ member c s0 T.
Proof.
  intros (i & E1 & E2). cbn in E1, E2. rewrite nth_error_map in E1. destruct (nth_error (c_s c) i) as [s0|] eqn:E; [|discriminate]. injection E1 as <-. exists s0. split; auto. exists i. auto.
Qed.
Lemma shrink_add a b s : shrink a (shrink b s) = shrink (a + b) s.
Proof. unfold shrink. cbn. f_equal; ring. Qed.
Lemma fcollide_within tol e f D d c1 o1 c1' o1' c2 o2 c2' o2' : test_within prim tol -> 0 <= tol -> 0 <= e <= 1 / 100 -> 0 <= f -> 0 <= D -> 4 * (e * D + f) + tol <= d ->
  boxes_near e f D c1 o1 c1' o1' -> boxes_near e f D c2 o2 c2' o2' ->
  (fcollide A prim c1' c2' o1' o2' = false -> forall x, in_coll (shrink_coll d c1) o1 x -> in_coll (shrink_coll d c2) o2 x -> False) /\
  (apart d (in_coll c1 o1) (in_coll c2 o2) -> fcollide A prim c1' c2' o1' o2' = false).
Proof.
  intros TW T0 E0 F0 D0 Hd [N1 N1'] [N2 N2']. pose proof (Rmult_le_pos _ _ (proj1 E0) D0) as ED.
  assert (SZ : forall s, dx s + dy s + dz s <= 2 * D -> e * (dx s + dy s + dz s) <= 2 * (e * D)).
  { intros s H. replace (2 * (e * D)) with (e * (2 * D)) by ring. apply Rmult_le_compat_l; lra. }
  split.
  - intros Hf x (s & T & M & B) (s' & T' & M' & B'). apply shrink_member in M, M'. destruct M as (s1 & -> & M), M' as (s2 & -> & M').
    destruct (N1 _ _ M) as (U & MU & S1 & R1 & C1). destruct (N2 _ _ M') as (U' & MU' & S2 & R2 & C2).
    assert (Hp : shape_collision prim s1 (fplace o1' U) s2 (fplace o2' U') <> true).
    { intros H. assert (fcollide A prim c1' c2' o1' o2' = true) by (apply fcollide_pairs; exists s1, U, s2, U'; auto). congruence. }
    specialize (TW s1 (fplace o1' U) s2 (fplace o2' U') (close_almost e f _ _ R1 C1 (proj2 E0)) (close_almost e f _ _ R2 C2 (proj2 E0))).
    unfold shape_collision in Hp. destruct (prim s1 _ _ s2 _ _); [congruence|].
    assert (G : forall s V V' y, dx s + dy s + dz s <= 2 * D -> rigid V -> close e f V V' -> in_box (shrink d s) V y -> in_box (shrink tol s) V' y).
    { intros s V V' y HS RV CV HB. replace d with ((d - tol) + tol) in HB by ring. rewrite <- shrink_add in HB. refine (in_box_shrunk (shrink tol s) V V' e f (d - tol) y RV CV E0 F0 _ _ HB); [lra|].
      specialize (SZ s HS). cbn [shrink dx dy dz]. assert (0 <= e * (6 * tol)) by (apply Rmult_le_pos; lra). lra. }
    exact (TW x (G _ _ _ _ S1 R1 C1 B) (G _ _ _ _ S2 R2 C2 B')).
  - intros Ap. destruct (fcollide A prim c1' c2' o1' o2') eqn:Ef; auto. exfalso. apply fcollide_pairs in Ef. destruct Ef as (s1 & U & s2 & U' & MU & MU' & H).
    destruct (N1' _ _ MU) as (T & M & S1 & R1 & C1). destruct (N2' _ _ MU') as (T' & M' & S2 & R2 & C2).
    specialize (TW s1 (fplace o1' U) s2 (fplace o2' U') (close_almost e f _ _ R1 C1 (proj2 E0)) (close_almost e f _ _ R2 C2 (proj2 E0))).
    unfold shape_collision in H. rewrite H in TW. destruct TW as (x & x' & B & B' & L).
    destruct (in_box_near _ _ _ _ _ _ C1 B) as (y & By & Ly). destruct (in_box_near _ _ _ _ _ _ C2 B') as (y' & By' & Ly').
    assert (Q : d < len (vsub y y')) by (apply Ap; [exists s1, T|exists s2, T']; auto).
    pose proof (len_vsub3 y x y') as K1. pose proof (len_vsub3 x x' y') as K2. rewrite (len_sym x' y') in K2. specialize (SZ s1 S1) as Z1. specialize (SZ s2 S2) as Z2. lra.
Qed.
End Pair.

(** ** The loops of the check *)
Section Loops.
Variable collide : coll -> coll -> option mat4 -> option mat4 -> bool.
Lemma fself_inner_true m i ti gi l : fself_inner collide m i ti gi l = true <-> exists j tj gj, In (j, (tj, gj)) l /\ m i j = true /\ collide gi gj (Some ti) (Some tj) = true.
Proof.
  induction l as [|[j [tj gj]] l IH]; cbn [fself_inner].
  - split; [discriminate|]. intros (? & ? & ? & [] & _).
  - assert (Hr : (exists j' tj' gj', In (j', (tj', gj')) ((j, (tj, gj)) :: l) /\ m i j' = true /\ collide gi gj' (Some ti) (Some tj') = true) <->
      (m i j = true /\ collide gi gj (Some ti) (Some tj) = true) \/ fself_inner collide m i ti gi l = true).
    { rewrite IH. split.
      - intros (j' & tj' & gj' & [E|Hin] & H); [injection E as -> -> ->; auto|right; eauto].
      - intros [H|(j' & tj' & gj' & Hin & H)]; [exists j, tj, gj|exists j', tj', gj']; (split; [cbn; auto|auto]). }
    rewrite Hr. destruct (m i j), (collide gi gj (Some ti) (Some tj)); intuition congruence.
Qed.
Lemma fself_outer_true m l l2 : fself_outer collide m l l2 = true <-> exists i ti gi j tj gj, In (i, (ti, gi)) l /\ In (j, (tj, gj)) l2 /\ m i j = true /\ collide gi gj (Some ti) (Some tj) = true.
Proof.
  induction l as [|[i [ti gi]] l IH]; cbn [fself_outer].
  - split; [discriminate|]. intros (? & ? & ? & ? & ? & ? & [] & _).
  - destruct (fself_inner collide m i ti gi l2) eqn:E.
    + split; auto. intros _. apply fself_inner_true in E. destruct E as (j & tj & gj & Hin & H). exists i, ti, gi, j, tj, gj. cbn. auto.
    + rewrite IH. split.
      * intros (i' & ti' & gi' & j & tj & gj & Hin & H). exists i', ti', gi', j, tj, gj. cbn. auto.
      * intros (i' & ti' & gi' & j & tj & gj & [Eq|Hin] & Hin2 & H).
        -- injection Eq as -> -> ->. assert (fself_inner collide m i' ti' gi' l2 = true) by (apply fself_inner_true; eauto). congruence.
        -- exists i', ti', gi', j, tj, gj. auto.
Qed.
Lemma ftool_loop_true tool tf l : ftool_loop collide tool tf l = true <-> exists t g, In (t, g) l /\ collide g tool (Some t) (Some tf) = true.
Proof.
  induction l as [|[t g] l IH]; cbn [ftool_loop].
  - split; [discriminate|]. intros (? & ? & [] & _).
  - destruct (collide g tool (Some t) (Some tf)) eqn:E.
    + split; auto. intros _. exists t, g. cbn. auto.
    + rewrite IH. split; [intros (t' & g' & Hin & H); exists t', g'; cbn; auto|]. intros (t' & g' & [Eq|Hin] & H); [injection Eq as -> ->; congruence|eauto].
Qed.
Lemma fprio_loop_hit gs tfs scene p : length tfs = length gs -> Permutation p (seq 0 (length gs)) ->
  exists o, fprio_loop collide gs tfs scene p = Ok o /\
    (match o with Some _ => True | None => False end <-> exists i g tf, nth_error gs i = Some g /\ nth_error tfs i = Some tf /\ collide g scene (Some tf) None = true).
Proof.
  intros L P.
  assert (H : forall p, (forall i, In i p -> (i < length gs)%nat) -> exists o, fprio_loop collide gs tfs scene p = Ok o /\
    (match o with Some _ => True | None => False end <-> exists i g tf, In i p /\ nth_error gs i = Some g /\ nth_error tfs i = Some tf /\ collide g scene (Some tf) None = true)).
  { clear p P. induction p as [|x p IH]; intros H.
    - exists None. split; auto. split; [intros []|]. intros (i & g & tf & [] & _).
    - cbn [fprio_loop]. pose proof (H x (or_introl eq_refl)) as Hx.
      destruct (nth_error gs x) as [g|] eqn:Eg; [|apply nth_error_None in Eg; lia].
      destruct (nth_error tfs x) as [tf|] eqn:Et; [|apply nth_error_None in Et; lia].
      unfold py_index. rewrite Eg, Et. cbn [bind]. destruct (collide g scene (Some tf) None) eqn:Ec.
      + exists (Some x). split; auto. split; auto. intros _. exists x, g, tf. auto with datatypes.
      + destruct IH as (o & Eo & Ho); [intros; apply H; right; auto|]. exists o. split; auto. rewrite Ho. split.
        * intros (i & g' & tf' & Hin & E). exists i, g', tf'. split; auto. right; auto.
        * intros (i & g' & tf' & [->|Hin] & E1 & E2 & E3); [congruence|]. exists i, g', tf'. auto. }
  destruct (H p) as (o & E & Ho).
  - intros i Hi. apply (Permutation_in _ P) in Hi. apply in_seq in Hi. lia.
  - exists o. split; auto. rewrite Ho. split.
    + intros (i & g & tf & _ & E'). eauto.
    + intros (i & g & tf & E1 & E'). exists i, g, tf. split; auto. apply (Permutation_in _ (Permutation_sym P)). apply in_seq.
      assert (i < length gs)%nat by (apply nth_error_Some; congruence). lia.
Qed.
Definition fself_spec (r : robot) (X : list mat4) : Prop :=
  (exists i j li lj Ti Tj, nth_error (r_links r) i = Some li /\ nth_error (r_links r) j = Some lj /\ nth_error X i = Some Ti /\ nth_error X j = Some Tj /\
     r_mat r i j = true /\ collide (l_geom li) (l_geom lj) (Some Ti) (Some Tj) = true) \/
  (exists tool tip i l Ti T, r_tool r = Some (tool, tip) /\ (i + 1 < ndof r)%nat /\ nth_error (r_links r) i = Some l /\ nth_error X i = Some Ti /\
     nth_error X (ndof r - 1) = Some T /\ collide (l_geom l) tool (Some Ti) (Some T) = true).
Lemma last_nth (X : list mat4) n : length X = S n -> exists T, py_last X = Ok T /\ nth_error X n = Some T.
Proof.
  intros L. destruct (nth_error X n) as [T|] eqn:E; [|apply nth_error_None in E; lia]. exists T. split; auto. destruct (exists_last (l := X)) as (X0 & T0 & ->); [intros ->; discriminate|].
  rewrite app_length in L. cbn in L. rewrite nth_error_app2 in E by lia. replace (n - length X0)%nat with 0%nat in E by lia. injection E as ->.
  unfold py_last. rewrite rev_app_distr. reflexivity.
Qed.
Lemma fcheck_self_spec r X : length X = ndof r -> (r_tool r <> None -> (1 <= ndof r)%nat) ->
  exists b, fcheck_self collide r X (map l_geom (r_links r)) = Ok b /\ (b = true <-> fself_spec r X).
Proof.
  intros LX Ht. set (gs := map l_geom (r_links r)). unfold fcheck_self.
  assert (H1 : fself_outer collide (r_mat r) (zip3 (ndof r) X gs) (zip3 (ndof r) X gs) = true <->
    exists i j li lj Ti Tj, nth_error (r_links r) i = Some li /\ nth_error (r_links r) j = Some lj /\ nth_error X i = Some Ti /\ nth_error X j = Some Tj /\
     r_mat r i j = true /\ collide (l_geom li) (l_geom lj) (Some Ti) (Some Tj) = true).
  { rewrite fself_outer_true. split.
    - intros (i & ti & gi & j & tj & gj & Hi & Hj & Hm & Hc). apply zip3_In in Hi, Hj. destruct Hi as (Li & Ei & Gi), Hj as (Lj & Ej & Gj).
      unfold gs in Gi, Gj. rewrite nth_error_map in Gi, Gj.
      destruct (nth_error (r_links r) i) as [li|] eqn:El; [|discriminate]. destruct (nth_error (r_links r) j) as [lj|] eqn:El'; [|discriminate].
      injection Gi as <-. injection Gj as <-. exists i, j, li, lj, ti, tj. auto 7.
    - intros (i & j & li & lj & Ti & Tj & Ei & Ej & Fi & Fj & Hm & Hc).
      assert (Li : (i < ndof r)%nat) by (apply nth_error_Some; congruence). assert (Lj : (j < ndof r)%nat) by (apply nth_error_Some; congruence).
      exists i, Ti, (l_geom li), j, Tj, (l_geom lj). rewrite !zip3_In. unfold gs. rewrite !nth_error_map, Ei, Ej. auto 8. }
  destruct (fself_outer _ _ _ _).
  - exists true. split; auto. split; auto. intros _. left. apply H1. auto.
  - destruct (r_tool r) as [[tool tip]|] eqn:Et.
    + destruct (ndof r) as [|n] eqn:En; [exfalso; specialize (Ht ltac:(discriminate)); lia|].
      destruct (last_nth X n LX) as (T & -> & ET). cbn [bind]. eexists. split; [reflexivity|]. rewrite ftool_loop_true. unfold fself_spec. rewrite Et, En.
      replace (S n - 1)%nat with n by lia. split.
      * intros (t & g & Hin & Hc). apply In_combine in Hin. destruct Hin as (i & E1 & E2). apply removelast_nth in E1, E2. destruct E1 as [L1 E1], E2 as [L2 E2].
        unfold gs in E2. rewrite nth_error_map in E2. destruct (nth_error (r_links r) i) as [l|] eqn:El; [|discriminate]. injection E2 as <-.
        right. exists tool, tip, i, l, t, T. rewrite LX in L1. auto 8.
      * intros [H|(tool' & tip' & i & l & Ti & T' & E & L & El & EX & EX' & Hc)]; [apply H1 in H; discriminate|]. injection E as <- <-. assert (T' = T) as -> by congruence.
        exists Ti, (l_geom l). split; auto. apply In_combine. exists i. rewrite !removelast_nth. unfold gs. unfold ndof in En.
        split; [split; [lia|auto]|]. split; [rewrite map_length; lia|rewrite nth_error_map, El; auto].
    + exists false. split; auto. unfold fself_spec. rewrite Et. split; [discriminate|]. intros [H|(? & ? & ? & ? & ? & ? & E & _)]; [apply H1 in H; discriminate|discriminate].
Qed.
End Loops.
Lemma fframes_length A : forall ls q T, length (fst (fframes_loop A ls q T)) = length ls.
Proof.
  induction ls as [|l ls IH]; intros q T; cbn [fframes_loop]; [auto|]. destruct q as [|qi q]; [auto|]. destruct (flink_transform A l qi) as [l1 [Ti| |]]; cbn [fst length]; auto.
  specialize (IH q (fmul A T Ti)). destruct (fframes_loop A ls q (fmul A T Ti)) as [ls1 R1]. cbn [fst length] in *. congruence.
Qed.
Definition fspec A prim (r : robot) (X : list mat4) (scene : coll) : Prop :=
  let collide := fcollide A prim in
  (exists b, r_base r = Some b /\ collide b scene (Some (r_tfb r)) None = true) \/
  (exists i l T, nth_error (r_links r) i = Some l /\ nth_error X i = Some T /\ collide (l_geom l) scene (Some T) None = true) \/
  (exists tool tip T, r_tool r = Some (tool, tip) /\ nth_error X (ndof r - 1) = Some T /\ collide tool scene (Some T) None = true) \/
  (r_self r = true /\ fself_spec collide r X).
Lemma fcollision_spec A prim r q scene X : snd (ffk_all_links A r q) = Ok X -> length X = ndof r -> Permutation (r_prio r) (seq 0 (ndof r)) -> (r_tool r <> None -> (1 <= ndof r)%nat) ->
  exists b, snd (frobot_collision A prim r q scene) = Ok b /\ (b = true <-> fspec A prim r X scene).
Proof.
  intros EX LX Pr Ht. unfold frobot_collision, fspec. cbn zeta. set (collide := fcollide A prim).
  destruct (match r_base r with Some _ => _ | None => _ end) eqn:Eb.
  { exists true. split; auto. split; auto. intros _. left. destruct (r_base r) as [b|]; [|discriminate]. eauto. }
  assert (Nb : ~ exists b, r_base r = Some b /\ collide b scene (Some (r_tfb r)) None = true) by (intros (b & E & H); rewrite E in Eb; congruence).
  unfold ffk_all_links in *. pose proof (fframes_length A (r_links r) q (r_tfb r)) as Ll. destruct (fframes_loop A (r_links r) q (r_tfb r)) as [ls fs]. cbn [fst snd] in *. subst fs.
  cbn [r_prio r_tool r_self set_links]. set (gs := map l_geom (r_links r)).
  assert (Lg : length gs = ndof r) by (unfold gs, ndof; apply map_length).
  destruct (fprio_loop_hit collide gs X scene (r_prio r)) as (o & -> & Ho); [congruence|rewrite Lg; auto|].
  assert (Hh : (exists i g tf, nth_error gs i = Some g /\ nth_error X i = Some tf /\ collide g scene (Some tf) None = true) <->
    exists i l T, nth_error (r_links r) i = Some l /\ nth_error X i = Some T /\ collide (l_geom l) scene (Some T) None = true).
  { unfold gs. split.
    - intros (i & g & tf & Eg & Et & Hc). rewrite nth_error_map in Eg. destruct (nth_error (r_links r) i) as [l|] eqn:El; [|discriminate]. injection Eg as <-. eauto 6.
    - intros (i & l & T & El & Et & Hc). exists i, (l_geom l), T. rewrite nth_error_map, El. auto. }
  destruct o as [i|]; cbn [snd]; [exists true; split; auto; tauto|].
  assert (Etool : exists hit, match r_tool r with Some (tool, _) => tf_tool <- py_last X ;; Ok (collide tool scene (Some tf_tool) None) | None => Ok false end = Ok hit /\
    (hit = true <-> exists tool tip T, r_tool r = Some (tool, tip) /\ nth_error X (ndof r - 1) = Some T /\ collide tool scene (Some T) None = true)).
  { destruct (r_tool r) as [[tool tip]|].
    - destruct (ndof r) as [|n] eqn:En; [exfalso; specialize (Ht ltac:(discriminate)); lia|]. destruct (last_nth X n LX) as (T & -> & ET). cbn [bind].
      eexists. split; [reflexivity|]. replace (S n - 1)%nat with n by lia. split; [intros; eauto 7|]. intros (? & ? & T' & E & E' & H). injection E as <- <-. congruence.
    - exists false. split; auto. split; [discriminate|]. intros (? & ? & ? & E & _). discriminate. }
  destruct Etool as (hit & -> & Hhit). cbn [bind]. destruct hit; [exists true; split; auto; tauto|].
  destruct (r_self r).
  - destruct (fcheck_self_spec collide r X LX Ht) as (b & Ebb & Hb). exists b. split; [|assert (false = true -> False) by discriminate; tauto].
    unfold fcheck_self in *. cbn [r_mat r_tool set_links]. unfold ndof at 1 2. cbn [r_links set_links]. rewrite Ll. exact Ebb.
  - exists false. split; auto. assert (false = true -> False) by discriminate. tauto.
Qed.

(** ** The whole check *)
Lemma F2_length {X Y} (P : X -> Y -> Prop) l l' : Forall2 P l l' -> length l = length l'.
Proof. induction 1; cbn; congruence. Qed.
Lemma F2_l {X Y} (P : X -> Y -> Prop) l l' : Forall2 P l l' -> forall i x, nth_error l i = Some x -> exists y, nth_error l' i = Some y /\ P x y.
Proof. induction 1 as [|x y l l' H F IH]; intros [|i] z E; cbn in *; try discriminate; [injection E as <-; eauto|eauto]. Qed.
Lemma F2_r {X Y} (P : X -> Y -> Prop) l l' : Forall2 P l l' -> forall i y, nth_error l' i = Some y -> exists x, nth_error l i = Some x /\ P x y.
Proof. induction 1 as [|x y l l' H F IH]; intros [|i] z E; cbn in *; try discriminate; [injection E as <-; eauto|eauto]. Qed.
Section Robot.
Variables (A : arith) (u eta g h : R).
Hypothesis OK : arith_ok A u eta g h.
Hypothesis Hu : 0 <= u <= 1 / 1000.
Hypothesis He : 0 <= eta.
Hypothesis Hg : 0 <= g.
Hypothesis Hh : 0 <= h.
Hypothesis Hd : 12 * u + eta <= 1 / 12.
(** errors of a box attached to a frame with errors E and F, within L of it; the frame lies within B of the origin *)
Definition box_rot (E : R) : R := 2 * E + 5 * g + h + 8 * u + 4 * eta.
Definition box_pos (E F B L : R) : R := F + E * L + 4 * (u * L + eta) + g * (2 * L + 4 * (u * L + eta) + B + F) + h.
Lemma coll_near_member c c' : coll_near u eta c c' ->
  (forall s T, member c s T -> exists T', member c' s T' /\ frame_near u eta T T') /\ (forall s T', member c' s T' -> exists T, member c s T /\ frame_near u eta T T').
Proof.
  intros [E F]. unfold member. rewrite E. split.
  - intros s T (i & E1 & E2). destruct (F2_l _ _ _ F i T E2) as (T' & E3 & N). exists T'. eauto.
  - intros s T' (i & E1 & E2). destruct (F2_r _ _ _ F i T' E2) as (T & E3 & N). exists T. eauto.
Qed.
Lemma size_member D L c s T : coll_size D L c -> member c s T -> dx s + dy s + dz s <= 2 * D /\ len (pos T) <= L.
Proof. intros [H1 H2] (i & E1 & E2). rewrite Forall_forall in H1, H2. split; [apply H1|apply H2]; eapply nth_error_In; eauto. Qed.
Lemma attached_near E F B D L T T' c c' : track E F B T T' -> 0 <= E <= 1 / 2 -> 0 <= F -> 0 <= B -> rigid T -> coll_near u eta c c' -> rigid_coll c -> coll_size D L c ->
  boxes_near A (box_rot E) (box_pos E F B L) D c (Some T) c' (Some T').
Proof.
  intros Tr E0 F0 B0 RT N RC Sz. destruct (coll_near_member c c' N) as [N1 N2].
  assert (K : forall s U U', member c s U -> frame_near u eta U U' -> dx s + dy s + dz s <= 2 * D /\ rigid (place (Some T) U) /\ close (box_rot E) (box_pos E F B L) (place (Some T) U) (fplace A (Some T') U')).
  { intros s U U' M NU. destruct (size_member D L c s U Sz M) as [S1 S2]. split; auto.
    assert (RU : rigid U). { destruct M as (i & _ & E2). apply nth_error_In in E2. unfold rigid_coll in RC. rewrite Forall_forall in RC. auto. }
    split; [cbn; apply rigid_tmul; auto|]. cbn [place fplace]. destruct (col_len (rot U) (rigid_rot _ RU)) as (c0 & c1 & c2).
    pose proof (tool_close A u eta g h OK Hu Hg Hd E F B T T' U U' Tr E0 NU (rigid_brow _ RU) (rigid_bww _ RU) ltac:(lra) ltac:(lra) ltac:(lra)) as C.
    revert C. apply close_le; [unfold box_rot; lra|]. unfold box_pos. pose proof (len_nonneg (pos U)) as L0. set (x := len (pos U)) in *. clearbody x.
    assert (M1 : E * x <= E * L) by (apply Rmult_le_compat_l; lra). assert (M2 : u * x <= u * L) by (apply Rmult_le_compat_l; lra).
    assert (M3 : g * (2 * x + 4 * (u * x + eta) + B + F) <= g * (2 * L + 4 * (u * L + eta) + B + F)) by (apply Rmult_le_compat_l; lra). lra. }
  split.
  - intros s U M. destruct (N1 s U M) as (U' & M' & NU). exists U'. split; [exact M'|exact (K s U U' M NU)].
  - intros s U' M'. destruct (N2 s U' M') as (U & M & NU). exists U. split; [exact M|exact (K s U U' M NU)].
Qed.
Lemma scene_near E F B D L c c' : 0 <= E -> 0 <= F -> 0 <= B -> 0 <= L -> coll_near u eta c c' -> rigid_coll c -> coll_size D L c -> boxes_near A (box_rot E) (box_pos E F B L) D c None c' None.
Proof.
  intros E0 F0 B0 L0 N RC Sz. destruct (coll_near_member c c' N) as [N1 N2].
  assert (K : forall s U U', member c s U -> frame_near u eta U U' -> dx s + dy s + dz s <= 2 * D /\ rigid (place None U) /\ close (box_rot E) (box_pos E F B L) (place None U) (fplace A None U')).
  { intros s U U' M NU. destruct (size_member D L c s U Sz M) as [S1 S2]. split; auto.
    assert (RU : rigid U). { destruct M as (i & _ & E2). apply nth_error_In in E2. unfold rigid_coll in RC. rewrite Forall_forall in RC. auto. }
    split; [exact RU|]. cbn [place fplace]. destruct (col_len (rot U) (rigid_rot _ RU)) as (c0 & c1 & c2).
    pose proof (len_comp (col0 (rot U))) as (k00 & k01 & k02). pose proof (len_comp (col1 (rot U))) as (k10 & k11 & k12). pose proof (len_comp (col2 (rot U))) as (k20 & k21 & k22). cbn [col0 col1 col2 vx vy vz] in *.
    pose proof (len_comp (pos U)) as (k3 & k4 & k5).
    destruct NU as ((n00 & n01 & n02) & (n10 & n11 & n12) & (n20 & n21 & n22) & (n3 & n4 & n5) & nb & nw).
    assert (Z : forall b x x', 0 <= b -> Rabs x <= b -> rd u eta x x' -> Rabs (x' - x) <= u * b + eta). { unfold rd. intros b x x' Hb Hx H. assert (u * Rabs x <= u * b) by (apply Rmult_le_compat_l; lra). lra. }
    pose proof (Rmult_le_pos _ _ E0 L0). pose proof (Rmult_le_pos _ _ (proj1 Hu) L0) as UL. pose proof (Rmult_le_pos g (2 * L + 4 * (u * L + eta) + B + F) Hg ltac:(lra)).
    assert (Z1 : forall x x', Rabs x <= 1 -> rd u eta x x' -> Rabs (x' - x) <= box_rot E) by (intros x x' Hx Hr; pose proof (Z 1 x x' ltac:(lra) Hx Hr); unfold box_rot; lra).
    assert (Z2 : forall x x', Rabs x <= L -> rd u eta x x' -> Rabs (x' - x) <= box_pos E F B L) by (intros x x' Hx Hr; pose proof (Z L x x' L0 Hx Hr); unfold box_pos; lra).
    unfold close. repeat split; auto; first [apply Z1; [lra|assumption]|apply Z2; [lra|assumption]]. }
  split.
  - intros s U M. destruct (N1 s U M) as (U' & M' & NU). exists U'. split; [exact M'|exact (K s U U' M NU)].
  - intros s U' M'. destruct (N2 s U' M') as (U & M & NU). exists U. split; [exact M|exact (K s U U' M NU)].
Qed.
Lemma frame_shrink d r q i : frame (shrink_robot d r) q i = frame r q i.
Proof.
  unfold frame. cbn [shrink_robot r_links r_tfb]. generalize (S i) (r_tfb r). revert q. induction (r_links r) as [|l ls IH]; intros [|qi q] [|n] T; cbn [map combine firstn fold_left]; auto.
Qed.
Lemma joints_near_length ls q q' : joints_near u eta ls q q' -> length q = length ls /\ length q' = length ls.
Proof. induction 1; cbn; intuition congruence. Qed.
(** what one check answers, against the exact positions *)
Lemma check_within prim r r' q q' scene scene' P D L tol d : test_within prim tol -> 0 <= tol ->
  good r -> good r' -> joints_ok r -> (r_tool r <> None -> (1 <= ndof r)%nat) -> solid r -> rigid_coll scene -> sane P (r_tfb r) ->
  robot_near u eta r r' -> geom_near u eta r r' -> joints_near u eta (r_links r) q q' -> coll_near u eta scene scene' ->
  0 <= D -> 0 <= L -> robot_size D L r -> coll_size D L scene ->
  let E := rot_bound u eta g h (ndof r) in let S := span (r_links r) q in let F := pos_bound u eta g h (ndof r) S P in
  let e := box_rot E in let f := box_pos E F (P + 3 / 2 * S) L in
  e <= 1 / 100 -> F <= 1 -> 4 * (e * D + f) + tol <= d ->
  exists b, snd (frobot_collision A prim r' q' scene') = Ok b /\
    (b = false -> clear (shrink_robot d r) (shrink_coll d scene) q) /\ (clear_by d r scene q -> b = false).
Proof.
  intros TW T0 G G' J Ht (RB & RL & SB & ST) RS Sn RN GN JN SN D0 L0 (Z1 & Z2 & Z3) Zs E S F e f He1 HF Hdd.
  assert (P0 : 0 <= P). { destruct Sn as (_ & (a & _) & _). pose proof (Rabs_pos (vx (pos (r_tfb r)))). lra. }
  assert (S0 : 0 <= S) by apply span_nonneg.
  assert (E0 : 0 <= E). { unfold E, rot_bound, kap. apply Rplus_le_le_0_compat; [lra|]. apply Rmult_le_pos; [apply pos_INR|lra]. }
  assert (E2 : E <= 1 / 2) by (unfold e, box_rot in He1; lra).
  assert (F0 : 0 <= F).
  { unfold F, pos_bound. pose proof (Rmult_le_pos _ _ (proj1 Hu) P0). fold E. assert (0 <= g * (2 + 32 * u)) by (apply Rmult_le_pos; lra). assert (0 <= (E + 32 * u + g * (2 + 32 * u)) * S) by (apply Rmult_le_pos; lra).
    assert (0 <= g * (12 * eta + (P + 3 / 2 * S + 1))) by (apply Rmult_le_pos; lra). assert (0 <= INR (ndof r) * (12 * eta + g * (12 * eta + (P + 3 / 2 * S + 1)) + h)) by (apply Rmult_le_pos; [apply pos_INR|lra]). lra. }
  assert (B0 : 0 <= P + 3 / 2 * S) by lra.
  assert (e0 : 0 <= e) by (unfold e, box_rot; lra).
  assert (f0 : 0 <= f).
  { unfold f, box_pos. pose proof (Rmult_le_pos _ _ E0 L0). pose proof (Rmult_le_pos _ _ (proj1 Hu) L0). pose proof (Rmult_le_pos g (2 * L + 4 * (u * L + eta) + (P + 3 / 2 * S) + F) Hg ltac:(lra)). lra. }
  destruct (ffk_tracks A u eta g h OK Hu He Hg Hh Hd r r' q q' P G J Sn RN JN E2 HF) as (TB & X & X' & EX & EX' & TX). fold E S F in TB, TX.
  destruct (joints_near_length _ _ _ JN) as [Lq Lq'].
  rewrite frames_snd in EX by auto. rewrite framesp_spec in EX by (auto; unfold joints_ok in *; auto; lia). injection EX as EX. fold (frame r q) in EX. change (length (r_links r)) with (ndof r) in EX. change (map (fun i => frame r q i) (seq 0 (ndof r))) with (map (frame r q) (seq 0 (ndof r))) in EX.
  assert (LX : length X = ndof r) by (rewrite <- EX, map_length, seq_length; auto).
  pose proof (F2_length _ _ _ TX) as LX'. rewrite LX in LX'.
  assert (Nl : ndof r' = ndof r) by (pose proof (F2_length _ _ _ (rn_links _ _ _ _ RN)); unfold ndof; congruence).
  assert (Ht' : r_tool r' <> None -> (1 <= ndof r')%nat). { intros H. rewrite Nl. apply Ht. intros Hn. pose proof (rn_tool _ _ _ _ RN) as Q. rewrite Hn in Q. destruct (r_tool r'); [contradiction|congruence]. }
  destruct (fcollision_spec A prim r' q' scene' X' EX' ltac:(lia) (good_prio _ G') Ht') as (b & Eb & Hb). exists b. split; [exact Eb|].
  (* the boxes of every pair *)
  assert (Bs : boxes_near A e f D scene None scene' None) by (apply scene_near; auto).
  assert (HL : forall i l, nth_error (r_links r) i = Some l -> rigid_coll (l_geom l)) by (intros i l El; unfold rigid_links in RL; rewrite Forall_forall in RL; apply RL; eapply nth_error_In; eauto).
  assert (HZ : forall i l, nth_error (r_links r) i = Some l -> coll_size D L (l_geom l)) by (intros i l El; rewrite Forall_forall in Z1; apply Z1; eapply nth_error_In; eauto).
  assert (XF : forall i T, nth_error X i = Some T <-> (i < ndof r)%nat /\ T = frame r q i) by (intros i T; rewrite <- EX; apply nth_error_frames).
  assert (Bl : forall i l, nth_error (r_links r) i = Some l -> exists l' T', nth_error (r_links r') i = Some l' /\ nth_error X' i = Some T' /\
    boxes_near A e f D (l_geom l) (Some (frame r q i)) (l_geom l') (Some T')).
  { intros i l El. destruct (F2_l _ _ _ (gn_links _ _ _ _ GN) i l El) as (l' & El' & N). assert (Hi : (i < ndof r)%nat) by (apply nth_error_Some; congruence).
    destruct (F2_l _ _ _ TX i (frame r q i)) as (T' & ET' & Tr); [apply XF; auto|]. exists l', T'. split; auto. split; auto. apply attached_near; eauto. apply frame_rigid; auto. }
  assert (Bl' : forall i l' T', nth_error (r_links r') i = Some l' -> nth_error X' i = Some T' -> exists l, nth_error (r_links r) i = Some l /\ boxes_near A e f D (l_geom l) (Some (frame r q i)) (l_geom l') (Some T')).
  { intros i l' T' El' ET'. destruct (F2_r _ _ _ (gn_links _ _ _ _ GN) i l' El') as (l & El & _). exists l. split; auto. destruct (Bl i l El) as (l2 & T2 & A1 & A2 & A3). congruence. }
  assert (Bt : forall tool tip, r_tool r = Some (tool, tip) -> exists tool' tip' T', r_tool r' = Some (tool', tip') /\ nth_error X' (ndof r - 1) = Some T' /\
    boxes_near A e f D tool (Some (frame r q (ndof r - 1))) tool' (Some T')).
  { intros tool tip Et. pose proof (gn_tool _ _ _ _ GN) as N. rewrite Et in N. destruct (r_tool r') as [[tool' tip']|]; [|contradiction]. specialize (Ht ltac:(congruence)).
    destruct (F2_l _ _ _ TX (ndof r - 1)%nat (frame r q (ndof r - 1))) as (T' & ET' & Tr); [apply XF; split; auto; lia|]. exists tool', tip', T'. split; auto. split; auto. apply attached_near; eauto; [apply frame_rigid; auto|eapply ST; eauto]. }
  assert (Bt' : forall tool' tip' T', r_tool r' = Some (tool', tip') -> nth_error X' (ndof r' - 1) = Some T' -> exists tool tip, r_tool r = Some (tool, tip) /\
    boxes_near A e f D tool (Some (frame r q (ndof r - 1))) tool' (Some T')).
  { intros tool' tip' T' Et' ET'. rewrite Nl in ET'. pose proof (gn_tool _ _ _ _ GN) as N. rewrite Et' in N. destruct (r_tool r) as [[tool tip]|] eqn:Et; [|contradiction]. exists tool, tip. split; auto.
    destruct (Bt tool tip eq_refl) as (t2 & p2 & T2 & A1 & A2 & A3). congruence. }
  pose proof (fcollide_within A prim tol e f D d) as PW.
  assert (PW' : forall c1 o1 c1' o1' c2 o2 c2' o2', boxes_near A e f D c1 o1 c1' o1' -> boxes_near A e f D c2 o2 c2' o2' ->
    (fcollide A prim c1' c2' o1' o2' = false -> forall x, in_coll (shrink_coll d c1) o1 x -> in_coll (shrink_coll d c2) o2 x -> False) /\
    (apart d (in_coll c1 o1) (in_coll c2 o2) -> fcollide A prim c1' c2' o1' o2' = false)) by (intros; apply PW; auto; lra).
  clear PW. split.
  - intros ->. assert (Hn : ~ fspec A prim r' X' scene') by (intros H; apply Hb in H; discriminate). clear Hb Eb.
    unfold fspec in Hn. cbn zeta in Hn. split.
    + intros x Hx Hs. apply Hn. destruct Hx as [(b & Eb & Hx)|[(i & l & El & Hx)|(tool & tip & Et & Hx)]].
      * left. cbn [shrink_robot r_base r_tfb] in Eb, Hx. destruct (r_base r) as [b0|] eqn:Er; [|discriminate]. injection Eb as <-. pose proof (gn_base _ _ _ _ GN) as N. rewrite Er in N. destruct (r_base r') as [b'|] eqn:Er'; [|contradiction].
        exists b'. split; auto. destruct (fcollide A prim b' scene' (Some (r_tfb r')) None) eqn:Ec; auto. exfalso.
        refine (proj1 (PW' b0 (Some (r_tfb r)) b' (Some (r_tfb r')) _ _ _ _ _ Bs) Ec x Hx Hs). apply attached_near; eauto.
      * right. left. cbn [shrink_robot r_links] in El. rewrite nth_error_map in El. destruct (nth_error (r_links r) i) as [l0|] eqn:El0; [|discriminate]. injection El as <-. rewrite frame_shrink in Hx. cbn [shrink_link l_geom] in Hx.
        destruct (Bl i l0 El0) as (l' & T' & El' & ET' & N). exists i, l', T'. split; auto. split; auto. destruct (fcollide A prim (l_geom l') scene' (Some T') None) eqn:Ec; auto. exfalso.
        exact (proj1 (PW' _ _ _ _ _ _ _ _ N Bs) Ec x Hx Hs).
      * right. right. left. rewrite frame_shrink in Hx. unfold ndof in Hx. cbn [shrink_robot r_links] in Hx. rewrite map_length in Hx. fold (ndof r) in Hx. cbn [shrink_robot r_tool] in Et. destruct (r_tool r) as [[t0 p0]|] eqn:Er; [|discriminate]. injection Et as <- <-.
        destruct (Bt t0 p0 eq_refl) as (tool' & tip' & T' & Et' & ET' & N). exists tool', tip', T'. rewrite Nl. split; auto. split; auto. destruct (fcollide A prim tool' scene' (Some T') None) eqn:Ec; auto. exfalso.
        exact (proj1 (PW' _ _ _ _ _ _ _ _ N Bs) Ec x Hx Hs).
    + intros Hself. cbn [shrink_robot r_self] in Hself. split.
      * intros i j li lj x Ei Ej Hm Hi Hj. apply Hn. right. right. right. rewrite (gn_self _ _ _ _ GN). split; auto. left. cbn [shrink_robot r_links r_mat] in Ei, Ej, Hm. rewrite nth_error_map in Ei, Ej.
        destruct (nth_error (r_links r) i) as [li0|] eqn:Ei0; [|discriminate]. destruct (nth_error (r_links r) j) as [lj0|] eqn:Ej0; [|discriminate]. injection Ei as <-. injection Ej as <-. rewrite frame_shrink in Hi, Hj. cbn [shrink_link l_geom] in Hi, Hj.
        destruct (Bl i li0 Ei0) as (li' & Ti & Ei' & ETi & Ni). destruct (Bl j lj0 Ej0) as (lj' & Tj & Ej' & ETj & Nj). exists i, j, li', lj', Ti, Tj. rewrite (gn_mat _ _ _ _ GN). repeat (split; auto).
        destruct (fcollide A prim (l_geom li') (l_geom lj') (Some Ti) (Some Tj)) eqn:Ec; auto. exfalso. exact (proj1 (PW' _ _ _ _ _ _ _ _ Ni Nj) Ec x Hi Hj).
      * intros tool tip i l x Et Hi El H1 H2. apply Hn. right. right. right. rewrite (gn_self _ _ _ _ GN). split; auto. right. unfold ndof in Hi, H2. cbn [shrink_robot r_links] in Hi, H2, El. rewrite map_length in Hi, H2. fold (ndof r) in Hi, H2. rewrite nth_error_map in El.
        destruct (nth_error (r_links r) i) as [l0|] eqn:El0; [|discriminate]. injection El as <-. rewrite frame_shrink in H1, H2. cbn [shrink_link l_geom] in H1. cbn [shrink_robot r_tool] in Et. destruct (r_tool r) as [[t0 p0]|] eqn:Er; [|discriminate]. injection Et as <- <-.
        destruct (Bl i l0 El0) as (l' & Ti & El' & ETi & Ni). destruct (Bt t0 p0 eq_refl) as (tool' & tip' & T' & Et' & ET' & N). exists tool', tip', i, l', Ti, T'. rewrite Nl. repeat (split; auto).
        destruct (fcollide A prim (l_geom l') tool' (Some Ti) (Some T')) eqn:Ec; auto. exfalso. exact (proj1 (PW' _ _ _ _ _ _ _ _ Ni N) Ec x H1 H2).
  - intros [Ca Cs]. destruct b; auto. exfalso. destruct Hb as [Hb _]. specialize (Hb eq_refl). unfold fspec in Hb. cbn zeta in Hb.
    assert (Sub : forall Q : vec3 -> Prop, (forall x, Q x -> in_robot r q x) -> apart d Q (in_coll scene None)) by (intros Q HQ x y Hx Hy; apply Ca; auto).
    destruct Hb as [(b' & Er' & Hc)|[(i & l' & T' & El' & ET' & Hc)|[(tool' & tip' & T' & Et' & ET' & Hc)|[Hs Hc]]]].
    + pose proof (gn_base _ _ _ _ GN) as N. rewrite Er' in N. destruct (r_base r) as [b0|] eqn:Er; [|contradiction].
      assert (fcollide A prim b' scene' (Some (r_tfb r')) None = false); [|congruence]. refine (proj2 (PW' b0 (Some (r_tfb r)) b' (Some (r_tfb r')) _ _ _ _ _ Bs) _); [apply attached_near; eauto|]. apply Sub. intros x Hx. left. eauto.
    + destruct (Bl' i l' T' El' ET') as (l & El & N). assert (fcollide A prim (l_geom l') scene' (Some T') None = false); [|congruence]. refine (proj2 (PW' _ _ _ _ _ _ _ _ N Bs) _). apply Sub. intros x Hx. right. left. exists i, l. auto.
    + destruct (Bt' tool' tip' T' Et' ET') as (tool & tip & Et & N). assert (fcollide A prim tool' scene' (Some T') None = false); [|congruence]. refine (proj2 (PW' _ _ _ _ _ _ _ _ N Bs) _). apply Sub. intros x Hx. right. right. eauto.
    + rewrite (gn_self _ _ _ _ GN) in Hs. destruct (Cs Hs) as [C1 C2]. destruct Hc as [(i & j & li' & lj' & Ti & Tj & Ei' & Ej' & ETi & ETj & Hm & Hc)|(tool' & tip' & i & l' & Ti & T' & Et' & Hi & El' & ETi & ET' & Hc)].
      * rewrite (gn_mat _ _ _ _ GN) in Hm. destruct (Bl' i li' Ti Ei' ETi) as (li & Ei & Ni). destruct (Bl' j lj' Tj Ej' ETj) as (lj & Ej & Nj).
        assert (fcollide A prim (l_geom li') (l_geom lj') (Some Ti) (Some Tj) = false); [|congruence]. exact (proj2 (PW' _ _ _ _ _ _ _ _ Ni Nj) (C1 i j li lj Ei Ej Hm)).
      * rewrite Nl in Hi. destruct (Bl' i l' Ti El' ETi) as (l & El & Ni). destruct (Bt' tool' tip' T' Et' ET') as (tool & tip & Et & N).
        assert (fcollide A prim (l_geom l') tool' (Some Ti) (Some T') = false); [|congruence]. exact (proj2 (PW' _ _ _ _ _ _ _ _ Ni N) (C2 tool tip i l Et Hi El)).
Qed.
End Robot.

(** ** Double precision *)
Lemma rigid_sane P T : rigid T -> len (pos T) <= P -> sane P T.
Proof.
  intros [R B W] H. pose proof (col_len (mtr (rot T)) (mtr_rotation _ R)) as (c0 & c1 & c2). pose proof (len_comp (pos T)) as (p0 & p1 & p2).
  assert (E0 : col0 (mtr (rot T)) = row0 (rot T)) by (destruct (rot T); reflexivity). assert (E1' : col1 (mtr (rot T)) = row1 (rot T)) by (destruct (rot T); reflexivity). assert (E2 : col2 (mtr (rot T)) = row2 (rot T)) by (destruct (rot T); reflexivity).
  rewrite E0 in c0. rewrite E1' in c1. rewrite E2 in c2. unfold sane. repeat split; auto; lra.
Qed.
Lemma check_double prim r r' q q' scene scene' tol : test_within prim tol -> 0 <= tol ->
  good r -> good r' -> joints_ok r -> (r_tool r <> None -> (1 <= ndof r)%nat) -> (ndof r <= 7)%nat -> solid r -> rigid_coll scene ->
  robot_near u64 eta64 r r' -> geom_near u64 eta64 r r' -> joints_near u64 eta64 (r_links r) q q' -> coll_near u64 eta64 scene scene' ->
  len (pos (r_tfb r)) <= 10 -> span (r_links r) q <= 10 -> robot_size 10 10 r -> coll_size 10 10 scene ->
  exists b, snd (frobot_collision double prim r' q' scene') = Ok b /\
    (b = false -> clear (shrink_robot (3e-11 + tol) r) (shrink_coll (3e-11 + tol) scene) q) /\ (clear_by (3e-11 + tol) r scene q -> b = false).
Proof.
  intros TW T0 G G' J Ht N So RS RN GN JN SN HP HS ZR ZS. pose proof u64_pos as U0. pose proof eta64_pos as H0. pose proof u64_le as U1. pose proof eta64_le as H1.
  pose proof (span_nonneg (r_links r) q) as S0. pose proof (rot_bound64 (ndof r) N) as E. pose proof (pos_bound64 (ndof r) (span (r_links r) q) 10 N S0 ltac:(lra)) as F.
  assert (E0 : 0 <= rot_bound u64 eta64 (5 * u64) (10 * eta64) (ndof r)). { unfold rot_bound, kap. apply Rplus_le_le_0_compat; [lra|]. apply Rmult_le_pos; [apply pos_INR|lra]. }
  apply (check_within double u64 eta64 (5 * u64) (10 * eta64) double_ok ltac:(lra) ltac:(lra) ltac:(lra) ltac:(lra) ltac:(lra) prim r r' q q' scene scene' 10 10 10 tol); auto; try lra.
  - apply rigid_sane; auto. apply So.
  - unfold box_rot. lra.
  - unfold box_rot, box_pos. set (X := rot_bound u64 eta64 (5 * u64) (10 * eta64) (ndof r)) in *. set (Y := pos_bound u64 eta64 (5 * u64) (10 * eta64) (ndof r) (span (r_links r) q) 10) in *. set (S := span (r_links r) q) in *. clearbody X Y S.
    assert (Y1 : Y <= 2.2e-12) by lra.
    assert (M : 5 * u64 * (2 * 10 + 4 * (u64 * 10 + eta64) + (10 + 3 / 2 * S) + Y) <= 5 * u64 * 50) by (apply Rmult_le_compat_l; lra). lra.
Qed.
(** the same boxes with nothing rounded *)
Lemma coll_near_refl u eta c : 0 <= u -> 0 <= eta -> coll_near u eta c c.
Proof.
  intros Hu He. split; auto. induction (c_tf c) as [|T l IH]; constructor; auto. assert (R : forall x, rd u eta x x) by (intros x; unfold rd; rewrite Rminus_eq_0, Rabs_R0; pose proof (Rmult_le_pos _ _ Hu (Rabs_pos x)); lra).
  unfold frame_near. repeat split; auto.
Qed.
Definition round_coll (c : coll) : coll := Coll (c_s c) (map round_frame (c_tf c)).
Lemma round_coll_near c : coll_near u64 eta64 c (round_coll c).
Proof.
  split; auto. cbn [round_coll c_tf]. induction (c_tf c) as [|T l IH]; cbn [map]; constructor; auto.
  unfold frame_near, round_frame, rd; cbn [rot pos brow bww vx vy vz m00 m01 m02 m10 m11 m12 m20 m21 m22]; repeat split; apply rnd64_err.
Qed.
(** the robot with the transforms of its boxes rounded as well *)
Definition round_boxes (r : robot) : robot :=
  Rb (map (fun l => Lk (l_dh l) (l_jt l) (round_coll (l_geom l)) (l_T l)) (r_links r)) (r_limits r) (option_map round_coll (r_base r))
     (option_map (fun t => (round_coll (fst t), snd t)) (r_tool r)) (r_tfb r) (r_mat r) (r_self r) (r_prio r).
Lemma round_all_near r : Forall (fun l => Rabs (dalpha (l_dh l)) <= 3.9 /\ Rabs (dtheta (l_dh l)) <= 3.9) (r_links r) ->
  let r' := round_boxes (round_robot r) in robot_near u64 eta64 r r' /\ geom_near u64 eta64 r r' /\ (good r -> good r').
Proof.
  intros H r'. destruct (round_robot_near r H) as [N1 N2 N3]. split; [|split].
  - constructor; cbn [r' round_boxes r_links r_tfb r_tool].
    + revert N1. generalize (r_links (round_robot r)). generalize (r_links r). induction 1 as [|x y l l' X F IH]; cbn [map]; constructor; auto.
    + exact N2.
    + destruct (r_tool r) as [[c tf]|], (r_tool (round_robot r)) as [[c' tf']|]; exact N3.
  - constructor; cbn [r' round_boxes round_robot r_links r_tfb r_tool r_base r_mat r_self]; [| | |reflexivity|reflexivity].
    + clear. induction (r_links r) as [|l ls IH]; [constructor|]. cbn [map]. apply Forall2_cons; [|exact IH]. apply round_coll_near.
    + destruct (r_base r); [apply round_coll_near|exact I].
    + destruct (r_tool r) as [[c tf]|]; [apply round_coll_near|exact I].
  - intros [G1 G2]. split.
    + cbn [r' round_boxes round_robot r_links]. rewrite map_map. clear. induction (r_links r); cbn [map]; constructor; auto. apply new_link_clean.
    + unfold ndof in *. cbn [r' round_boxes round_robot r_links r_prio]. rewrite !map_length. exact G2.
Qed.
(** the Kuka of robots.py at joint values up to 3.9, every number rounded *)
Lemma kuka_check prim q scene tol : let r := KukaG 0.18 0.6 0.62 0.115 in test_within prim tol -> 0 <= tol ->
  length q = 6%nat -> Forall (fun x => Rabs x <= 3.9) q -> rigid_coll scene -> coll_size 10 10 scene ->
  exists b, snd (frobot_collision double prim (round_boxes (round_robot r)) (map rnd64 q) (round_coll scene)) = Ok b /\
    (b = false -> clear (shrink_robot (3e-11 + tol) r) (shrink_coll (3e-11 + tol) scene) q) /\ (clear_by (3e-11 + tol) r scene q -> b = false).
Proof.
  intros r TW T0 L Hq RS ZS.
  assert (H : Forall (fun l => Rabs (dalpha (l_dh l)) <= 3.9 /\ Rabs (dtheta (l_dh l)) <= 3.9) (r_links r)).
  { pose proof PI_RGT_0. pose proof PI_4. unfold r. geoms. repeat (apply Forall_cons; [split; apply Rabs_le; cbn [lr new_link l_dh dalpha dtheta]; lra|]). apply Forall_nil. }
  destruct (round_all_near r H) as (N1 & N2 & N3).
  apply check_double; auto.
  - apply kukaG_good.
  - apply N3, kukaG_good.
  - unfold joints_ok, r. geoms. repeat (apply Forall_cons; [discriminate|]). apply Forall_nil.
  - intros K; exfalso; apply K; reflexivity.
  - apply kuka_object_solid.
  - apply round_joints_near; auto.
  - apply round_coll_near.
  - unfold r. geoms. unfold len, norm2, vdot. cbn. replace (0 * 0 + 0 * 0 + 0 * 0) with 0 by ring. rewrite sqrt_0. lra.
  - unfold r. geoms. do 6 (destruct q as [|? q]; [discriminate|]). destruct q; [|discriminate]. cbn [span]. cbn [new_link lr l_dh l_jt da dd]. rewrite !Rabs_R0. rewrite !Rabs_right by lra. lra.
  - split; [|split; intros; discriminate]. unfold r. geoms.
    assert (K : forall s x y z, dx s + dy s + dz s <= 20 -> Rabs x <= 1 -> Rabs y <= 1 -> Rabs z <= 1 -> coll_size 10 10 (coll1 s (pose_x 0 x y z))).
    { intros s x y z Hs Hx Hy Hz. split; cbn [coll1 c_s c_tf]; apply Forall_cons; try apply Forall_nil; [lra|]. unfold pose_x. cbn [pos]. eapply Rle_trans; [apply (len3 _ 1); auto|lra]. }
    repeat (apply Forall_cons; [cbn [l_geom]; apply K; cbn [dx dy dz]; [lra|apply Rabs_le; lra|apply Rabs_le; lra|apply Rabs_le; lra]|]). apply Forall_nil.
Qed.
(** a test that compares the images of the boxes exactly errs by nothing *)
Lemma box_test_within : test_within box_test 0.
Proof.
  intros s T s' T' (T0 & [_ B W] & _ & _ & B1 & W1) (T0' & [_ B' W'] & _ & _ & B1' & W1'). unfold box_test.
  assert (E : M4 (rot T) (pos T) v0 1 = T) by (destruct T; cbn in *; congruence). assert (E' : M4 (rot T') (pos T') v0 1 = T') by (destruct T'; cbn in *; congruence). rewrite E, E'.
  destruct (excluded_middle_informative _) as [(x & H1 & H2)|H].
  - exists x, x. split; auto. split; auto. unfold len, norm2, vsub, vdot. cbn. rewrite !Rminus_eq_0. replace (0 * 0 + 0 * 0 + 0 * 0) with 0 by ring. rewrite sqrt_0. lra.
  - intros x H1 H2. apply H. exists x. assert (Z : forall t, shrink 0 t = t) by (intros [a b c]; unfold shrink; cbn; f_equal; ring). rewrite !Z in *. auto.
Qed.
