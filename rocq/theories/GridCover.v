(** * How well the samples of a path point cover the poses it allows: proofs of C141. *)
From Coq Require Import String Reals Lra Lia Psatz List Bool Arith ZArith.
From Verif Require Import PyBase Mat Util UtilProofs HaltonProofs Geometry GeometryProofs Robot RobotProofs Path PathProofs Ik IkProofs Pipeline PipelineProofs Motion.
Import ListNotations.
Local Open Scope R_scope.

(** ** Specification *)
(** half the distance between two samples *)
Definition half (v : num) : R := match v with Fix _ => 0 | Tol t => (t_upper t - t_lower t) / (2 * (IZR (t_samples t) - 1)) end.
Definition fine (v : num) : Prop := match v with Fix _ => True | Tol t => (2 <= t_samples t)%Z end.
(** the coordinates of the position and the angles of a path point; the free orientation is drawn at random and has no angles *)
Definition positions (tp : pathpt) : list num :=
  match tp with PEuler p => firstn 3 (e_pos p) | PPos p => firstn 3 (p_pos p) | PAxis p => map Fix (a_pos p) | PFree p _ => map Fix p end.
Definition angles (tp : pathpt) : list num :=
  match tp with PEuler p => firstn 3 (e_rpy p) | PAxis p => [Tol (a_angle p)] | PPos _ | PFree _ _ => [] end.
Definition gridded (tp : pathpt) : Prop := match tp with PFree _ _ => False | _ => True end.
Definition total (l : list num) : R := fold_right (fun v s => half v + s) 0 l.
(** T' is as near to T as the halves of the steps say *)
Definition covers (tp : pathpt) (T T' : mat4) : Prop :=
  Forall2 (fun v d => Rabs d <= half v) (positions tp) [vx (pos T) - vx (pos T'); vy (pos T) - vy (pos T'); vz (pos T) - vz (pos T')] /\
  forall u, len (vsub (mapply (rot T) u) (mapply (rot T') u)) <= total (angles tp) * len u.
(** the same point with m samples for every tolerance *)
Definition renum (m : Z) (v : num) : num := match v with Fix x => Fix x | Tol t => Tol (TN (t_lower t) (t_upper t) (t_nominal t) m) end.
Definition resampled (m : Z) (tp : pathpt) : pathpt :=
  match tp with
  | PEuler p => PEuler (EulerPt (map (renum m) (e_pos p)) (map (renum m) (e_rpy p)) (e_nominal p))
  | PPos p => PPos (PosPt (map (renum m) (p_pos p)) (p_nom p) (p_quat p))
  | PAxis p => PAxis (AxisPt (a_pos p) (a_axis p) (TN (t_lower (a_angle p)) (t_upper (a_angle p)) (t_nominal (a_angle p)) m) (a_quat p))
  | PFree p rnd => PFree p rnd
  end.

(** ** One coordinate *)
Lemma nearest lo hi n x : (2 <= n)%nat -> lo <= x <= hi -> exists k, (k < n)%nat /\ Rabs (x - (lo + INR k / INR (n - 1) * (hi - lo))) <= (hi - lo) / (2 * INR (n - 1)).
Proof.
  intros Hn [H1 H2]. assert (P : 1 <= INR (n - 1)) by (replace 1 with (INR 1) by reflexivity; apply le_INR; lia). set (m := INR (n - 1)) in *.
  destruct (Req_dec (hi - lo) 0) as [Z|Z].
  - exists 0%nat. split; [lia|]. rewrite Z. replace (x - (lo + INR 0 / m * 0)) with 0 by (rewrite Rmult_0_r; lra). rewrite Rabs_R0. unfold Rdiv. rewrite Rmult_0_l. lra.
  - assert (D : 0 < hi - lo) by lra. set (r := (x - lo) / (hi - lo) * m).
    assert (R0 : 0 <= (x - lo) / (hi - lo)) by (apply Rmult_le_pos; [lra|left; apply Rinv_0_lt_compat; auto]).
    assert (R1 : (x - lo) / (hi - lo) <= 1) by (apply (Rmult_le_reg_r (hi - lo)); auto; unfold Rdiv; rewrite Rmult_assoc, Rinv_l by lra; lra).
    assert (Rr : 0 <= r <= m) by (unfold r; split; nra).
    destruct (archimed (r + / 2)) as [A1 A2]. set (z := (up (r + / 2) - 1)%Z). assert (Z1 : IZR z <= r + / 2 < IZR z + 1) by (unfold z; rewrite minus_IZR; lra).
    assert (Z2 : (0 <= z)%Z). { apply Z.lt_succ_r. apply lt_IZR. unfold Z.succ. rewrite plus_IZR. lra. }
    assert (Z3 : (z <= Z.of_nat (n - 1))%Z). { apply Z.lt_succ_r. apply lt_IZR. unfold Z.succ. rewrite plus_IZR, <- INR_IZR_INZ. fold m. lra. }
    exists (Z.to_nat z). split; [lia|]. assert (E : INR (Z.to_nat z) = IZR z) by (rewrite INR_IZR_INZ, Z2Nat.id by auto; reflexivity). rewrite E.
    replace (x - (lo + IZR z / m * (hi - lo))) with ((r - IZR z) * ((hi - lo) / m)) by (unfold r; field; lra).
    assert (S : 0 < (hi - lo) / m) by (apply Rdiv_lt_0_compat; lra). rewrite Rabs_mult, (Rabs_right ((hi - lo) / m)) by lra.
    replace ((hi - lo) / (2 * m)) with (/ 2 * ((hi - lo) / m)) by (field; lra). apply Rmult_le_compat_r; [lra|]. apply Rabs_le. lra.
Qed.
Lemma grid_near v x : fine v -> within v x -> exists x', on_grid v x' /\ Rabs (x - x') <= half v.
Proof.
  destruct v as [y|t]; cbn [fine within half].
  - intros _ ->. exists y. split; [reflexivity|]. rewrite Rminus_eq_0, Rabs_R0. lra.
  - intros F W. destruct (nearest _ _ (Z.to_nat (t_samples t)) x ltac:(lia) W) as (k & K & E). eexists. split.
    + right. exists k. cbn [count]. split; auto.
    + cbn [count]. replace (IZR (t_samples t) - 1) with (INR (Z.to_nat (t_samples t) - 1)); [exact E|].
      rewrite INR_IZR_INZ, Nat2Z.inj_sub by lia. rewrite Z2Nat.id by lia. rewrite minus_IZR. reflexivity.
Qed.
Lemma grid_near_all : forall l x, Forall fine l -> Forall2 within l x -> exists x', Forall2 on_grid l x' /\ length x' = length x /\ Forall2 (fun v d => Rabs d <= half v) l (map (fun p => fst p - snd p) (combine x x')).
Proof.
  intros l x F W. induction W as [|v y l x Hv W IH]; [exists []; repeat constructor|]. inversion F; subst.
  destruct (grid_near v y) as (y' & G & B); auto. destruct IH as (x' & G' & L & B'); auto. exists (y' :: x'). split; [constructor; auto|]. split; [cbn; auto|]. cbn [combine map fst snd]. constructor; auto.
Qed.
Lemma fine_sampled v : fine v -> sampled v. Proof. destruct v; cbn; auto. lia. Qed.
Lemma half_nonneg v : proper v -> fine v -> 0 <= half v.
Proof.
  destruct v as [y|t]; cbn [proper fine half]; intros P F; [lra|]. assert (1 <= IZR (t_samples t) - 1) by (apply IZR_le in F; lra). apply Rmult_le_pos; [lra|]. left. apply Rinv_0_lt_compat. lra.
Qed.

(** ** Rotations *)
Lemma chord_len a b p q : (cos a - cos b) * (cos a - cos b) + (sin a - sin b) * (sin a - sin b) <= (a - b) * (a - b) -> 0 <= q <= p ->
  ((cos a - cos b) * (cos a - cos b) + (sin a - sin b) * (sin a - sin b)) * q <= (a - b) * (a - b) * p.
Proof. intros C H. pose proof (Rle_0_sqr (cos a - cos b)). pose proof (Rle_0_sqr (sin a - sin b)). unfold Rsqr in *. apply Rmult_le_compat; lra. Qed.
Lemma len_le_abs v x u : norm2 v <= x * x * norm2 u -> len v <= Rabs x * len u.
Proof.
  intros H. apply sqr_le; [apply Rmult_le_pos; [apply Rabs_pos|apply len_nonneg]|]. rewrite len_sqr.
  replace (Rabs x * len u * (Rabs x * len u)) with ((Rabs x * Rabs x) * (len u * len u)) by ring. rewrite len_sqr, abs_sqr. exact H.
Qed.
Lemma turn_x a b v : len (vsub (mapply (rot_x a) v) (mapply (rot_x b) v)) <= Rabs (a - b) * len v.
Proof.
  apply len_le_abs. pose proof (chord a b) as C. destruct v as [x y z]. unfold rot_x, vsub, mapply, norm2, vdot. cbn [vx vy vz m00 m01 m02 m10 m11 m12 m20 m21 m22].
  match goal with |- ?l <= _ => replace l with (((cos a - cos b) * (cos a - cos b) + (sin a - sin b) * (sin a - sin b)) * (y * y + z * z)) by ring end.
  apply chord_len; auto. pose proof (Rle_0_sqr x). pose proof (Rle_0_sqr y). pose proof (Rle_0_sqr z). unfold Rsqr in *. lra.
Qed.
Lemma turn_y a b v : len (vsub (mapply (rot_y a) v) (mapply (rot_y b) v)) <= Rabs (a - b) * len v.
Proof.
  apply len_le_abs. pose proof (chord a b) as C. destruct v as [x y z]. unfold rot_y, vsub, mapply, norm2, vdot. cbn [vx vy vz m00 m01 m02 m10 m11 m12 m20 m21 m22].
  match goal with |- ?l <= _ => replace l with (((cos a - cos b) * (cos a - cos b) + (sin a - sin b) * (sin a - sin b)) * (x * x + z * z)) by ring end.
  apply chord_len; auto. pose proof (Rle_0_sqr x). pose proof (Rle_0_sqr y). pose proof (Rle_0_sqr z). unfold Rsqr in *. lra.
Qed.
Lemma mapply_mmul A B v : mapply (mmul A B) v = mapply A (mapply B v). Proof. vring. Qed.
Lemma len_rot_diff A u v : rotation A -> len (vsub (mapply A u) (mapply A v)) = len (vsub u v).
Proof. intros H. replace (vsub (mapply A u) (mapply A v)) with (mapply A (vsub u v)) by (generalize A; intros; vring). apply len_rot. auto. Qed.
Lemma turn_xyz a b c a' b' c' u : len (vsub (mapply (rot_xyz a b c) u) (mapply (rot_xyz a' b' c') u)) <= (Rabs (a - a') + Rabs (b - b') + Rabs (c - c')) * len u.
Proof.
  unfold rot_xyz. rewrite !mapply_mmul. set (w := mapply (rot_z c) u). set (w' := mapply (rot_z c') u).
  eapply Rle_trans; [apply (len_vsub3 _ (mapply (rot_x a') (mapply (rot_y b) w)))|]. rewrite (len_rot_diff (rot_x a')) by apply rot_x_rotation.
  pose proof (len_vsub3 (mapply (rot_y b) w) (mapply (rot_y b') w) (mapply (rot_y b') w')) as H. rewrite (len_rot_diff (rot_y b')) in H by apply rot_y_rotation.
  pose proof (turn_x a a' (mapply (rot_y b) w)) as HX. rewrite len_rot in HX by apply rot_y_rotation. pose proof (turn_y b b' w) as HY. pose proof (turn c c' u) as HZ. fold w w' in HZ.
  assert (Lw : len w = len u) by (apply len_rot, rot_z_rotation). rewrite Lw in *. lra.
Qed.
Lemma rodrigues_diff e v ca sa cb sb : vsub (vadd (vadd (vscale ca v) (vscale sa (cross e v))) (vscale ((1 - ca) * vdot e v) e)) (vadd (vadd (vscale cb v) (vscale sb (cross e v))) (vscale ((1 - cb) * vdot e v) e)) =
  vadd (vscale (ca - cb) (vsub v (vscale (vdot e v) e))) (vscale (sa - sb) (cross e v)).
Proof. generalize (vdot e v) (cross e v). intros d w. vring. Qed.
Lemma rodrigues_diff_norm e v dc ds : norm2 (vadd (vscale dc (vsub v (vscale (vdot e v) e))) (vscale ds (cross e v))) =
  dc * dc * (norm2 v - 2 * (vdot e v * vdot e v) + vdot e v * vdot e v * norm2 e) + ds * ds * (norm2 e * norm2 v - vdot e v * vdot e v).
Proof. destruct e as [x y z], v as [p q r]. unfold norm2, vdot, cross, vsub, vadd, vscale. cbn [vx vy vz]. ring. Qed.
Lemma turn_axis e a b v : norm2 e = 1 -> len (vsub (rodrigues e a v) (rodrigues e b v)) <= Rabs (a - b) * len v.
Proof.
  intros N. apply len_le_abs. pose proof (chord a b) as C. unfold rodrigues. rewrite rodrigues_diff, rodrigues_diff_norm, N.
  replace (_ + _) with (((cos a - cos b) * (cos a - cos b) + (sin a - sin b) * (sin a - sin b)) * (norm2 v - vdot e v * vdot e v)) by ring.
  apply chord_len; auto. assert (H : 0 <= norm2 (cross e v)) by apply norm2_nonneg. replace (norm2 (cross e v)) with (norm2 e * norm2 v - vdot e v * vdot e v) in H by (destruct e, v; unfold norm2, vdot, cross; cbn; ring).
  rewrite N in H. pose proof (Rle_0_sqr (vdot e v)). unfold Rsqr in *. lra.
Qed.

(** ** Path points *)
Lemma mapply_vec A B : A = B -> forall u, len (vsub (mapply A u) (mapply B u)) <= 0 * len u.
Proof. intros -> u. replace (vsub _ _) with (V3 0 0 0) by (generalize (mapply B u); intros; vring). rewrite len_x, Rabs_R0. lra. Qed.
Lemma cover n ypr fuel tp T : pt_ok n tp -> gridded tp -> Forall fine (positions tp ++ angles tp) -> allowed tp T ->
  exists Ts T', pt_samples ypr fuel n tp = Ok Ts /\ In T' Ts /\ covers tp T T'.
Proof.
  destruct tp as [p|p|p|p rnd]; cbn [pt_ok gridded positions angles pt_samples]; [| | |tauto].
  - intros [(ps & rs & E) P] _ F [RT A]. destruct (proj1 (new_eulerpt_Ok ps rs) (ex_intro _ p E)) as [L1 L2].
    destruct ps as [|p1 [|p2 [|p3 ps]]]; cbn in L1; try lia. destruct rs as [|r1 [|r2 [|r3 rs]]]; cbn in L2; try lia.
    pose proof (euler_fields _ _ _ _ _ _ _ _ _ E) as (F1 & F2 & _). rewrite F1, F2 in *. cbn [firstn app] in *.
    destruct (euler_spec _ _ _ _ _ _ _ _ _ E) as (Ts & ET & _ & G); [eapply Forall_impl; [|exact F]; apply fine_sampled|].
    destruct A as (x & y & z & a & b & c & W & ->). destruct (grid_near_all _ _ F W) as (g & Hg & Lg & B).
    destruct (Forall2_6 _ _ _ _ _ _ _ _ Hg) as (x' & y' & z' & a' & b' & c' & -> & _). cbn [combine map fst snd] in B.
    exists Ts, (frame6 x' y' z' a' b' c'). split; auto. split; [apply G; exists x', y', z', a', b', c'; auto|].
    unfold covers. cbn [positions angles]. rewrite F1, F2. cbn [firstn total fold_right frame6 pos rot vx vy vz].
    destruct (Forall2_6 _ _ _ _ _ _ _ _ B) as (? & ? & ? & ? & ? & ? & K & B1 & B2 & B3 & B4 & B5 & B6). injection K as <- <- <- <- <- <-.
    split; [repeat apply Forall2_cons; auto|]. intros u. eapply Rle_trans; [apply turn_xyz|]. apply Rmult_le_compat_r; [apply len_nonneg|lra].
  - intros ((ps & q & E) & P & Q) _ F [RT [A1 A2]]. assert (L : (3 <= length ps)%nat) by (destruct ps as [|? [|? [|? ?]]]; try discriminate; cbn; lia).
    destruct ps as [|p1 [|p2 [|p3 ps]]]; cbn in L; try lia. pose proof (pos_fields _ _ _ _ _ _ E) as (F1 & F2 & _). rewrite F1, F2 in *. rewrite app_nil_r in F. cbn [firstn] in *.
    destruct (pos_spec _ _ _ _ _ _ E) as (Ts & ET & _ & G); [eapply Forall_impl; [|exact F]; apply fine_sampled|].
    destruct (grid_near_all _ _ F A2) as (g & Hg & Lg & B). destruct (Forall2_3 _ _ _ _ _ Hg) as (x' & y' & z' & -> & _). cbn [combine map fst snd] in B.
    exists Ts, (M4 (qrot q) (V3 x' y' z') v0 1). split; auto. split; [apply G; exists x', y', z'; auto|].
    unfold covers. cbn [positions angles]. rewrite F1. cbn [firstn total fold_right pos rot vx vy vz]. split; [exact B|]. apply mapply_vec. auto.
  - intros (L & P & N & C & Q) _ F [RT (Ep & a & Ha & Er)]. apply Forall_app in F. destruct F as [_ F]. inversion F as [|? ? Fa _]; subst. cbn [fine] in Fa.
    assert (R : exists Ts, axis_samples p = Ok Ts). { destruct p as [pp ax t q]. cbn [a_pos a_axis a_angle a_quat] in *. rewrite Ep. apply axis_returns; auto. lia. }
    destruct R as (Ts & ET). destruct (axis_spec _ _ ET Q C) as (Ln & Sp).
    destruct (nearest _ _ (length Ts) a ltac:(lia) Ha) as (k & K & B).
    destruct (nth_error Ts k) as [T'|] eqn:Ek; [|apply nth_error_None in Ek; lia]. destruct (Sp k T' Ek) as (RT' & Pp & Rr).
    exists Ts, T'. split; auto. split; [eapply nth_error_In; eauto|]. unfold covers. cbn [positions angles total fold_right half]. rewrite (Pp _ _ _ Ep), Ep. cbn [map vx vy vz]. split.
    + repeat apply Forall2_cons; try apply Forall2_nil; rewrite Rminus_eq_0, Rabs_R0; cbn [half]; lra.
    + intros u. rewrite Er, Rr. eapply Rle_trans; [apply turn_axis, unit_axis_unit; auto|]. rewrite len_rot by (apply qrot_rotation; auto). apply Rmult_le_compat_r; [apply len_nonneg|].
      rewrite Rplus_0_r. unfold angle_at. destruct (Nat.leb_spec 2 (length Ts)); [|lia]. replace (IZR (t_samples (a_angle p)) - 1) with (INR (length Ts - 1)); [exact B|].
      rewrite <- Ln, minus_INR by lia. rewrite <- INR_IZR_INZ. reflexivity.
Qed.

(** ** Finer samples *)
Lemma renum_within m v x : within (renum m v) x <-> within v x. Proof. destruct v; cbn; tauto. Qed.
Lemma renum_list m l x : Forall2 within (map (renum m) l) x <-> Forall2 within l x.
Proof. revert x. induction l as [|v l IH]; intros x; split; intros H; inversion H; subst; constructor; try (apply renum_within in H2 || apply renum_within); try apply IH; auto. Qed.
Lemma resampled_allowed m tp T : allowed (resampled m tp) T <-> allowed tp T.
Proof.
  unfold allowed. destruct tp as [p|p|p|p rnd]; cbn [resampled e_pos e_rpy p_pos p_quat a_pos a_axis a_angle a_quat t_lower t_upper]; [| |tauto|tauto].
  - rewrite !firstn_map, <- map_app. split; intros [H (x & y & z & a & b & c & W & E)]; (split; [auto|]); exists x, y, z, a, b, c; (split; [|auto]); eapply renum_list; exact W.
  - rewrite firstn_map. split; intros (H & E & W); (split; [auto|]); (split; [auto|]); eapply renum_list; exact W.
Qed.
Lemma check_renum m l : check_for_tolerance (map (renum m) l) = check_for_tolerance l.
Proof.
  assert (H : forall v, has_tol (renum m v) = has_tol v) by (intros []; reflexivity). assert (H' : forall v, nominal_of (renum m v) = nominal_of v) by (intros []; reflexivity).
  destruct l as [|a [|b [|c l]]]; cbn [map check_for_tolerance]; auto. rewrite !H, !H', map_map. erewrite map_ext; [reflexivity|]. auto.
Qed.
Lemma proper_renum m l : (0 <= m)%Z -> Forall proper l -> Forall proper (map (renum m) l).
Proof. intros M. induction 1 as [|v l H _ IH]; constructor; auto. destruct v; cbn in *; tauto. Qed.
Lemma resampled_ok n m tp : (0 <= m)%Z -> pt_ok n tp -> pt_ok n (resampled m tp).
Proof.
  intros M. destruct tp as [p|p|p|p rnd]; cbn [pt_ok resampled e_pos e_rpy p_pos p_quat a_pos a_axis a_angle a_quat]; auto.
  - intros [(ps & rs & E) P]. split.
    + exists (map (renum m) ps), (map (renum m) rs). unfold new_eulerpt in *. rewrite !check_renum.
      destruct (check_for_tolerance ps) as [[? pn]| |]; try discriminate E. destruct (check_for_tolerance rs) as [[? rn]| |]; try discriminate E. cbn in *. injection E as <-. reflexivity.
    + rewrite !firstn_map, <- map_app. apply proper_renum; auto.
  - intros ((ps & q & E) & P & Q). split; [|split; [rewrite firstn_map; apply proper_renum; auto|exact Q]].
    exists (map (renum m) ps), q. unfold new_pospt in *. rewrite check_renum. destruct (check_for_tolerance ps) as [[? pn]| |]; try discriminate E. cbn in *. injection E as <-. reflexivity.
  - intros (L & P & H). split; auto. split; auto. cbn in *. tauto.
Qed.
Lemma resampled_gridded m tp : gridded tp -> gridded (resampled m tp). Proof. destruct tp; auto. Qed.
Lemma resampled_fine m tp : (2 <= m)%Z -> Forall fine (positions (resampled m tp) ++ angles (resampled m tp)).
Proof.
  intros M. assert (G : forall l, Forall fine (map (renum m) l)) by (intros l; apply Forall_map, Forall_forall; intros [] _; cbn; auto).
  assert (G' : forall l, Forall fine (map Fix l)) by (intros l; apply Forall_map, Forall_forall; intros x _; exact I).
  destruct tp as [p|p|p|p rnd]; cbn [positions angles resampled e_pos e_rpy p_pos a_pos a_angle]; apply Forall_app; rewrite ?firstn_map; split; auto; repeat constructor; auto.
Qed.
(** width of a tolerance *)
Definition width (v : num) : R := match v with Fix _ => 0 | Tol t => Rabs (t_upper t - t_lower t) end.
Definition widths (l : list num) : R := fold_right (fun v s => width v + s) 0 l.
Lemma widths_nonneg l : 0 <= widths l.
Proof. induction l as [|v l IH]; cbn [widths fold_right]; [lra|]. fold (widths l). destruct v; cbn [width]; [lra|]. pose proof (Rabs_pos (t_upper t - t_lower t)). lra. Qed.
Lemma half_renum m v : (2 <= m)%Z -> half (renum m v) <= width v / (IZR m - 1).
Proof.
  intros M. assert (P : 1 <= IZR m - 1) by (apply IZR_le in M; lra). destruct v as [x|t]; cbn [renum half width t_upper t_lower t_samples]; [unfold Rdiv; rewrite Rmult_0_l; lra|].
  unfold Rdiv. assert (Q : / (2 * (IZR m - 1)) <= / (IZR m - 1)) by (apply Rinv_le_contravar; lra). assert (Q0 : 0 < / (2 * (IZR m - 1))) by (apply Rinv_0_lt_compat; lra).
  eapply Rle_trans; [apply Rmult_le_compat_r; [lra|apply Rle_abs]|]. apply Rmult_le_compat_l; [apply Rabs_pos|auto].
Qed.
Lemma total_renum m l : (2 <= m)%Z -> total (map (renum m) l) <= widths l / (IZR m - 1).
Proof.
  intros M. induction l as [|v l IH]; cbn [map total widths fold_right]; [unfold Rdiv; rewrite Rmult_0_l; lra|]. fold (total (map (renum m) l)) (widths l).
  pose proof (half_renum m v M). unfold Rdiv in *. rewrite Rmult_plus_distr_r. lra.
Qed.
Lemma positions_resampled m tp : positions (resampled m tp) = map (renum m) (positions tp).
Proof. destruct tp as [p|p|p|p rnd]; cbn [positions resampled e_pos p_pos a_pos]; rewrite ?firstn_map; auto; rewrite map_map; reflexivity. Qed.
Lemma angles_resampled m tp : angles (resampled m tp) = map (renum m) (angles tp).
Proof. destruct tp as [p|p|p|p rnd]; cbn [angles resampled e_rpy a_angle]; rewrite ?firstn_map; auto. Qed.
(** as near as wanted, from some number of samples on *)
Definition within_of (e : R) (T T' : mat4) : Prop := len (vsub (pos T) (pos T')) <= e /\ forall u, len (vsub (mapply (rot T) u) (mapply (rot T') u)) <= e * len u.
Lemma dense n ypr fuel tp T e : pt_ok n tp -> gridded tp -> allowed tp T -> 0 < e ->
  exists N, forall m, (N <= m)%Z -> exists Ts T', pt_samples ypr fuel n (resampled m tp) = Ok Ts /\ In T' Ts /\ within_of e T T'.
Proof.
  intros O G A He. set (w := widths (positions tp) + widths (angles tp)). pose proof (widths_nonneg (positions tp)) as W1. pose proof (widths_nonneg (angles tp)) as W2.
  set (N := (up (3 * w / e) + 2)%Z). exists N. intros m Hm. destruct (archimed (3 * w / e)) as [U _].
  assert (P0 : 0 <= 3 * w / e) by (apply Rmult_le_pos; [unfold w; lra|left; apply Rinv_0_lt_compat; auto]).
  assert (Um : 3 * w / e < IZR m - 1). { apply IZR_le in Hm. unfold N in Hm. rewrite plus_IZR in Hm. lra. }
  assert (M2 : (2 <= m)%Z). { apply Z.le_trans with N; auto. unfold N. assert (0 <= up (3 * w / e))%Z by (apply le_IZR; lra). lia. }
  assert (P : 1 <= IZR m - 1) by (apply IZR_le in M2; lra).
  assert (S : w / (IZR m - 1) <= e / 3).
  { apply (Rmult_le_reg_r (IZR m - 1)); [lra|]. unfold Rdiv at 1. rewrite Rmult_assoc, Rinv_l, Rmult_1_r by lra. apply (Rmult_lt_compat_r (e / 3)) in Um; [|lra]. replace (3 * w / e * (e / 3)) with w in Um by (field; lra). lra. }
  destruct (cover n ypr fuel (resampled m tp) T) as (Ts & T' & E & I & [C1 C2]); [apply resampled_ok; auto; lia|apply resampled_gridded; auto|apply resampled_fine; auto|apply resampled_allowed; auto|].
  exists Ts, T'. split; auto. split; auto. rewrite positions_resampled, angles_resampled in *.
  assert (Iv : 0 < / (IZR m - 1)) by (apply Rinv_0_lt_compat; lra).
  split.
  - set (d := vsub (pos T) (pos T')).
    assert (B : Rabs (vx d) + Rabs (vy d) + Rabs (vz d) <= total (map (renum m) (positions tp))).
    { unfold d. cbn [vsub vx vy vz]. inversion C1 as [|? ? v1 ? H1 D1]; subst. inversion D1 as [|? ? v2 ? H2 D2]; subst. inversion D2 as [|? ? v3 ? H3 D3]; subst. inversion D3; subst. cbn [total fold_right]. lra. }
    pose proof (total_renum m (positions tp) M2) as B2. assert (B3 : widths (positions tp) / (IZR m - 1) <= w / (IZR m - 1)) by (apply Rmult_le_compat_r; [lra|unfold w; lra]).
    assert (La : len d <= Rabs (vx d) + Rabs (vy d) + Rabs (vz d)).
    { pose proof (Rabs_pos (vx d)). pose proof (Rabs_pos (vy d)). pose proof (Rabs_pos (vz d)). apply sqr_le; [lra|]. rewrite len_sqr. unfold norm2, vdot. rewrite <- (abs_sqr (vx d)), <- (abs_sqr (vy d)), <- (abs_sqr (vz d)). nra. }
    lra.
  - intros u. eapply Rle_trans; [apply C2|]. apply Rmult_le_compat_r; [apply len_nonneg|]. pose proof (total_renum m (angles tp) M2) as B2.
    assert (B3 : widths (angles tp) / (IZR m - 1) <= w / (IZR m - 1)) by (apply Rmult_le_compat_r; [lra|unfold w; lra]). lra.
Qed.
