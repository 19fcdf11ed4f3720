(** * Proofs about the model of io.py *)
From Coq Require Import String Reals Lra Lia List Bool Arith ZArith.
From Verif Require Import PyBase Mat Util UtilProofs Geometry Path PathProofs Io.
Import ListNotations.
Local Open Scope R_scope.

(** ** pyquaternion's matrix constructor *)
Lemma quat_of_matrix_scaled t w x y z A : 0 < t ->
  w * w + x * x + y * y + z * z = 4 * t -> unit_rot (Quat w x y z) = mscale (4 * t) A ->
  forall k, k = 0.5 / sqrt t -> qnorm2 (Quat (k * w) (k * x) (k * y) (k * z)) = 1 /\ unit_rot (Quat (k * w) (k * x) (k * y) (k * z)) = A.
Proof.
  intros T N U k ->. assert (S : sqrt t <> 0) by (apply Rgt_not_eq, sqrt_lt_R0; auto). assert (Q : sqrt t * sqrt t = t) by (apply sqrt_sqrt; lra).
  set (k := 0.5 / sqrt t). assert (K : k * k = / (4 * t)). { unfold k. replace 0.5 with (/ 2) by lra. transitivity (/ (4 * (sqrt t * sqrt t))); [field; auto|rewrite Q; auto]. }
  split.
  - unfold qnorm2. cbn [qw qx qy qz]. replace (k * w * (k * w) + k * x * (k * x) + k * y * (k * y) + k * z * (k * z)) with (k * k * (w * w + x * x + y * y + z * z)) by ring. rewrite K, N. field. lra.
  - change (Quat (k * w) (k * x) (k * y) (k * z)) with (qscale k (Quat w x y z)). rewrite unit_rot_scale, U, K. destruct A as [a b c d e f g h i]. unfold mscale. cbn [m00 m01 m02 m10 m11 m12 m20 m21 m22]. f_equal; field; lra.
Qed.
Lemma quat_of_matrix_rot A : rotation A -> qnorm2 (quat_of_matrix A) = 1 /\ qrot (quat_of_matrix A) = A.
Proof.
  intros H. assert (G : qnorm2 (quat_of_matrix A) = 1 /\ unit_rot (quat_of_matrix A) = A).
  2: { destruct G as [G1 G2]. split; [auto|]. rewrite qrot_form by lra. rewrite G1, Rinv_1, mscale_1. auto. }
  pose proof (rotation_inv_r A H) as HR. destruct H as [HL HD].
  assert (AD : madj A = mtr A).
  { rewrite <- (mmul_1_r (madj A)), <- HR, <- mmul_assoc, madj_l, HD, mscale_1, mmul_1_l. auto. }
  destruct A as [a b c d e f g h i]. unfold quat_of_matrix. cbv zeta.
  unfold mmul, mtr, mid in HL, HR. unfold madj, mtr in AD. unfold mtr. cbn [m00 m01 m02 m10 m11 m12 m20 m21 m22] in *.
  injection HL as L0 L1 L2 L3 L4 L5 L6 L7 L8. injection HR as R0 R1 R2 R3 R4 R5 R6 R7 R8. injection AD as A0 A1 A2 A3 A4 A5 A6 A7 A8.
  destruct (Rlt_dec i 0); [destruct (Rlt_dec e a)|destruct (Rlt_dec a (- e))];
  (eapply quat_of_matrix_scaled; [| |unfold unit_rot, mscale; cbn [qw qx qy qz m00 m01 m02 m10 m11 m12 m20 m21 m22]; f_equal|reflexivity]); lra.
Qed.

(** ** create_line *)
Lemma bcast2_same a b : length a = length b -> bcast2 a b = Ok (combine a b).
Proof. intros H. unfold bcast2. rewrite H, Nat.eqb_refl. auto. Qed.
Lemma nth_error_nth0 (l : list R) k x : nth_error l k = Some x -> nth k l 0 = x.
Proof. revert k. induction l; destruct k; cbn; intros; try discriminate; [congruence|auto]. Qed.
Lemma rows_nth ab n k : (k < n)%nat -> nth_error (linspace_rows ab n) k = Some (map (fun p => nth k (linspace (fst p) (snd p) n) 0) ab).
Proof.
  intros H. unfold linspace_rows. rewrite nth_error_map. rewrite (nth_error_nth' _ 0%nat) by (rewrite seq_length; auto). rewrite seq_nth by auto. reflexivity.
Qed.
Lemma rows_length ab n : length (linspace_rows ab n) = n.
Proof. unfold linspace_rows. rewrite map_length, seq_length. auto. Qed.
Lemma map_fst_combine (a b : list R) : length a = length b -> map fst (combine a b) = a.
Proof. revert b. induction a; destruct b; cbn; intros; try discriminate; f_equal; auto. Qed.
Lemma map_snd_combine (a b : list R) : length a = length b -> map snd (combine a b) = b.
Proof. revert b. induction a; destruct b; cbn; intros; try discriminate; f_equal; auto. Qed.
(** start + s (end - start), coordinate by coordinate *)
Definition lerp (s : R) (a b : list R) : list R := map (fun p => fst p + s * (snd p - fst p)) (combine a b).
Lemma line_rows a b n : length a = length b ->
  (forall k, (2 <= n)%nat -> (k < n)%nat -> nth_error (linspace_rows (combine a b) n) k = Some (lerp (INR k / INR (n - 1)) a b)) /\
  ((1 <= n)%nat -> nth_error (linspace_rows (combine a b) n) 0 = Some a) /\
  ((2 <= n)%nat -> nth_error (linspace_rows (combine a b) n) (n - 1) = Some b).
Proof.
  intros L. split; [|split].
  - intros k H K. rewrite rows_nth by auto. f_equal. apply map_ext. intros [x y]. cbn [fst snd]. apply nth_error_nth0, linspace_nth; auto.
  - intros H. rewrite rows_nth by lia. f_equal. rewrite <- (map_fst_combine a b L) at 2. apply map_ext. intros [x y]. cbn [fst snd]. apply nth_error_nth0, linspace_first; auto.
  - intros H. rewrite rows_nth by lia. f_equal. rewrite <- (map_snd_combine a b L) at 2. apply map_ext. intros [x y]. cbn [fst snd]. apply nth_error_nth0, linspace_last; auto.
Qed.
Lemma of_nat_nonneg n : (Z.of_nat n <? 0)%Z = false.
Proof. apply Z.ltb_ge. lia. Qed.
Lemma line_spec sp sj ep a b n : getitem sp "xyz" = Ok sj -> nums sj = Ok a -> nums ep = Ok b -> length a = length b ->
  exists ps, create_line sp ep (JInt (Z.of_nat n)) = Ok ps /\ length ps = n /\
  (forall k, (2 <= n)%nat -> (k < n)%nat -> nth_error ps k = Some (lerp (INR k / INR (n - 1)) a b)) /\
  ((1 <= n)%nat -> nth_error ps 0 = Some a) /\
  ((2 <= n)%nat -> nth_error ps (n - 1) = Some b).
Proof.
  intros E A B L. exists (linspace_rows (combine a b) n). split.
  - unfold create_line. rewrite E. cbn [bind]. rewrite A, B. cbn [bind int_of]. rewrite of_nat_nonneg, bcast2_same, Nat2Z.id by auto. reflexivity.
  - split; [apply rows_length|apply line_rows; auto].
Qed.
Lemma line_errors sp sj ep a b : getitem sp "xyz" = Ok sj -> nums sj = Ok a -> nums ep = Ok b ->
  (forall z, (z < 0)%Z -> create_line sp ep (JInt z) = Raise ValueError) /\
  (forall x, create_line sp ep (JFloat x) = Raise TypeError) /\
  (forall n, length a <> length b -> length a <> 1%nat -> length b <> 1%nat -> create_line sp ep (JInt (Z.of_nat n)) = Raise ValueError).
Proof.
  intros E A B. unfold create_line. rewrite E. cbn [bind]. rewrite A, B. cbn [bind int_of]. split; [|split].
  - intros z H. apply Z.ltb_lt in H. rewrite H. auto.
  - auto.
  - intros n H H1 H2. rewrite of_nat_nonneg. unfold bcast2. apply Nat.eqb_neq in H. rewrite H. destruct a as [|? [|? ?]], b as [|? [|? ?]]; cbn in *; try discriminate; try congruence.
Qed.

(** ** create_circle *)
Lemma mapM_nth {A B} (f : A -> res B) l l' k x : mapM f l = Ok l' -> nth_error l k = Some x -> exists y, nth_error l' k = Some y /\ f x = Ok y.
Proof.
  intros H. apply mapM_Ok_Forall2 in H. revert k. induction H; destruct k; cbn; intros G; try discriminate; [injection G as <-; eauto|apply IHForall2; auto].
Qed.
Lemma rodrigues_0 e v : rodrigues e 0 v = v.
Proof. unfold rodrigues. rewrite cos_0, sin_0. vring. Qed.
Lemma rodrigues_2PI e v : rodrigues e (2 * PI) v = v.
Proof. unfold rodrigues. rewrite cos_2PI, sin_2PI. vring. Qed.
Lemma rodrigues_height e a v : norm2 e = 1 -> vdot e (rodrigues e a v) = vdot e v.
Proof.
  intros N. unfold rodrigues. destruct e as [x y z], v as [u w t]. unfold norm2, vdot in N. unfold vdot, vadd, vscale, cross. cbn [vx vy vz] in *.
  set (c := cos a). set (s := sin a).
  transitivity (c * (x * u + y * w + z * t) + (1 - c) * (x * u + y * w + z * t) * (x * x + y * y + z * z)); [ring|rewrite N; ring].
Qed.
(** point of the circle at parameter t in [0,1] *)
Definition circle_at (c s ax : vec3) (t : R) : vec3 := vadd c (rodrigues (unit_axis ax) (2 * PI * t) (vsub s c)).
Lemma vec_norm ax : sqrt (fold_right Rplus 0 (map (fun x => x * x) (vlist ax))) = sqrt (norm2 ax).
Proof. destruct ax. unfold norm2, vdot, vlist. cbn. f_equal. ring. Qed.
Lemma circle_point_spec c s ax a : norm2 ax <> 0 ->
  circle_point (map (fun x => x / sqrt (norm2 ax)) (vlist ax)) (map (fun p => fst p - snd p) (combine (vlist s) (vlist c))) (vlist c) a =
  Ok (vlist (vadd c (rodrigues (unit_axis ax) a (vsub s c)))).
Proof.
  intros N. unfold vlist at 1 2 3. cbn [map combine fst snd circle_point]. rewrite bcast2_same by auto. cbn [bind vlist combine map fst snd].
  f_equal. unfold vlist, rodrigues, unit_axis. destruct ax as [x y z], s as [u w t], c as [p q r].
  set (k := sqrt (norm2 (V3 x y z))). unfold vadd, vsub, vscale, cross, vdot. cbn [vx vy vz]. unfold Rdiv. set (ca := cos a). set (sa := sin a).
  f_equal; [ring|f_equal; [ring|f_equal; ring]].
Qed.
Lemma circle_spec mj sj aj c s ax n : nums mj = Ok (vlist c) -> nums sj = Ok (vlist s) -> nums aj = Ok (vlist ax) -> norm2 ax <> 0 ->
  exists ps, create_circle mj sj aj (JInt (Z.of_nat n)) = Ok ps /\ length ps = n /\
  (forall k, (2 <= n)%nat -> (k < n)%nat -> nth_error ps k = Some (vlist (circle_at c s ax (INR k / INR (n - 1))))) /\
  (forall p, In p ps -> exists v, p = vlist v /\ norm2 (vsub v c) = norm2 (vsub s c) /\ vdot ax (vsub v c) = vdot ax (vsub s c)) /\
  ((1 <= n)%nat -> nth_error ps 0 = Some (vlist s)) /\
  ((2 <= n)%nat -> nth_error ps (n - 1) = Some (vlist s)).
Proof.
  intros M S A N.
  assert (Q : sqrt (norm2 ax) <> 0). { intros E. apply sqrt_eq_0 in E; [auto|apply norm2_pos]. }
  set (pt := fun a => vlist (vadd c (rodrigues (unit_axis ax) a (vsub s c)))).
  assert (C : create_circle mj sj aj (JInt (Z.of_nat n)) = Ok (map pt (linspace 0 (2 * PI) n))).
  { unfold create_circle. rewrite A. cbn [bind]. rewrite vec_norm. destruct (Req_EM_T (sqrt (norm2 ax)) 0); [contradiction|]. rewrite M, S. cbn [bind]. rewrite bcast2_same by reflexivity. cbn [bind int_of].
    rewrite of_nat_nonneg, Nat2Z.id. generalize (linspace 0 (2 * PI) n). induction l as [|a l IH]; [reflexivity|]. cbn [mapM map]. rewrite circle_point_spec by auto. cbn [bind]. rewrite IH. reflexivity. }
  assert (U : vadd c (vsub s c) = s) by (vring).
  exists (map pt (linspace 0 (2 * PI) n)). split; [auto|]. split; [rewrite map_length; apply linspace_length|]. split; [|split; [|split]].
  - intros k H K. rewrite nth_error_map, linspace_nth by auto. cbn [option_map]. unfold pt, circle_at. do 4 f_equal. ring.
  - intros p I. apply in_map_iff in I. destruct I as (a & <- & _). exists (vadd c (rodrigues (unit_axis ax) a (vsub s c))). split; [auto|].
    assert (D : vsub (vadd c (rodrigues (unit_axis ax) a (vsub s c))) c = rodrigues (unit_axis ax) a (vsub s c)).
    { generalize (rodrigues (unit_axis ax) a (vsub s c)). intros w. vring. }
    rewrite D. pose proof (unit_axis_unit ax N) as UU. split; [apply rodrigues_norm; auto|].
    pose proof (rodrigues_height (unit_axis ax) a (vsub s c) UU) as H.
    assert (X : forall w, vdot ax w = sqrt (norm2 ax) * vdot (unit_axis ax) w).
    { intros w. unfold unit_axis. set (k := sqrt (norm2 ax)) in *. destruct ax as [x y z], w as [u v t]. unfold vdot, vscale. cbn [vx vy vz]. field. auto. }
    rewrite !X, H. auto.
  - intros H. rewrite nth_error_map, linspace_first by auto. cbn [option_map]. unfold pt. rewrite rodrigues_0, U. auto.
  - intros H. rewrite nth_error_map, linspace_last by auto. cbn [option_map]. unfold pt. rewrite rodrigues_2PI, U. auto.
Qed.

(** ** Tolerances *)
Lemma Forall2_impl {A B} (P Q : A -> B -> Prop) l l' : (forall x y, P x y -> Q x y) -> Forall2 P l l' -> Forall2 Q l l'.
Proof. intros H. induction 1; constructor; auto. Qed.
(** coordinate p with tolerance tol: a band around p, or p itself *)
Definition symmetric (p tol : R) (v : num) : Prop :=
  if Rlt_dec 0 tol then v = Tol (TN (p - tol) (p + tol) p 10) else v = Fix p.
Lemma sym_coord_spec p tol : exists v, sym_coord (p, tol) = Ok v /\ symmetric p tol v.
Proof.
  unfold sym_coord, symmetric. cbn [fst snd]. destruct (Rlt_dec 0 tol); [|eauto]. cbn [new_tol bind]. eexists. split; [reflexivity|]. do 2 f_equal. field.
Qed.
Lemma sym_coords l : exists vs, mapM sym_coord l = Ok vs /\ Forall2 (fun p v => symmetric (fst p) (snd p) v) l vs.
Proof. apply mapM_ex. intros [p t] _. destruct (sym_coord_spec p t) as (v & E & S). eauto. Qed.
Lemma sym_coords_inv l vs : mapM sym_coord l = Ok vs -> Forall2 (fun p v => symmetric (fst p) (snd p) v) l vs.
Proof. intros H. destruct (sym_coords l) as (w & E & F). congruence. Qed.
Lemma py3 (l : list R) : (3 <= length l)%nat -> exists a b c r, l = a :: b :: c :: r.
Proof. destruct l as [|a [|b [|c r]]]; cbn; intros; try lia. eauto 6. Qed.
Lemma rot3_Ok a b c r : rot3 (a :: b :: c :: r) = Ok (rot_xyz a b c).
Proof. unfold rot3, py_index. cbn [nth_error bind]. unfold rot_xyz. rewrite mmul_assoc. auto. Qed.
Lemma rot3_short l : (length l < 3)%nat -> rot3 l = Raise IndexError.
Proof. destruct l as [|a [|b [|c r]]]; cbn; intros; try lia; reflexivity. Qed.
Lemma rpy_quat a b c r : exists q, rpy_to_quaternion (a :: b :: c :: r) = Ok q /\ qnorm2 q = 1 /\ qrot q = rot_xyz a b c.
Proof. unfold rpy_to_quaternion. rewrite rot3_Ok. cbn [bind]. eexists. split; [reflexivity|]. apply quat_of_matrix_rot, rot_xyz_rotation. Qed.
Lemma new_pospt_Ok xyz q : (3 <= length xyz)%nat -> exists pt, new_pospt xyz q = Ok pt /\ p_pos pt = xyz /\ p_quat pt = q.
Proof. destruct xyz as [|a [|b [|c r]]]; cbn; intros; try lia. eauto. Qed.
Lemma new_pospt_inv xyz q pt : new_pospt xyz q = Ok pt -> (3 <= length xyz)%nat /\ p_pos pt = xyz /\ p_quat pt = q.
Proof. destruct xyz as [|a [|b [|c r]]]; cbn; try discriminate. intros H. injection H as <-. cbn. split; [lia|auto]. Qed.
(** a path point with fixed orientation rpy around p *)
Definition pos_point (rpy tol : list R) (p : list R) (x : ppt) : Prop :=
  exists pt a b c r, x = PPos pt /\ Forall2 (fun pt v => symmetric (fst pt) (snd pt) v) (combine p tol) (p_pos pt) /\
  rpy = a :: b :: c :: r /\ qnorm2 (p_quat pt) = 1 /\ qrot (p_quat pt) = rot_xyz a b c.
Lemma position_tolerance_spec ps rpy tol path : create_symmetric_position_tolerance ps rpy tol = Ok path -> Forall2 (pos_point rpy tol) ps path.
Proof.
  unfold create_symmetric_position_tolerance. intros H. apply bind_Ok in H. destruct H as (q & Q & H).
  destruct (le_lt_dec 3 (length rpy)) as [L|L]; [|unfold rpy_to_quaternion in Q; rewrite rot3_short in Q by auto; discriminate].
  destruct (py3 _ L) as (a & b & c & r & ->). destruct (rpy_quat a b c r) as (q' & Q' & U & V). rewrite Q' in Q. injection Q as ->.
  apply mapM_Ok_Forall2 in H. eapply Forall2_impl; [|exact H]. cbn beta. clear - U V. intros p x H.
  apply bind_Ok in H. destruct H as (xyz & E & H). apply bind_Ok in H. destruct H as (pt & P & H). injection H as <-.
  apply new_pospt_inv in P. destruct P as (_ & P1 & P2). exists pt, a, b, c, r. rewrite P1, P2. split; [auto|]. split; [apply sym_coords_inv; auto|]. auto.
Qed.
Lemma position_tolerance_returns ps rpy tol : (3 <= length rpy)%nat -> (3 <= length tol)%nat -> Forall (fun p => (3 <= length p)%nat) ps ->
  exists path, create_symmetric_position_tolerance ps rpy tol = Ok path.
Proof.
  intros L T P. destruct (py3 _ L) as (a & b & c & r & ->). destruct (rpy_quat a b c r) as (q & Q & _). unfold create_symmetric_position_tolerance. rewrite Q. cbn [bind].
  edestruct (mapM_ex (fun p => xyz <- mapM sym_coord (combine p tol) ;; pt <- new_pospt xyz q ;; Ok (PPos pt)) (fun _ _ => True) ps) as (l & E & _); [|eauto].
  intros p I. rewrite Forall_forall in P. specialize (P p I). destruct (sym_coords (combine p tol)) as (xyz & E & F). rewrite E. cbn [bind].
  destruct (new_pospt_Ok xyz q) as (pt & N & _); [rewrite <- (Forall2_length F), combine_length; lia|]. rewrite N. cbn [bind]. eauto.
Qed.
Lemma new_eulerpt_inv pos rpy pt : new_eulerpt pos rpy = Ok pt -> e_pos pt = pos /\ e_rpy pt = rpy.
Proof. destruct pos as [|a [|b [|c r]]], rpy as [|a' [|b' [|c' r']]]; cbn; try discriminate. intros H. injection H as <-. cbn. auto. Qed.
(** a path point at p with tolerances on the angles *)
Definition euler_point (rpy tol : list R) (p : list R) (x : ppt) : Prop :=
  exists pt, x = PEuler pt /\ e_pos pt = map Fix p /\
  Forall2 (fun pt v => symmetric (fst pt) (snd pt) v) (combine (map guess_angle_unit rpy) (map guess_angle_unit tol)) (e_rpy pt).
Lemma euler_tolerance_spec ps rpy tol path : create_symmetric_euler_tolerance ps rpy tol = Ok path -> Forall2 (euler_point rpy tol) ps path.
Proof.
  unfold create_symmetric_euler_tolerance. cbv zeta. intros H. apply mapM_Ok_Forall2 in H. eapply Forall2_impl; [|exact H]. cbn beta. clear. intros p x H.
  apply bind_Ok in H. destruct H as (r & E & H). apply bind_Ok in H. destruct H as (pt & P & H). injection H as <-.
  apply new_eulerpt_inv in P. destruct P as (P1 & P2). exists pt. rewrite P1, P2. split; [auto|]. split; [auto|]. apply sym_coords_inv; auto.
Qed.
Lemma euler_tolerance_returns ps rpy tol : (3 <= length rpy)%nat -> (3 <= length tol)%nat -> Forall (fun p => (3 <= length p)%nat) ps ->
  exists path, create_symmetric_euler_tolerance ps rpy tol = Ok path.
Proof.
  intros L T P. unfold create_symmetric_euler_tolerance. cbv zeta. set (rp := map guess_angle_unit rpy). set (tl := map guess_angle_unit tol).
  edestruct (mapM_ex (fun p => r <- mapM sym_coord (combine rp tl) ;; pt <- new_eulerpt (map Fix p) r ;; Ok (PEuler pt)) (fun _ _ => True) ps) as (l & E & _); [|eauto].
  intros p I. rewrite Forall_forall in P. specialize (P p I). destruct (sym_coords (combine rp tl)) as (r & E & F). rewrite E. cbn [bind].
  destruct (proj2 (new_eulerpt_Ok (map Fix p) r)) as (pt & N). { rewrite map_length, <- (Forall2_length F), combine_length. unfold rp, tl. rewrite !map_length. lia. }
  rewrite N. cbn [bind]. eauto.
Qed.

(** ** guess_angle_unit *)
Lemma guess_neg_iff v : guess_angle_unit (- v) = - guess_angle_unit v <-> -10 <= v <= 10.
Proof.
  pose proof PI_RGT_0 as P0. pose proof PI_4 as P4. unfold guess_angle_unit. split.
  - intros H. destruct (Rlt_dec 10 (- v)), (Rlt_dec 10 v); try lra.
    + exfalso. nra.
    + exfalso. nra.
  - intros H. destruct (Rlt_dec 10 (- v)), (Rlt_dec 10 v); lra.
Qed.
Lemma guess_refuted : exists v, guess_angle_unit (- v) <> - guess_angle_unit v.
Proof. exists 90. intros H. apply guess_neg_iff in H. lra. Qed.

(** ** parse_path *)
Lemma is_str_eq j s : is_str j s = true <-> j = JStr s.
Proof. destruct j; cbn; split; intros H; try discriminate. - apply String.eqb_eq in H. congruence. - injection H as ->. apply String.eqb_refl. Qed.
Lemma is_str_neq j s : j <> JStr s -> is_str j s = false.
Proof. intros H. destruct (is_str j s) eqn:E; [|auto]. apply is_str_eq in E. contradiction. Qed.
Definition known_type (t : json) : Prop := t = JStr "LINE" \/ t = JStr "CIRC".
Definition known_tolerance (t : json) : Prop := t = JStr "orientation_free" \/ t = JStr "position_tolerance" \/ t = JStr "euler_tolerance".
(** the class belonging to a tolerance type *)
Definition in_class (t : json) (x : ppt) : Prop :=
  match x with
  | PFree _ => t = JStr "orientation_free"
  | PPos _ => t = JStr "position_tolerance"
  | PEuler _ => t = JStr "euler_tolerance"
  end.
Lemma int_of_len n z (l : list (list R)) : int_of n = Ok z -> (z <? 0)%Z = false -> length l = Z.to_nat z -> n = JInt (Z.of_nat (length l)).
Proof. intros I B L. destruct n; try discriminate. injection I as ->. apply Z.ltb_ge in B. rewrite L, Z2Nat.id by lia. auto. Qed.
Lemma create_line_length sp ep n ps : create_line sp ep n = Ok ps -> n = JInt (Z.of_nat (length ps)).
Proof.
  unfold create_line. intros H. apply bind_Ok in H. destruct H as (sj & _ & H). apply bind_Ok in H. destruct H as (a & _ & H). apply bind_Ok in H. destruct H as (b & _ & H).
  apply bind_Ok in H. destruct H as (z & I & H). destruct (z <? 0)%Z eqn:B; [discriminate|]. apply bind_Ok in H. destruct H as (ab & _ & H). injection H as <-.
  eapply int_of_len; eauto. apply rows_length.
Qed.
Lemma create_circle_length m s a n ps : create_circle m s a n = Ok ps -> n = JInt (Z.of_nat (length ps)).
Proof.
  unfold create_circle. intros H. apply bind_Ok in H. destruct H as (ax & _ & H). cbv zeta in H. destruct (Req_EM_T _ 0); [discriminate|].
  apply bind_Ok in H. destruct H as (c & _ & H). apply bind_Ok in H. destruct H as (sl & _ & H). apply bind_Ok in H. destruct H as (sc & _ & H). apply bind_Ok in H. destruct H as (z & I & H).
  destruct (z <? 0)%Z eqn:B; [discriminate|]. eapply int_of_len; eauto. apply mapM_Ok_length in H. rewrite H. apply linspace_length.
Qed.
Lemma positions_sound pd ps : path_positions pd = Ok ps ->
  exists t, getitem pd "type" = Ok t /\ known_type t /\ getitem pd "num_points" = Ok (JInt (Z.of_nat (length ps))).
Proof.
  unfold path_positions. intros H. apply bind_Ok in H. destruct H as (t & T & H). exists t. split; [auto|].
  destruct (is_str t "LINE") eqn:E1; [|destruct (is_str t "CIRC") eqn:E2; [|discriminate]].
  - apply is_str_eq in E1. split; [left; auto|]. apply bind_Ok in H. destruct H as (sp & _ & H). apply bind_Ok in H. destruct H as (ep & _ & H). apply bind_Ok in H. destruct H as (n & N & H).
    apply create_line_length in H. congruence.
  - apply is_str_eq in E2. split; [right; auto|]. apply bind_Ok in H. destruct H as (sp & _ & H). apply bind_Ok in H. destruct H as (ep & _ & H). apply bind_Ok in H. destruct H as (ax & _ & H). apply bind_Ok in H. destruct H as (n & N & H).
    apply create_circle_length in H. congruence.
Qed.
(** what the tolerance type makes of the positions *)
Definition made (pd tl : json) (ps : list (list R)) (path : list ppt) : Prop :=
  (tl = JStr "orientation_free" /\ path = map PFree ps) \/
  (exists sp rj tj rpy tol, getitem pd "start_pose" = Ok sp /\ getitem sp "rpy" = Ok rj /\ nums rj = Ok rpy /\
    ((tl = JStr "position_tolerance" /\ getitem pd "xyz_tol" = Ok tj /\ nums tj = Ok tol /\ Forall2 (pos_point rpy tol) ps path) \/
     (tl = JStr "euler_tolerance" /\ getitem pd "rpy_tol" = Ok tj /\ nums tj = Ok tol /\ Forall2 (euler_point rpy tol) ps path))).
Lemma parse_path_inv d path : parse_path d = Ok path -> exists pd ps tl, getitem d "path" = Ok pd /\ path_positions pd = Ok ps /\ getitem pd "tolerance" = Ok tl /\ made pd tl ps path.
Proof.
  unfold parse_path. intros H. apply bind_Ok in H. destruct H as (pd & P & H). apply bind_Ok in H. destruct H as (ps & Q & H). apply bind_Ok in H. destruct H as (tl & T & H).
  exists pd, ps, tl. do 3 (split; [auto|]). unfold made.
  destruct (is_str tl "orientation_free") eqn:E1; [apply is_str_eq in E1; injection H as <-; auto|]. right.
  destruct (is_str tl "position_tolerance") eqn:E2; [|destruct (is_str tl "euler_tolerance") eqn:E3; [|discriminate]];
  apply bind_Ok in H; destruct H as (sp & S & H); apply bind_Ok in H; destruct H as (rj & Rj & H); apply bind_Ok in H; destruct H as (tj & Tj & H);
  apply bind_Ok in H; destruct H as (rpy & Er & H); apply bind_Ok in H; destruct H as (tol & Et & H); exists sp, rj, tj, rpy, tol; do 3 (split; [auto|]).
  - left. apply is_str_eq in E2. apply position_tolerance_spec in H. auto.
  - right. apply is_str_eq in E3. apply euler_tolerance_spec in H. auto.
Qed.
Lemma made_class pd tl ps path : made pd tl ps path -> known_tolerance tl /\ length path = length ps /\ Forall (in_class tl) path.
Proof.
  unfold known_tolerance. intros [(T & ->)|(sp & rj & tj & rpy & tol & _ & _ & _ & [(T & _ & _ & F)|(T & _ & _ & F)])].
  - split; [auto|]. split; [apply map_length|]. apply Forall_forall. intros x I. apply in_map_iff in I. destruct I as (p & <- & _). auto.
  - split; [auto|]. split; [symmetry; apply (Forall2_length F)|]. apply Forall_forall. intros x I. apply (Forall2_In_r _ _ _ _ F) in I. destruct I as (p & _ & pt & a & b & c & r & -> & _). auto.
  - split; [auto|]. split; [symmetry; apply (Forall2_length F)|]. apply Forall_forall. intros x I. apply (Forall2_In_r _ _ _ _ F) in I. destruct I as (p & _ & pt & -> & _). auto.
Qed.
Lemma parse_path_sound d path : parse_path d = Ok path -> exists pd t tl, getitem d "path" = Ok pd /\
  getitem pd "type" = Ok t /\ known_type t /\ getitem pd "tolerance" = Ok tl /\ known_tolerance tl /\
  getitem pd "num_points" = Ok (JInt (Z.of_nat (length path))) /\ Forall (in_class tl) path.
Proof.
  intros H. destruct (parse_path_inv _ _ H) as (pd & ps & tl & P & Q & T & M). destruct (made_class _ _ _ _ M) as (K & L & F). destruct (positions_sound _ _ Q) as (t & Et & Kt & N).
  exists pd, t, tl. rewrite L. auto 8.
Qed.
Lemma parse_path_type d pd t : getitem d "path" = Ok pd -> getitem pd "type" = Ok t -> ~ known_type t -> parse_path d = Raise GenericException.
Proof.
  intros P T K. unfold parse_path, path_positions. rewrite P. cbn [bind]. rewrite T. cbn [bind]. unfold known_type in K. rewrite !is_str_neq by tauto. reflexivity.
Qed.
Lemma parse_path_tolerance d pd ps t : getitem d "path" = Ok pd -> path_positions pd = Ok ps -> getitem pd "tolerance" = Ok t -> ~ known_tolerance t -> parse_path d = Raise GenericException.
Proof.
  intros P Q T K. unfold parse_path. rewrite P. cbn [bind]. rewrite Q. cbn [bind]. rewrite T. cbn [bind]. unfold known_tolerance in K. rewrite !is_str_neq by tauto. reflexivity.
Qed.
(** complete fields *)
Definition vec_field (d : json) (k : string) (v : vec3) : Prop := exists j, getitem d k = Ok j /\ nums j = Ok (vlist v).
Definition geometry_ok (pd : json) (n : nat) : Prop :=
  getitem pd "num_points" = Ok (JInt (Z.of_nat n)) /\
  ((exists sp a b, getitem pd "type" = Ok (JStr "LINE") /\ getitem pd "start_pose" = Ok sp /\ vec_field sp "xyz" a /\ vec_field pd "end_point" b) \/
   (exists m s ax, getitem pd "type" = Ok (JStr "CIRC") /\ vec_field pd "mid" m /\ vec_field pd "start" s /\ vec_field pd "axis" ax /\ norm2 ax <> 0)).
Definition tolerance_ok (pd : json) : Prop :=
  getitem pd "tolerance" = Ok (JStr "orientation_free") \/
  (exists sp rpy tol, getitem pd "start_pose" = Ok sp /\ vec_field sp "rpy" rpy /\
    ((getitem pd "tolerance" = Ok (JStr "position_tolerance") /\ vec_field pd "xyz_tol" tol) \/
     (getitem pd "tolerance" = Ok (JStr "euler_tolerance") /\ vec_field pd "rpy_tol" tol))).
Lemma lerp_vec s a b : lerp s (vlist a) (vlist b) = vlist (vadd a (vscale s (vsub b a))).
Proof. reflexivity. Qed.
Lemma positions_complete pd n : geometry_ok pd n -> exists ps, path_positions pd = Ok ps /\ length ps = n /\ Forall (fun p => (3 <= length p)%nat) ps.
Proof.
  intros (N & [(sp & a & b & T & S & (xj & X & Xn) & (ej & E & En))|(m & s & ax & T & (mj & M & Mn) & (sj & S & Sn) & (aj & A & An) & NZ)]); unfold path_positions; rewrite T; cbn [bind is_str String.eqb Ascii.eqb Bool.eqb].
  - rewrite S. cbn [bind]. rewrite E. cbn [bind]. rewrite N. cbn [bind]. destruct (line_spec sp xj ej (vlist a) (vlist b) n X Xn En eq_refl) as (ps & C & L & _). exists ps. split; [exact C|]. split; [auto|].
    unfold create_line in C. rewrite X in C. cbn [bind] in C. rewrite Xn, En in C. cbn [bind int_of] in C. rewrite of_nat_nonneg, bcast2_same in C by auto. cbn [bind] in C. injection C as <-.
    apply Forall_forall. intros p I. unfold linspace_rows in I. apply in_map_iff in I. destruct I as (k & <- & _). rewrite map_length. cbn. lia.
  - rewrite M. cbn [bind]. rewrite S. cbn [bind]. rewrite A. cbn [bind]. rewrite N. cbn [bind]. destruct (circle_spec mj sj aj m s ax n Mn Sn An NZ) as (ps & C & L & _ & V & _). exists ps. split; [exact C|]. split; [auto|].
    apply Forall_forall. intros p I. destruct (V p I) as (v & -> & _). cbn. lia.
Qed.
Lemma parse_path_complete d pd n : getitem d "path" = Ok pd -> geometry_ok pd n -> tolerance_ok pd -> exists path, parse_path d = Ok path /\ length path = n.
Proof.
  intros P G T. destruct (positions_complete pd n G) as (ps & Q & L & F).
  assert (X : exists path, parse_path d = Ok path).
  { unfold parse_path. rewrite P. cbn [bind]. rewrite Q. cbn [bind]. destruct T as [T|(sp & rpy & tol & S & (rj & Rj & Rn) & [(T & tj & Tj & Tn)|(T & tj & Tj & Tn)])]; rewrite T; cbn [bind is_str String.eqb Ascii.eqb Bool.eqb].
    - eexists. reflexivity.
    - rewrite S. cbn [bind]. rewrite Rj. cbn [bind]. rewrite Tj. cbn [bind]. rewrite Rn. cbn [bind]. rewrite Tn. cbn [bind]. apply position_tolerance_returns; cbn; auto; lia.
    - rewrite S. cbn [bind]. rewrite Rj. cbn [bind]. rewrite Tj. cbn [bind]. rewrite Rn. cbn [bind]. rewrite Tn. cbn [bind]. apply euler_tolerance_returns; cbn; auto; lia. }
  destruct X as (path & E). exists path. split; [auto|]. destruct (parse_path_sound _ _ E) as (pd' & t & tl & P' & _ & _ & _ & _ & N & _). destruct G as (N' & _).
  assert (pd' = pd) by congruence. subst pd'. rewrite N' in N. injection N as N. lia.
Qed.

(** ** parse_obstacles *)
(** entry j describes a box of this size at this place *)
Definition box_entry (j : json) (s : shape) (T : mat4) : Prop :=
  getitem j "type" = Ok (JStr "box") /\ exists sz xyz a b c r rj, vec_field j "size" sz /\ s = Shape (vx sz) (vy sz) (vz sz) /\
  (exists xj l, getitem j "xyz" = Ok xj /\ nums xj = Ok l /\ (l = vlist xyz \/ exists x, l = [x] /\ xyz = V3 x x x)) /\
  getitem j "rpy" = Ok rj /\ nums rj = Ok (a :: b :: c :: r) /\ T = M4 (rot_xyz a b c) xyz v0 1.
Lemma box_entry_rigid j s T : box_entry j s T -> rigid T.
Proof. intros (_ & sz & xyz & a & b & c & r & rj & _ & _ & _ & _ & _ & ->). split; cbn; auto. apply rot_xyz_rotation. Qed.
Lemma parse_shape_inv j s T : parse_shape j = Ok (s, T) <-> box_entry j s T.
Proof.
  split.
  - unfold parse_shape. intros H. apply bind_Ok in H. destruct H as (t & E & H). destruct (is_str t "box") eqn:B; [|discriminate]. apply is_str_eq in B. subst t. split; [auto|].
    unfold create_box in H. apply bind_Ok in H. destruct H as (zj & Z & H). apply bind_Ok in H. destruct H as (l & Zn & H). apply bind_Ok in H. destruct H as (s' & Es & H).
    apply bind_Ok in H. destruct H as (xj & X & H). apply bind_Ok in H. destruct H as (rj & Rj & H). apply bind_Ok in H. destruct H as (xyz & Xn & H). apply bind_Ok in H. destruct H as (rpy & Rn & H).
    apply bind_Ok in H. destruct H as (T' & Et & H). injection H as -> ->.
    destruct l as [|lx [|ly [|lz [|? ?]]]]; try discriminate. injection Es as <-.
    unfold create_transform in Et. apply bind_Ok in Et. destruct Et as (T0 & E0 & Et). apply bind_Ok in Et. destruct Et as (Rm & Er & Et). injection Et as <-.
    destruct (le_lt_dec 3 (length rpy)) as [L|L]; [|rewrite rot3_short in Er by auto; discriminate]. destruct (py3 _ L) as (a & b & c & r & ->). rewrite rot3_Ok in Er. injection Er as <-.
    destruct xyz as [|x [|y [|z [|? ?]]]]; cbn [set_pos] in E0; try discriminate; injection E0 as <-.
    + exists (V3 lx ly lz), (V3 x x x), a, b, c, r, rj. split; [exists zj; auto|]. split; [auto|]. split; [exists xj, [x]; split; [auto|]; split; [auto|right; eauto]|]. auto.
    + exists (V3 lx ly lz), (V3 x y z), a, b, c, r, rj. split; [exists zj; auto|]. split; [auto|]. split; [exists xj, [x; y; z]; auto|]. auto.
  - intros (E & sz & xyz & a & b & c & r & rj & (zj & Z & Zn) & -> & (xj & l & X & Xn & Xl) & Rj & Rn & ->).
    unfold parse_shape. rewrite E. cbn [bind is_str String.eqb Ascii.eqb Bool.eqb]. unfold create_box. rewrite Z. cbn [bind]. rewrite Zn. cbn [bind vlist]. rewrite X. cbn [bind]. rewrite Rj. cbn [bind]. rewrite Xn. cbn [bind]. rewrite Rn. cbn [bind].
    unfold create_transform. destruct xyz as [x y z]. destruct Xl as [->|(u & -> & Xe)]; cbn [set_pos vlist vx vy vz bind]; rewrite rot3_Ok; cbn [bind pos brow bww eye4]; [auto|]. injection Xe as -> -> ->. auto.
Qed.
Lemma parse_shape_other j t : getitem j "type" = Ok t -> t <> JStr "box" -> parse_shape j = Raise GenericException.
Proof. intros E N. unfold parse_shape. rewrite E. cbn [bind]. rewrite is_str_neq by auto. auto. Qed.
Inductive entries : list json -> list shape -> list mat4 -> Prop :=
| entries_nil : entries [] [] []
| entries_cons j s T js ss Ts : box_entry j s T -> entries js ss Ts -> entries (j :: js) (s :: ss) (T :: Ts).
Lemma parse_shapes_entries js ss Ts : entries js ss Ts <-> exists bs, mapM parse_shape js = Ok bs /\ ss = map fst bs /\ Ts = map snd bs.
Proof.
  split.
  - induction 1 as [|j s T js ss Ts B H IH]; [exists []; auto|]. destruct IH as (bs & E & -> & ->). exists ((s, T) :: bs). cbn [mapM]. rewrite (proj2 (parse_shape_inv j s T) B). cbn [bind]. rewrite E. auto.
  - intros (bs & E & -> & ->). apply mapM_Ok_Forall2 in E. induction E as [|j [s T] js bs B H IH]; [constructor|]. cbn [map fst snd]. constructor; [apply parse_shape_inv; auto|auto].
Qed.
Lemma obstacles_spec d js ss Ts : getitem d "obstacles" = Ok (JList js) -> (parse_obstacles d = Ok (Coll ss Ts) <-> entries js ss Ts).
Proof.
  intros G. rewrite parse_shapes_entries. unfold parse_obstacles. rewrite G. cbn [bind iterate]. split.
  - intros H. apply bind_Ok in H. destruct H as (bs & E & H). injection H as <- <-. eauto.
  - intros (bs & E & -> & ->). rewrite E. auto.
Qed.
Lemma entries_shape js ss Ts : entries js ss Ts -> length ss = length js /\ length Ts = length js /\ Forall rigid Ts /\
  forall i j, nth_error js i = Some j -> exists s T, nth_error ss i = Some s /\ nth_error Ts i = Some T /\ box_entry j s T.
Proof.
  induction 1 as [|j s T js ss Ts B H IH]; [cbn; repeat split; auto; destruct i; discriminate|]. destruct IH as (L1 & L2 & F & N). cbn. split; [auto|]. split; [auto|]. split; [constructor; [eapply box_entry_rigid; eauto|auto]|].
  intros [|i] j'; cbn; [intros X; injection X as <-; eauto|apply N].
Qed.
Lemma obstacles_other d js1 j js2 t ss Ts : getitem d "obstacles" = Ok (JList (js1 ++ j :: js2)) -> entries js1 ss Ts -> getitem j "type" = Ok t -> t <> JStr "box" ->
  parse_obstacles d = Raise GenericException.
Proof.
  intros G E T N. unfold parse_obstacles. rewrite G. cbn [bind iterate]. apply parse_shapes_entries in E. destruct E as (bs & E & _). rewrite mapM_app, E. cbn [bind mapM]. rewrite (parse_shape_other _ _ T N). reflexivity.
Qed.

(** ** Whole tasks *)
Lemma task_spec d path scene : parse_task_data d = Ok (path, scene) <-> parse_path d = Ok path /\ parse_obstacles d = Ok scene.
Proof.
  unfold parse_task_data. split.
  - intros H. apply bind_Ok in H. destruct H as (p & P & H). apply bind_Ok in H. destruct H as (s & S & H). injection H as <- <-. auto.
  - intros [-> ->]. auto.
Qed.
Lemma import_paths_spec d js : getitem d "paths" = Ok (JList js) -> forall paths,
  import_paths d = Ok paths <-> Forall2 (fun j p => parse_path (JObj [("path"%string, j)]) = Ok p) js paths.
Proof.
  intros G paths. unfold import_paths. rewrite G. cbn [bind iterate]. split; [apply mapM_Ok_Forall2|]. clear G.
  induction 1 as [|j p js ps E F IH]; [auto|]. cbn [mapM]. rewrite E. cbn [bind]. rewrite IH. auto.
Qed.

(** ** Samples of the points of a parsed path *)
(** parameter of point k of n *)
Definition frac (k n : nat) : R := if (n <=? 1)%nat then 0 else INR k / INR (n - 1).
(** the k-th of n positions on the line or circle described by pd *)
Definition position_at (pd : json) (n k : nat) (v : vec3) : Prop :=
  (exists sp a b, getitem pd "type" = Ok (JStr "LINE") /\ getitem pd "start_pose" = Ok sp /\ vec_field sp "xyz" a /\ vec_field pd "end_point" b /\
     v = vadd a (vscale (frac k n) (vsub b a))) \/
  (exists m s ax, getitem pd "type" = Ok (JStr "CIRC") /\ vec_field pd "mid" m /\ vec_field pd "start" s /\ vec_field pd "axis" ax /\ norm2 ax <> 0 /\
     v = circle_at m s ax (frac k n)).
Lemma positions_at pd ps n k v : path_positions pd = Ok ps -> length ps = n -> position_at pd n k v -> (k < n)%nat -> nth_error ps k = Some (vlist v).
Proof.
  intros Q L P K. destruct (positions_sound _ _ Q) as (_ & _ & _ & N). rewrite L in N. unfold path_positions in Q.
  destruct P as [(sp & a & b & T & S & (xj & X & Xn) & (ej & E & En) & ->)|(m & s & ax & T & (mj & M & Mn) & (sj & S & Sn) & (aj & A & An) & NZ & ->)]; rewrite T in Q; cbn [bind is_str String.eqb Ascii.eqb Bool.eqb] in Q.
  - rewrite S in Q. cbn [bind] in Q. rewrite E in Q. cbn [bind] in Q. rewrite N in Q. cbn [bind] in Q.
    destruct (line_spec sp xj ej (vlist a) (vlist b) n X Xn En eq_refl) as (ps' & C & _ & G & F & _). rewrite C in Q. injection Q as ->.
    unfold frac. destruct (Nat.leb_spec n 1).
    + assert (k = 0%nat) by lia. subst k. rewrite F by lia. do 2 f_equal. vring.
    + rewrite G by lia. rewrite lerp_vec. auto.
  - rewrite M in Q. cbn [bind] in Q. rewrite S in Q. cbn [bind] in Q. rewrite A in Q. cbn [bind] in Q. rewrite N in Q. cbn [bind] in Q.
    destruct (circle_spec mj sj aj m s ax n Mn Sn An NZ) as (ps' & C & _ & G & _ & F & _). rewrite C in Q. injection Q as ->.
    unfold frac. destruct (Nat.leb_spec n 1).
    + assert (k = 0%nat) by lia. subst k. rewrite F by lia. do 2 f_equal. unfold circle_at. rewrite Rmult_0_r, rodrigues_0. vring.
    + rewrite G by lia. auto.
Qed.
Lemma symmetric_proper p tol v : symmetric p tol v -> proper v /\ count v = (if Rlt_dec 0 tol then 10 else 1)%nat /\
  (forall x, within v x -> Rabs (x - p) <= Rmax 0 tol).
Proof.
  unfold symmetric. destruct (Rlt_dec 0 tol) as [H|H]; intros ->; cbn.
  - split; [split; [lra|lia]|]. split; [reflexivity|]. intros x X. rewrite Rmax_right by lra. apply Rabs_le. lra.
  - split; [auto|]. split; [auto|]. intros x ->. replace (p - p) with 0 by ring. rewrite Rabs_R0. apply Rmax_l.
Qed.
Lemma proper_sampled v : proper v -> sampled v.
Proof. destruct v; cbn; tauto. Qed.
(** number of samples for one tolerance *)
Definition tol_count (t : R) : nat := if Rlt_dec 0 t then 10%nat else 1%nat.
Definition close (t x y : R) : Prop := Rabs (x - y) <= Rmax 0 t.
Lemma pos_point_samples a b c tol v x : pos_point [a; b; c] (vlist tol) (vlist v) x ->
  exists pt l, x = PPos pt /\ pos_samples pt = Ok l /\ length l = (tol_count (vx tol) * tol_count (vy tol) * tol_count (vz tol))%nat /\
  forall T, In T l -> rigid T /\ rot T = rot_xyz a b c /\ close (vx tol) (vx (pos T)) (vx v) /\ close (vy tol) (vy (pos T)) (vy v) /\ close (vz tol) (vz (pos T)) (vz v).
Proof.
  intros (pt & a' & b' & c' & r & -> & F & E & U & V). injection E as <- <- <- <-. cbn [vlist combine] in F. apply Forall2_3 in F. destruct F as (p1 & p2 & p3 & E & S1 & S2 & S3). cbn [fst snd] in *.
  apply symmetric_proper in S1, S2, S3. destruct S1 as (P1 & N1 & W1), S2 as (P2 & N2 & W2), S3 as (P3 & N3 & W3).
  destruct (new_pospt_Ok [p1; p2; p3] (p_quat pt)) as (pt' & B & Bp & Bq); [cbn; lia|]. assert (X : pos_samples pt' = pos_samples pt) by (unfold pos_samples; rewrite Bp, Bq, E; auto).
  destruct (pos_within p1 p2 p3 [] (p_quat pt) pt' B) as (l & El & G); [repeat (constructor; [assumption|]); constructor|lra|].
  destruct (pos_spec p1 p2 p3 [] (p_quat pt) pt' B) as (l' & El' & Ln & _); [repeat (constructor; [apply proper_sampled; assumption|]); constructor|]. rewrite El in El'. injection El' as <-.
  exists pt, l. split; [auto|]. split; [congruence|]. split.
  - rewrite Ln. cbn [map fold_right]. rewrite N1, N2, N3. unfold tol_count. lia.
  - intros T I. destruct (G T I) as (RT & ER & G1 & G2 & G3). split; [auto|]. split; [congruence|]. unfold close. auto.
Qed.
Lemma euler_point_samples rpy tol v x : euler_point (vlist rpy) (vlist tol) (vlist v) x ->
  let g := guess_angle_unit in
  exists pt l, x = PEuler pt /\ euler_samples pt = Ok l /\ length l = (tol_count (g (vx tol)) * tol_count (g (vy tol)) * tol_count (g (vz tol)))%nat /\
  forall T, In T l -> rigid T /\ pos T = v /\ exists a b c, rot T = rot_xyz a b c /\ close (g (vx tol)) a (g (vx rpy)) /\ close (g (vy tol)) b (g (vy rpy)) /\ close (g (vz tol)) c (g (vz rpy)).
Proof.
  intros (pt & -> & E & F). cbv zeta. cbn [vlist map combine] in F. apply Forall2_3 in F. destruct F as (p1 & p2 & p3 & E2 & S1 & S2 & S3). cbn [fst snd] in *.
  apply symmetric_proper in S1, S2, S3. destruct S1 as (P1 & N1 & W1), S2 as (P2 & N2 & W2), S3 as (P3 & N3 & W3). cbn [vlist map] in E.
  destruct (proj2 (new_eulerpt_Ok [Fix (vx v); Fix (vy v); Fix (vz v)] [p1; p2; p3])) as (pt' & B); [cbn; lia|].
  destruct (new_eulerpt_inv _ _ _ B) as (Bp & Bq). assert (X : euler_samples pt' = euler_samples pt) by (unfold euler_samples; rewrite Bp, Bq, E, E2; auto).
  destruct (euler_within _ _ _ _ _ _ _ _ pt' B) as (l & El & G); [do 3 (constructor; [exact Logic.I|]); repeat (constructor; [assumption|]); constructor|].
  destruct (euler_spec _ _ _ _ _ _ _ _ pt' B) as (l' & El' & Ln & _); [do 3 (constructor; [exact Logic.I|]); repeat (constructor; [apply proper_sampled; assumption|]); constructor|]. rewrite El in El'. injection El' as <-.
  exists pt, l. split; [auto|]. split; [congruence|]. split.
  - rewrite Ln. cbn [map fold_right count]. rewrite N1, N2, N3. unfold tol_count. lia.
  - intros T I. destruct (G T I) as (RT & x & y & z & a & b & c & F & ->). split; [auto|]. apply Forall2_6 in F. destruct F as (x' & y' & z' & a' & b' & c' & EQ & F1 & F2 & F3 & F4 & F5 & F6). injection EQ as <- <- <- <- <- <-. cbn [within] in F1, F2, F3. subst. split; [destruct v; reflexivity|].
    exists a, b, c. unfold close. auto.
Qed.
Lemma task_points d path pd n k v x : parse_path d = Ok path -> getitem d "path" = Ok pd -> length path = n -> position_at pd n k v -> nth_error path k = Some x ->
  exists tl, getitem pd "tolerance" = Ok tl /\
  ((tl = JStr "orientation_free" /\ x = PFree (vlist v)) \/
   (exists sp rj tj rpy tol, getitem pd "start_pose" = Ok sp /\ getitem sp "rpy" = Ok rj /\ nums rj = Ok rpy /\
    ((tl = JStr "position_tolerance" /\ getitem pd "xyz_tol" = Ok tj /\ nums tj = Ok tol /\ pos_point rpy tol (vlist v) x) \/
     (tl = JStr "euler_tolerance" /\ getitem pd "rpy_tol" = Ok tj /\ nums tj = Ok tol /\ euler_point rpy tol (vlist v) x)))).
Proof.
  intros H P L A X. destruct (parse_path_inv _ _ H) as (pd' & ps & tl & P' & Q & T & M). rewrite P in P'. injection P' as <-.
  destruct (made_class _ _ _ _ M) as (_ & Lm & _). assert (K : (k < n)%nat) by (rewrite <- L; apply nth_error_Some; congruence).
  assert (E : nth_error ps k = Some (vlist v)) by (apply (positions_at pd ps n); auto; congruence).
  exists tl. split; [auto|]. destruct M as [(Tl & ->)|(sp & rj & tj & rpy & tol & S & R1 & R2 & C)].
  - left. split; [auto|]. rewrite nth_error_map, E in X. cbn in X. congruence.
  - right. exists sp, rj, tj, rpy, tol. do 3 (split; [auto|]). destruct C as [(Tl & T1 & T2 & F)|(Tl & T1 & T2 & F)]; [left|right]; do 3 (split; [auto|]);
    destruct (Forall2_nth_r _ _ _ _ _ F X) as (p & Ep & Pp); rewrite E in Ep; injection Ep as <-; auto.
Qed.
Lemma free_task d path pd k v x : parse_path d = Ok path -> getitem d "path" = Ok pd -> getitem pd "tolerance" = Ok (JStr "orientation_free") ->
  position_at pd (length path) k v -> nth_error path k = Some x -> x = PFree (vlist v).
Proof.
  intros H P T A X. destruct (task_points _ _ _ _ _ _ _ H P eq_refl A X) as (tl & T' & C). rewrite T in T'. injection T' as <-.
  destruct C as [(_ & E)|(? & ? & ? & ? & ? & _ & _ & _ & [(E & _)|(E & _)])]; [auto|discriminate..].
Qed.
Lemma position_task d path pd sp a b c tol k v x : parse_path d = Ok path -> getitem d "path" = Ok pd -> getitem pd "tolerance" = Ok (JStr "position_tolerance") ->
  getitem pd "start_pose" = Ok sp -> vec_field sp "rpy" (V3 a b c) -> vec_field pd "xyz_tol" tol -> position_at pd (length path) k v -> nth_error path k = Some x ->
  exists pt l, x = PPos pt /\ pos_samples pt = Ok l /\ length l = (tol_count (vx tol) * tol_count (vy tol) * tol_count (vz tol))%nat /\
  forall T, In T l -> rigid T /\ rot T = rot_xyz a b c /\ close (vx tol) (vx (pos T)) (vx v) /\ close (vy tol) (vy (pos T)) (vy v) /\ close (vz tol) (vz (pos T)) (vz v).
Proof.
  intros H P T S (rj & Rj & Rn) (tj & Tj & Tn) A X. destruct (task_points _ _ _ _ _ _ _ H P eq_refl A X) as (tl & T' & C). rewrite T in T'. injection T' as <-.
  destruct C as [(E & _)|(sp' & rj' & tj' & rpy & tol' & S' & R' & Rn' & [(_ & Tj' & Tn' & Q)|(E & _)])]; try discriminate.
  rewrite S in S'. injection S' as <-. rewrite Rj in R'. injection R' as <-. rewrite Rn in Rn'. injection Rn' as <-. rewrite Tj in Tj'. injection Tj' as <-. rewrite Tn in Tn'. injection Tn' as <-.
  apply pos_point_samples. exact Q.
Qed.
Lemma euler_task d path pd sp rpy tol k v x : parse_path d = Ok path -> getitem d "path" = Ok pd -> getitem pd "tolerance" = Ok (JStr "euler_tolerance") ->
  getitem pd "start_pose" = Ok sp -> vec_field sp "rpy" rpy -> vec_field pd "rpy_tol" tol -> position_at pd (length path) k v -> nth_error path k = Some x ->
  let g := guess_angle_unit in
  exists pt l, x = PEuler pt /\ euler_samples pt = Ok l /\ length l = (tol_count (g (vx tol)) * tol_count (g (vy tol)) * tol_count (g (vz tol)))%nat /\
  forall T, In T l -> rigid T /\ pos T = v /\ exists a b c, rot T = rot_xyz a b c /\ close (g (vx tol)) a (g (vx rpy)) /\ close (g (vy tol)) b (g (vy rpy)) /\ close (g (vz tol)) c (g (vz rpy)).
Proof.
  intros H P T S (rj & Rj & Rn) (tj & Tj & Tn) A X. destruct (task_points _ _ _ _ _ _ _ H P eq_refl A X) as (tl & T' & C). rewrite T in T'. injection T' as <-.
  destruct C as [(E & _)|(sp' & rj' & tj' & rpy' & tol' & S' & R' & Rn' & [(E & _)|(_ & Tj' & Tn' & Q)])]; try discriminate.
  rewrite S in S'. injection S' as <-. rewrite Rj in R'. injection R' as <-. rewrite Rn in Rn'. injection Rn' as <-. rewrite Tj in Tj'. injection Tj' as <-. rewrite Tn in Tn'. injection Tn' as <-.
  apply euler_point_samples. exact Q.
Qed.
(** the ten values around p leave out p *)
Lemma nominal_missed p tol v : 0 < tol -> symmetric p tol v -> ~ on_grid v p.
Proof.
  intros H S. unfold symmetric in S. destruct (Rlt_dec 0 tol); [|lra]. subst v. cbn [on_grid count t_samples t_lower t_upper].
  change (Z.to_nat 10) with 10%nat. change (INR (10 - 1)) with (INR 9). replace (INR 9) with 9 by (rewrite INR_IZR_INZ; reflexivity).
  intros [[E _]|(k & K & _ & E)]; [lra|]. rewrite INR_IZR_INZ in E. assert (X : 2 * IZR (Z.of_nat k) = 9). { apply (Rmult_eq_reg_r tol); [|lra]. lra. }
  rewrite <- mult_IZR in X. apply eq_IZR in X. lia.
Qed.
Lemma pos_point_nominal a b c tol v x l pt : pos_point [a; b; c] (vlist tol) (vlist v) x -> x = PPos pt -> pos_samples pt = Ok l ->
  0 < vx tol \/ 0 < vy tol \/ 0 < vz tol -> ~ exists T, In T l /\ pos T = v.
Proof.
  intros (pt' & a' & b' & c' & r & -> & F & E & U & V) X El H (T & I & ET). injection X as ->. cbn [vlist combine] in F. apply Forall2_3 in F. destruct F as (p1 & p2 & p3 & E2 & S1 & S2 & S3). cbn [fst snd] in *.
  destruct (new_pospt_Ok [p1; p2; p3] (p_quat pt)) as (pt' & B & Bp & Bq); [cbn; lia|]. assert (X : pos_samples pt' = pos_samples pt) by (unfold pos_samples; rewrite Bp, Bq, E2; auto).
  destruct (pos_spec p1 p2 p3 [] (p_quat pt) pt' B) as (l' & El' & _ & G).
  { apply symmetric_proper in S1, S2, S3. destruct S1, S2, S3. repeat (constructor; [apply proper_sampled; assumption|]). constructor. }
  assert (l' = l) by congruence. subst l'. apply G in I. destruct I as (y1 & y2 & y3 & F & ->). apply Forall2_3 in F. destruct F as (z1 & z2 & z3 & EQ & G1 & G2 & G3). injection EQ as <- <- <-. cbn [pos] in ET. subst v. cbn [vx vy vz] in *.
  destruct H as [H|[H|H]]; [apply (nominal_missed _ _ _ H S1 G1)|apply (nominal_missed _ _ _ H S2 G2)|apply (nominal_missed _ _ _ H S3 G3)].
Qed.
Lemma position_task_nominal d path pd sp a b c tol k v pt l : parse_path d = Ok path -> getitem d "path" = Ok pd -> getitem pd "tolerance" = Ok (JStr "position_tolerance") ->
  getitem pd "start_pose" = Ok sp -> vec_field sp "rpy" (V3 a b c) -> vec_field pd "xyz_tol" tol -> position_at pd (length path) k v -> nth_error path k = Some (PPos pt) ->
  0 < vx tol \/ 0 < vy tol \/ 0 < vz tol -> pos_samples pt = Ok l -> ~ exists T, In T l /\ pos T = v.
Proof.
  intros H P T S (rj & Rj & Rn) (tj & Tj & Tn) A X HT El. destruct (task_points _ _ _ _ _ _ _ H P eq_refl A X) as (tl & T' & C). rewrite T in T'. injection T' as <-.
  destruct C as [(E & _)|(sp' & rj' & tj' & rpy & tol' & S' & R' & Rn' & [(_ & Tj' & Tn' & Q)|(E & _)])]; try discriminate.
  rewrite S in S'. injection S' as <-. rewrite Rj in R'. injection R' as <-. rewrite Rn in Rn'. injection Rn' as <-. rewrite Tj in Tj'. injection Tj' as <-. rewrite Tn in Tn'. injection Tn' as <-.
  exact (pos_point_nominal _ _ _ _ _ _ _ _ Q eq_refl El HT).
Qed.
(** a concrete task *)
Definition jvec (x y z : R) : json := JList [JFloat x; JFloat y; JFloat z].
Definition demo_path : json := JObj [("type", JStr "LINE"); ("num_points", JInt 3); ("start_pose", JObj [("xyz", jvec 0 0 0); ("rpy", jvec 0 0 0)]); ("end_point", jvec 2 0 0);
  ("tolerance", JStr "position_tolerance"); ("xyz_tol", jvec 0 1 0)]%string.
Definition demo_box : json := JObj [("type", JStr "box"); ("size", jvec 1 1 1); ("xyz", jvec 0 0 1); ("rpy", jvec 0 0 0)]%string.
Definition demo_task : json := JObj [("path", demo_path); ("obstacles", JList [demo_box; demo_box])]%string.
Lemma demo_geometry : geometry_ok demo_path 3.
Proof. split; [reflexivity|]. left. exists (JObj [("xyz", jvec 0 0 0); ("rpy", jvec 0 0 0)]%string), (V3 0 0 0), (V3 2 0 0). split; [reflexivity|]. split; [reflexivity|]. split; eexists; split; reflexivity. Qed.
Lemma demo_tolerance : tolerance_ok demo_path.
Proof. right. exists (JObj [("xyz", jvec 0 0 0); ("rpy", jvec 0 0 0)]%string), (V3 0 0 0), (V3 0 1 0). split; [reflexivity|]. split; [eexists; split; reflexivity|]. left. split; [reflexivity|eexists; split; reflexivity]. Qed.
Lemma demo_position : position_at demo_path 3 1 (V3 1 0 0).
Proof.
  left. exists (JObj [("xyz", jvec 0 0 0); ("rpy", jvec 0 0 0)]%string), (V3 0 0 0), (V3 2 0 0). split; [reflexivity|]. split; [reflexivity|]. split; [eexists; split; reflexivity|]. split; [eexists; split; reflexivity|].
  unfold frac. cbn [Nat.leb Nat.sub]. replace (INR 2) with 2 by reflexivity. replace (INR 1) with 1 by reflexivity. apply vec3_eq; cbn [vadd vscale vsub vx vy vz]; field.
Qed.
Lemma demo_refuted : exists d path pd k v pt l, parse_path d = Ok path /\ getitem d "path" = Ok pd /\ position_at pd (length path) k v /\ nth_error path k = Some (PPos pt) /\
  pos_samples pt = Ok l /\ ~ exists T, In T l /\ pos T = v.
Proof.
  destruct (parse_path_complete demo_task demo_path 3 eq_refl demo_geometry demo_tolerance) as (path & E & L).
  destruct (nth_error path 1) as [x|] eqn:X; [|apply nth_error_None in X; lia].
  pose proof demo_position as DP. rewrite <- L in DP.
  destruct (position_task demo_task path demo_path (JObj [("xyz", jvec 0 0 0); ("rpy", jvec 0 0 0)]%string) 0 0 0 (V3 0 1 0) 1 (V3 1 0 0) x E eq_refl eq_refl eq_refl) as (pt & l & -> & El & _);
    [eexists; split; reflexivity|eexists; split; reflexivity|exact DP|exact X|].
  exists demo_task, path, demo_path, 1%nat, (V3 1 0 0), pt, l. do 5 (split; [auto|]).
  eapply (position_task_nominal demo_task path demo_path _ 0 0 0 (V3 0 1 0) 1); try exact E; try reflexivity; try exact DP; try exact X; try exact El; [eexists; split; reflexivity|eexists; split; reflexivity|]. right. left. cbn. lra.
Qed.
