(** * Property theorems C66-C71, C91 and C92: path.py.

    A coordinate is [Fix x] or [Tol t].  [count]: its number of grid values;
    [on_grid v x]: x is one of these, lower + k/(n-1) (upper - lower);
    [within v x]: x is allowed.  [frame6 x y z a b c]: the transform with
    position x y z and rotation rot_x(a) rot_y(b) rot_z(c).
    [rodrigues e a]: rotation about the unit vector e by a. *)
From Coq Require Import String Reals Lra Lia List Bool Arith ZArith.
From Verif Require Import PyBase Mat Util UtilProofs HaltonProofs Path PathProofs.
Import ListNotations.
Local Open Scope R_scope.

(** C66: refuted: without nominal value the bounds are not compared. *)
Theorem C66_nominal_refuted : exists t, new_tol 1 0 None 10 = Ok t /\ ~ (t_lower t <= t_nominal t <= t_upper t).
Proof. exact new_tol_inverted. Qed.
Print Assumptions C66_nominal_refuted.
(** C66: holds when a nominal value is given or the bounds are ordered. *)
Theorem C66_nominal_partial : forall lo hi nom n t, new_tol lo hi nom n = Ok t -> nom <> None \/ lo <= hi -> t_lower t <= t_nominal t <= t_upper t.
Proof. exact new_tol_nominal. Qed.
Print Assumptions C66_nominal_partial.
Theorem C66_fields : forall lo hi nom n t, new_tol lo hi nom n = Ok t ->
  t_lower t = lo /\ t_upper t = hi /\ t_samples t = n /\ t_nominal t = match nom with Some v => v | None => (lo + hi) / 2 end.
Proof. exact new_tol_fields. Qed.
Print Assumptions C66_fields.
Theorem C66_outside_raises : forall lo hi v n, v < lo \/ hi < v -> new_tol lo hi (Some v) n = Raise ValueError.
Proof. exact new_tol_raises. Qed.
Print Assumptions C66_outside_raises.
Example C66_example : exists t, new_tol 0 2 (Some 1) 10 = Ok t.
Proof. unfold new_tol. destruct (Rlt_dec 1 0); [lra|]. destruct (Rlt_dec 2 1); [lra|]. eauto. Qed.

(** C67 *)
Theorem C67_discretise : forall t l, tol_discretise t = Ok l ->
  Z.of_nat (length l) = t_samples t /\
  (t_lower t <= t_upper t -> forall x, In x l -> t_lower t <= x <= t_upper t) /\
  ((1 <= length l)%nat -> nth_error l 0 = Some (t_lower t)) /\
  ((2 <= length l)%nat -> nth_error l (length l - 1) = Some (t_upper t)) /\
  (forall k, (2 <= length l)%nat -> (k < length l)%nat -> nth_error l k = Some (t_lower t + INR k / INR (length l - 1) * (t_upper t - t_lower t))).
Proof. exact discretise_spec. Qed.
Print Assumptions C67_discretise.
Theorem C67_discretise_returns : forall t, (0 <= t_samples t)%Z -> exists l, tol_discretise t = Ok l.
Proof. exact discretise_returns. Qed.
Print Assumptions C67_discretise_returns.
Theorem C67_discretise_negative : forall t, (t_samples t < 0)%Z -> tol_discretise t = Raise ValueError.
Proof. exact discretise_negative. Qed.
Print Assumptions C67_discretise_negative.
Example C67_example : tol_discretise (TN 0 1 0.5 3) = Ok [0 + 0 * ((1 - 0) / (1 + 1)); 0 + 1 * ((1 - 0) / (1 + 1)); 1].
Proof. reflexivity. Qed.

(** C68: exactly the grid, with the right number of samples ... *)
Theorem C68_euler_grid : forall p1 p2 p3 a1 a2 a3 pr ar p, new_eulerpt (p1 :: p2 :: p3 :: pr) (a1 :: a2 :: a3 :: ar) = Ok p ->
  Forall sampled [p1; p2; p3; a1; a2; a3] -> exists l, euler_samples p = Ok l /\
  length l = fold_right Nat.mul 1%nat (map count [p1; p2; p3; a1; a2; a3]) /\
  (forall T, In T l <-> exists x y z a b c, Forall2 on_grid [p1; p2; p3; a1; a2; a3] [x; y; z; a; b; c] /\ T = frame6 x y z a b c).
Proof. exact euler_spec. Qed.
Print Assumptions C68_euler_grid.
(** C68: ... and every sample is rigid and within tolerance. *)
Theorem C68_euler_within : forall p1 p2 p3 a1 a2 a3 pr ar p, new_eulerpt (p1 :: p2 :: p3 :: pr) (a1 :: a2 :: a3 :: ar) = Ok p ->
  Forall proper [p1; p2; p3; a1; a2; a3] -> exists l, euler_samples p = Ok l /\ forall T, In T l ->
  rigid T /\ exists x y z a b c, Forall2 within [p1; p2; p3; a1; a2; a3] [x; y; z; a; b; c] /\ T = frame6 x y z a b c.
Proof. exact euler_within. Qed.
Print Assumptions C68_euler_within.
(** C68: construction succeeds exactly for three or more entries. *)
Theorem C68_euler_constructed : forall pos rpy, (exists p, new_eulerpt pos rpy = Ok p) <-> (3 <= length pos /\ 3 <= length rpy)%nat.
Proof. exact new_eulerpt_Ok. Qed.
Print Assumptions C68_euler_constructed.
Example C68_example : Forall proper [Fix 1; Tol (TN 0 1 0.5 3); Fix 0; Fix 0; Fix 0; Tol (TN (-1) 1 0 5)].
Proof. repeat constructor; cbn; try lra; try lia. Qed.

(** C69 *)
Theorem C69_position_grid : forall p1 p2 p3 pr q p, new_pospt (p1 :: p2 :: p3 :: pr) q = Ok p ->
  Forall sampled [p1; p2; p3] -> exists l, pos_samples p = Ok l /\
  length l = fold_right Nat.mul 1%nat (map count [p1; p2; p3]) /\
  (forall T, In T l <-> exists x y z, Forall2 on_grid [p1; p2; p3] [x; y; z] /\ T = M4 (qrot q) (V3 x y z) v0 1).
Proof. exact pos_spec. Qed.
Print Assumptions C69_position_grid.
Theorem C69_position_within : forall p1 p2 p3 pr q p, new_pospt (p1 :: p2 :: p3 :: pr) q = Ok p ->
  Forall proper [p1; p2; p3] -> qnorm2 q <> 0 -> exists l, pos_samples p = Ok l /\ forall T, In T l ->
  rigid T /\ rot T = qrot q /\ within p1 (vx (pos T)) /\ within p2 (vy (pos T)) /\ within p3 (vz (pos T)).
Proof. exact pos_within. Qed.
Print Assumptions C69_position_within.
Example C69_example : exists p, new_pospt [Fix 1; Tol (TN 0 1 0.5 3); Fix 0] (Quat 1 0 0 0) = Ok p /\ qnorm2 (Quat 1 0 0 0) <> 0.
Proof. eexists. split; [reflexivity|]. unfold qnorm2. cbn. lra. Qed.

(** C70: sample k turns the nominal orientation about the axis by the k-th of the evenly spaced angles. *)
Theorem C70_axis_samples : forall pt l, axis_samples pt = Ok l -> qnorm2 (a_quat pt) <> 0 -> clear_axis (a_axis pt) ->
  Z.of_nat (length l) = t_samples (a_angle pt) /\ forall k T, nth_error l k = Some T -> rigid T /\
  (forall x y z, a_pos pt = [x; y; z] -> pos T = V3 x y z) /\
  forall u, mapply (rot T) u = rodrigues (unit_axis (a_axis pt)) (angle_at (a_angle pt) k (length l)) (mapply (qrot (a_quat pt)) u).
Proof. exact axis_spec. Qed.
Print Assumptions C70_axis_samples.
Theorem C70_angle_within : forall t k n, t_lower t <= t_upper t -> (k < n)%nat -> t_lower t <= angle_at t k n <= t_upper t.
Proof. exact angle_at_within. Qed.
Print Assumptions C70_angle_within.
Theorem C70_axis_returns : forall x y z axis t q, norm2 axis <> 0 -> (0 <= t_samples t)%Z -> exists l, axis_samples (AxisPt [x; y; z] axis t q) = Ok l.
Proof. exact axis_returns. Qed.
Print Assumptions C70_axis_returns.
Theorem C70_zero_axis_raises : forall p axis t q, norm2 axis = 0 -> (1 <= t_samples t)%Z -> axis_samples (AxisPt p axis t q) = Raise ZeroDivisionError.
Proof. exact axis_zero. Qed.
Print Assumptions C70_zero_axis_raises.
(** C70: rodrigues is that rotation: it keeps the axis and lengths, and turns orthogonal vectors by the angle. *)
Theorem C70_rodrigues : forall e a, norm2 e = 1 -> rodrigues e a e = e /\ (forall v, norm2 (rodrigues e a v) = norm2 v) /\
  (forall v, vdot e v = 0 -> rodrigues e a v = vadd (vscale (cos a) v) (vscale (sin a) (cross e v))).
Proof. exact (fun e a N => conj (rodrigues_axis e a N) (conj (fun v => rodrigues_norm e a v N) (fun v => rodrigues_turn e a v N))). Qed.
Print Assumptions C70_rodrigues.
Example C70_example : clear_axis (V3 0 0 1) /\ clear_axis (V3 0 0 2) /\ norm2 (V3 0 0 1) <> 0.
Proof.
  unfold clear_axis, norm2, vdot. cbn [vx vy vz]. split; [left; ring|]. split; [|lra]. right. replace (1 - (0 * 0 + 0 * 0 + 2 * 2)) with (-3) by ring. rewrite Rabs_left by lra. simpl. lra.
Qed.

(** C71 *)
Theorem C71_free_transform : forall ypr fuel rnd x y z n meth, meth_ok ypr fuel rnd n meth ->
  exists l, free_samples ypr fuel rnd [x; y; z] n (Some "transform"%string) meth = Ok (STfs l) /\ length l = n /\ Forall (fun T => rigid T /\ pos T = V3 x y z) l.
Proof. exact free_transform. Qed.
Print Assumptions C71_free_transform.
(** C71: both sampling methods qualify. *)
Theorem C71_random : forall ypr fuel rnd n, (n <= length rnd)%nat -> Forall unit_row rnd -> meth_ok ypr fuel rnd n None /\ meth_ok ypr fuel rnd n (Some "random"%string).
Proof. exact meth_random. Qed.
Print Assumptions C71_random.
Theorem C71_halton : forall ypr rnd n, exists F, forall fuel, (F <= fuel)%nat -> meth_ok ypr fuel rnd n (Some "halton"%string).
Proof. exact meth_halton. Qed.
Print Assumptions C71_halton.
(** C71: rows of angles are the position and the angles of a unit quaternion. *)
Theorem C71_free_rpy : forall ypr fuel rnd p n rep meth, meth_ok ypr fuel rnd n meth -> (1 <= n)%nat -> rep = None \/ rep = Some "rpy"%string ->
  exists l, free_samples ypr fuel rnd p n rep meth = Ok (SRows l) /\ length l = n /\ Forall (fun r => exists q, qnorm2 q = 1 /\ r = p ++ [vx (ypr q); vy (ypr q); vz (ypr q)]) l.
Proof. exact free_rpy. Qed.
Print Assumptions C71_free_rpy.
Theorem C71_free_unknown : forall ypr fuel rnd p n rep meth, rep <> "rpy"%string -> rep <> "transform"%string -> rep <> "quat"%string ->
  free_samples ypr fuel rnd p n (Some rep) meth = Raise ValueError.
Proof. exact free_unknown. Qed.
Print Assumptions C71_free_unknown.
Example C71_example : meth_ok (fun _ => v0) 0 [[0; 0; 0]; [1; 0.5; 0.25]] 2 None.
Proof. apply meth_random; auto. repeat constructor; (eexists _, _, _; split; [reflexivity|lra]). Qed.

(** C91: the nominal transform of a TolEulerPt is that of the nominal values and agrees with point_to_frame. *)
Theorem C91_nominal_transform : forall p1 p2 p3 a1 a2 a3 pr ar p, new_eulerpt (p1 :: p2 :: p3 :: pr) (a1 :: a2 :: a3 :: ar) = Ok p ->
  nominal_transform p = Ok (frame6 (nominal_of p1) (nominal_of p2) (nominal_of p3) (nominal_of a1) (nominal_of a2) (nominal_of a3)) /\
  nominal_transform p = point_to_frame (e_nominal p).
Proof. exact euler_nominal. Qed.
Print Assumptions C91_nominal_transform.
Theorem C91_point_to_frame : forall x y z a b c r, exists T, point_to_frame (x :: y :: z :: a :: b :: c :: r) = Ok T /\ rigid T /\ pos T = V3 x y z /\
  rot T = mmul (rot_x a) (mmul (rot_y b) (rot_z c)).
Proof. exact point_to_frame_spec. Qed.
Print Assumptions C91_point_to_frame.
Example C91_example : exists p, new_eulerpt [Fix 1; Fix 2; Fix 3] [Fix 0; Fix 0; Tol (TN 0 1 0.5 3)] = Ok p.
Proof. eexists. reflexivity. Qed.

(** C92: TolOrientationPt keeps the position and uses one random quaternion per sample. *)
Theorem C92_orientation_samples : forall near x y z n, (forall i, (i < n)%nat -> qnorm2 (near i) <> 0) ->
  exists l, ori_samples near [x; y; z] n = Ok l /\ length l = n /\ forall i T, nth_error l i = Some T -> rigid T /\ pos T = V3 x y z /\ rot T = qrot (near i).
Proof. exact ori_spec. Qed.
Print Assumptions C92_orientation_samples.
Example C92_example : forall i, (i < 5)%nat -> qnorm2 ((fun _ : nat => Quat 1 0 0 0) i) <> 0.
Proof. intros i _. unfold qnorm2. cbn. lra. Qed.
