(** * Model of acrobotics/path.py (plotting left out).

    Floats are exact reals.  pyquaternion is external; what is used of it is
    written out below.  Its rotation matrices normalise the quaternion, here
    always, there only when the norm is off by more than 1e-14; it writes the
    normalised value back into the object, which changes no later result
    ([qrot_normalise] in PathProofs.v). *)
From Coq Require Import String Reals Lra List Bool Arith ZArith.
From Verif Require Import PyBase Mat Util.
Import ListNotations.
Local Open Scope R_scope.

(** path.py:16-31 *)
Record tolnum : Type := TN { t_lower : R; t_upper : R; t_nominal : R; t_samples : Z }.
(** path.py:20-31 TolerancedNumber.__init__ *)
Definition new_tol (lower_bound upper_bound : R) (nominal : option R) (samples : Z) : res tolnum :=
  match nominal with
  | None => Ok (TN lower_bound upper_bound (lower_bound + (upper_bound - lower_bound) / 2) samples)
  | Some v =>
      if Rlt_dec v lower_bound then Raise ValueError
      else if Rlt_dec upper_bound v then Raise ValueError
      else Ok (TN lower_bound upper_bound v samples)
  end.
(** path.py:33-34 discretise; np.linspace refuses a negative number *)
Definition tol_discretise (t : tolnum) : res (list R) :=
  if (t_samples t <? 0)%Z then Raise ValueError
  else Ok (linspace (t_lower t) (t_upper t) (Z.to_nat (t_samples t))).

(** an entry of the lists pos and rpy *)
Inductive num : Type := Fix (x : R) | Tol (t : tolnum).
Definition nominal_of (v : num) : R := match v with Fix x => x | Tol t => t_nominal t end.
Definition has_tol (v : num) : bool := match v with Fix _ => false | Tol _ => true end.
(** path.py:50-65 and 119-134 _check_for_tolerance; more than three entries
    are accepted and the rest is ignored *)
Definition check_for_tolerance (l : list num) : res (list bool * list R) :=
  match l with
  | a :: b :: c :: _ => Ok (map has_tol l, [nominal_of a; nominal_of b; nominal_of c])
  | _ => Raise IndexError
  end.
(** path.py:70-74, 77-81, 139-143: one entry of r *)
Definition discretise_num (v : num) : res (list R) :=
  match v with Tol t => tol_discretise t | Fix x => Ok [x] end.
(** path.py:88-90, 99-102: rotation and position from one row *)
Definition rot_xyz (a b c : R) : mat3 := mmul (rot_x a) (mmul (rot_y b) (rot_z c)).
Definition frame_of_row (p : list R) : res mat4 :=
  match p with
  | x :: y :: z :: a :: b :: c :: _ => Ok (M4 (rot_xyz a b c) (V3 x y z) v0 1)
  | _ => Raise IndexError
  end.

(** path.py:37-48 TolEulerPt *)
Record eulerpt : Type := EulerPt { e_pos : list num; e_rpy : list num; e_nominal : list R }.
Definition new_eulerpt (pos rpy : list num) : res eulerpt :=
  '(_, pn) <- check_for_tolerance pos ;; '(_, rn) <- check_for_tolerance rpy ;; Ok (EulerPt pos rpy (pn ++ rn)).
(** path.py:67-93 get_samples; num_samples, rep and dist are not used *)
Definition euler_samples (p : eulerpt) : res (list mat4) :=
  r1 <- mapM discretise_num (firstn 3 (e_pos p)) ;;
  r2 <- mapM discretise_num (firstn 3 (e_rpy p)) ;;
  mapM frame_of_row (create_grid (r1 ++ r2)).
(** path.py:98-103 nominal_transform *)
Definition nominal_transform (p : eulerpt) : res mat4 := frame_of_row (e_nominal p).

(** path.py:110-117 TolPositionPt *)
Record pospt : Type := PosPt { p_pos : list num; p_nom : list R; p_quat : quat }.
Definition new_pospt (pos : list num) (q : quat) : res pospt :=
  '(_, pn) <- check_for_tolerance pos ;; Ok (PosPt pos pn q).
(** T[:3, 3] = v for a flat array v: length three, or one and broadcast *)
Definition set_pos (T : mat4) (v : list R) : res mat4 :=
  match v with
  | [x; y; z] => Ok (M4 (rot T) (V3 x y z) (brow T) (bww T))
  | [x] => Ok (M4 (rot T) (V3 x x x) (brow T) (bww T))
  | _ => Raise ValueError
  end.
(** path.py:136-153 get_samples; transformation_matrix is a new array each time *)
Definition pos_samples (p : pospt) : res (list mat4) :=
  r <- mapM discretise_num (firstn 3 (p_pos p)) ;;
  mapM (set_pos (qtransform (p_quat p))) (create_grid r).

(** pyquaternion: product *)
Definition qmul (p q : quat) : quat :=
  Quat (qw p * qw q - qx p * qx q - qy p * qy q - qz p * qz q)
       (qw p * qx q + qx p * qw q + qy p * qz q - qz p * qy q)
       (qw p * qy q - qx p * qz q + qy p * qw q + qz p * qx q)
       (qw p * qz q + qx p * qy q - qy p * qx q + qz p * qw q).
(** pyquaternion: Quaternion(axis=..., angle=...) *)
Definition quat_axis_angle (axis : vec3) (angle : R) : res quat :=
  let m := norm2 axis in
  if Req_EM_T m 0 then Raise ZeroDivisionError
  else
    let e := if Rlt_dec (/ 10 ^ 12) (Rabs (1 - m)) then vscale (/ sqrt m) axis else axis in
    Ok (Quat (cos (angle / 2)) (vx e * sin (angle / 2)) (vy e * sin (angle / 2)) (vz e * sin (angle / 2))).
(** path.py:159-170 AxisAnglePt *)
Record axispt : Type := AxisPt { a_pos : list R; a_axis : vec3; a_angle : tolnum; a_quat : quat }.
(** path.py:172-180 get_samples *)
Definition axis_samples (p : axispt) : res (list mat4) :=
  l <- tol_discretise (a_angle p) ;;
  mapM (fun ai => qa <- quat_axis_angle (a_axis p) ai ;; set_pos (qtransform (qmul qa (a_quat p))) (a_pos p)) l.

(** path.py:186-193 FreeOrientationPt holds the array p.
    get_samples returns an array of transforms, an array of rows or a list of
    quaternions. *)
Inductive samples : Type := STfs (l : list mat4) | SRows (l : list (list R)) | SQuats (l : list quat).
Section Random.
(** pyquaternion's yaw_pitch_roll, the numbers np.random gives to sample_SO3,
    and Quaternion.random_near of a pyquaternion fork: result of the i-th call *)
Context (ypr : quat -> vec3) (fuel : nat).
(** path.py:195-214 FreeOrientationPt.get_samples; [rep] and [meth] are the
    keyword arguments when given.  hstack of an empty list of angles with the
    (0, 3) array of positions fails. *)
Definition free_samples (rnd : list (list R)) (p : list R) (num_samples : nat) (rep meth : option string) : res samples :=
  let rep' := match rep with Some s => s | None => "rpy"%string end in
  let m := match meth with Some s => s | None => "random"%string end in
  if String.eqb rep' "rpy" then
    s <- sample_SO3 ypr fuel rnd num_samples rep' m ;;
    match s with
    | SRpy [] => Raise ValueError
    | SRpy l => Ok (SRows (map (fun a => p ++ [vx a; vy a; vz a]) l))
    | _ => Raise ValueError
    end
  else if String.eqb rep' "transform" then
    s <- sample_SO3 ypr fuel rnd num_samples rep' m ;;
    match s with STf l => ts <- mapM (fun T => set_pos T p) l ;; Ok (STfs ts) | _ => Raise ValueError end
  else if String.eqb rep' "quat" then
    s <- sample_SO3 ypr fuel rnd num_samples rep' m ;;
    match s with SQuat l => Ok (SQuats l) | _ => Raise ValueError end
  else Raise ValueError.
(** path.py:226-241 TolOrientationPt.get_samples; [near] is
    Quaternion.random_near(self.o, dist) of call i (missing in the published
    pyquaternion) *)
Definition ori_samples (near : nat -> quat) (p : list R) (num_samples : nat) : res (list mat4) :=
  mapM (fun i => set_pos (qtransform (near i)) p) (seq 0 num_samples).
End Random.

(** path.py:256-266 point_to_frame; p[:3] of the wrong length is refused
    before p[3] is read *)
Definition point_to_frame (p : list R) : res mat4 :=
  match p with
  | [] | [_; _] => Raise ValueError
  | x :: y :: z :: a :: b :: c :: _ => Ok (M4 (rot_xyz a b c) (V3 x y z) v0 1)
  | _ => Raise IndexError
  end.
