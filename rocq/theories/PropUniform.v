(** * Property theorems C137-C138: samples spread evenly over orientations and boxes.

    [quat_of r1 r2 r3]: the quaternion sample_SO3 makes of three numbers.
    [velocity f t d]: d is the derivative of the curve f of quaternions at t.
    [qdot], [qnorm2]: scalar product and squared length.  [qrot q]: the rotation
    of q.  [row_quat row q]: row has three entries and q is made of them.
    [mat_near e A B]: all entries of A and B differ by at most e.
    [halton_init], [halton_samples]: a new HaltonSampler, get_samples.
    [cell_ok p (k, i)]: i is one of the p^k equal parts of the unit interval;
    [in_row_box primes cells row]: every coordinate of row is in its part;
    [boxes primes cells]: the number of boxes of that size.
    [h_primes h]: the bases of the sampler, one per coordinate. *)
From Coq Require Import String Reals Lra Lia List Bool Arith ZArith.
From Verif Require Import PyBase Mat Util UtilProofs HaltonProofs HaltonBox Examples Uniform UniformHalton.
Import ListNotations.
Local Open Scope R_scope.

(** C137: the samples are the images of the rows drawn, in order. *)
Theorem C137_images : forall ypr fuel rnd n rep method v, sample_SO3 ypr fuel rnd n rep method = Ok v -> exists rows qs, Forall2 row_quat rows qs /\
  ((method = "random"%string /\ rows = firstn n rnd /\ (n <= length rnd)%nat) \/ (method = "halton"%string /\ exists h h', halton_init fuel 3 = Ok h /\ halton_samples fuel n h = Ok (rows, h'))) /\
  match v with
  | SQuat l => rep = "quat"%string /\ l = qs
  | STf l => rep = "transform"%string /\ Forall2 (fun q T => T = M4 (qrot q) v0 v0 1) qs l
  | SRpy l => rep = "rpy"%string /\ l = map ypr qs
  | SNone => rep <> "quat"%string /\ rep <> "transform"%string /\ rep <> "rpy"%string
  end.
Proof. exact so3_images. Qed.
Print Assumptions C137_images.
Example C137_images_example : sample_SO3 (fun _ => v0) 0 [[0; 0; 0]] 1 "quat" "random" = Ok (SQuat [quat_of 0 0 0]).
Proof. reflexivity. Qed.
(** C137: every unit quaternion is the image of a row ... *)
Theorem C137_onto : forall q, qnorm2 q = 1 -> exists r1 r2 r3, 0 <= r1 <= 1 /\ 0 <= r2 < 1 /\ 0 <= r3 < 1 /\ quat_of r1 r2 r3 = q.
Proof. exact quat_onto. Qed.
Print Assumptions C137_onto.
(** C137: ... so every rotation is, ... *)
Theorem C137_every_rotation : forall A, rotation A -> exists r1 r2 r3, 0 <= r1 <= 1 /\ 0 <= r2 < 1 /\ 0 <= r3 < 1 /\ qrot (quat_of r1 r2 r3) = A.
Proof. exact rotation_onto. Qed.
Print Assumptions C137_every_rotation.
Example C137_onto_example : qnorm2 (Quat 1 0 0 0) = 1 /\ rotation mid.
Proof. split; [unfold qnorm2; cbn; lra|exact rotation_mid]. Qed.
(** C137: ... of one row only, except at the two ends of the first number. *)
Theorem C137_once : forall r1 r2 r3 s1 s2 s3, 0 < r1 < 1 -> 0 < s1 < 1 -> 0 <= r2 < 1 -> 0 <= s2 < 1 -> 0 <= r3 < 1 -> 0 <= s3 < 1 ->
  quat_of r1 r2 r3 = quat_of s1 s2 s3 -> r1 = s1 /\ r2 = s2 /\ r3 = s3.
Proof. exact quat_inj. Qed.
Print Assumptions C137_once.
Example C137_once_example : 0 < 1 / 2 < 1 /\ 0 <= 0 < 1.
Proof. lra. Qed.
(** C137: the map keeps volumes up to the constant 2 pi^2, the volume of the unit sphere in four dimensions: uniform numbers give uniform rotations.
    The three velocities are tangent to the sphere and orthogonal, so the product of their lengths is the volume they span. *)
Theorem C137_volume : forall r1 r2 r3, 0 < r1 < 1 -> exists d1 d2 d3,
  velocity (fun s => quat_of s r2 r3) r1 d1 /\ velocity (fun s => quat_of r1 s r3) r2 d2 /\ velocity (fun s => quat_of r1 r2 s) r3 d3 /\
  qdot d1 (quat_of r1 r2 r3) = 0 /\ qdot d2 (quat_of r1 r2 r3) = 0 /\ qdot d3 (quat_of r1 r2 r3) = 0 /\
  qdot d1 d2 = 0 /\ qdot d1 d3 = 0 /\ qdot d2 d3 = 0 /\
  sqrt (qnorm2 d1) * sqrt (qnorm2 d2) * sqrt (qnorm2 d3) = 2 * PI ^ 2.
Proof. exact quat_volume. Qed.
Print Assumptions C137_volume.
Example C137_volume_example : 0 < 1 / 3 < 1.
Proof. lra. Qed.
(** C137: 105^k Halton samples come within a given distance of every rotation ... *)
Theorem C137_halton_near : forall k n, (105 ^ k <= n)%nat -> exists F, forall fuel ypr rnd, (F <= fuel)%nat ->
  exists l, sample_SO3 ypr fuel rnd n "transform" "halton" = Ok (STf l) /\
  forall A, rotation A -> exists T, In T l /\ mat_near (8 * (sqrt ((/ 3) ^ k) + 2 * PI * (/ 3) ^ k)) (rot T) A.
Proof. exact so3_near. Qed.
Print Assumptions C137_halton_near.
(** C137: ... so enough of them come as near as wanted. *)
Theorem C137_halton_dense : forall e, 0 < e -> exists N, forall n, (N <= n)%nat -> exists F, forall fuel ypr rnd, (F <= fuel)%nat ->
  exists l, sample_SO3 ypr fuel rnd n "transform" "halton" = Ok (STf l) /\ forall A, rotation A -> exists T, In T l /\ mat_near e (rot T) A.
Proof. exact so3_dense. Qed.
Print Assumptions C137_halton_dense.
Example C137_halton_example : (105 ^ 1 <= 1000)%nat /\ 0 < 0.01.
Proof. split; [apply Nat.leb_le; reflexivity|lra]. Qed.

(** C138: among any [boxes] consecutive rows of a sampler, new or used, exactly one lies in a given box. *)
Theorem C138_boxes : forall fuel dim h0 m rows0 h n rows h' cells s, halton_init fuel dim = Ok h0 -> (1 <= dim)%nat -> (m + n <= fuel)%nat ->
  halton_samples fuel m h0 = Ok (rows0, h) -> halton_samples fuel n h = Ok (rows, h') ->
  Forall2 cell_ok (h_primes h0) cells -> (s + boxes (h_primes h0) cells <= n)%nat ->
  exists! i, (s <= i < s + boxes (h_primes h0) cells)%nat /\ exists row, nth_error rows i = Some row /\ in_row_box (h_primes h0) cells row.
Proof. exact halton_even. Qed.
Print Assumptions C138_boxes.
(** fifteen boxes of 1/3 by 1/5; the one at the origin *)
Example C138_boxes_example : halton_init 40 2 = Ok (mkH [3; 5]%nat 1) /\ Forall2 cell_ok [3; 5]%nat [(1%nat, 0%Z); (1%nat, 0%Z)] /\ boxes [3; 5]%nat [(1%nat, 0%Z); (1%nat, 0%Z)] = 15%nat.
Proof. split; [reflexivity|]. split; [|reflexivity]. repeat constructor; unfold cell_ok; cbn; lia. Qed.
(** C138: with (p1 ... pd)^k rows, every point of the cube has a row within 1/p^k in every coordinate. *)
Theorem C138_near : forall fuel dim h k n rows h', halton_init fuel dim = Ok h -> (1 <= dim)%nat -> (n <= fuel)%nat -> halton_samples fuel n h = Ok (rows, h') ->
  (fold_right Nat.mul 1 (map (fun p => p ^ k) (h_primes h)) <= n)%nat -> forall xs, length xs = dim -> Forall (fun x => 0 <= x <= 1) xs ->
  exists row, In row rows /\ Forall2 (fun px y => Rabs (y - snd px) <= / INR (fst px) ^ k) (combine (h_primes h) xs) row.
Proof. exact halton_near. Qed.
Print Assumptions C138_near.
Example C138_near_example : (fold_right Nat.mul 1 (map (fun p => p ^ 1)%nat [3; 5]) <= 20)%nat /\ Forall (fun x => 0 <= x <= 1) [0; 1].
Proof. split; [apply Nat.leb_le; reflexivity|]. apply Forall_cons; [lra|]. apply Forall_cons; [lra|]. apply Forall_nil. Qed.
