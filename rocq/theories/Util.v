(** * Model of acrobotics/util.py (plotting left out).

    Floats are exact reals, python integers are Z or nat.  np.linspace and
    np.meshgrid are modelled as used here. *)
From Coq Require Import String Reals Lra List Bool Arith ZArith.
From Verif Require Import PyBase Mat.
Import ListNotations.
Local Open Scope R_scope.

(** util.py:12-15 *)
Definition rot_x (a : R) : mat3 := M3 1 0 0  0 (cos a) (- sin a)  0 (sin a) (cos a).
(** util.py:18-21 *)
Definition rot_y (a : R) : mat3 := M3 (cos a) 0 (sin a)  0 1 0  (- sin a) 0 (cos a).
(** util.py:24-27 *)
Definition rot_z (a : R) : mat3 := M3 (cos a) (- sin a) 0  (sin a) (cos a) 0  0 0 1.
(** util.py:30-33 *)
Definition translation (x y z : R) : mat4 := M4 mid (V3 x y z) v0 1.
(** util.py:36-45 *)
Definition pose_x (a x y z : R) : mat4 := M4 (M3 1 0 0  0 (cos a) (- sin a)  0 (sin a) (cos a)) (V3 x y z) v0 1.
(** util.py:48-57 *)
Definition pose_y (a x y z : R) : mat4 := M4 (M3 (cos a) 0 (sin a)  0 1 0  (- sin a) 0 (cos a)) (V3 x y z) v0 1.
(** util.py:60-69 *)
Definition pose_z (a x y z : R) : mat4 := M4 (M3 (cos a) (- sin a) 0  (sin a) (cos a) 0  0 0 1) (V3 x y z) v0 1.
(** util.py:72-81: the bottom row stays that of np.eye(4) *)
Definition tf_inverse (T : mat4) : mat4 :=
  let Rt := mtr (rot T) in M4 Rt (mapply (mopp Rt) (pos T)) v0 1.

(** ** create_grid *)
(** C-order flattening of an array of shape [dims] whose value depends only on
    the index along axis [ax] (what np.meshgrid broadcasts). *)
Fixpoint bcast {A} (dims : list nat) (ax : nat) (vals : list A) : list A :=
  match dims, ax with
  | [], _ => []
  | d :: ds, O => flat_map (fun v => repeat v (fold_right Nat.mul 1%nat ds)) vals
  | d :: ds, S k => concat (repeat (bcast ds k vals) d)
  end.
(** the first two entries exchanged (meshgrid's default indexing "xy") *)
Definition swap01 {A} (l : list A) : list A := match l with a :: b :: r => b :: a :: r | _ => l end.
Definition axis_of (n i : nat) : nat := if Nat.leb 2 n then match i with O => 1 | S O => 0 | _ => i end%nat else i.
(** np.array(columns).T *)
Fixpoint zip_rows {A} (cols : list (list A)) : list (list A) :=
  match cols with
  | [] => []
  | [c] => map (fun x => [x]) c
  | c :: cs => map (fun p => fst p :: snd p) (combine c (zip_rows cs))
  end.
(** util.py:84-117 create_grid; a scalar entry is a list of length one *)
Definition create_grid {A} (r : list (list A)) : list (list A) :=
  let shape := swap01 (map (@length A) r) in
  zip_rows (map (fun iv => bcast shape (axis_of (length r) (fst iv)) (snd iv)) (combine (seq 0 (length r)) r)).

(** ** van der Corput and Halton *)
(** util.py:182-193: the while loop; [n] and [base] are python integers *)
Fixpoint vdc_loop (fuel : nat) (n base : Z) (denom acc : R) : res R :=
  if (n =? 0)%Z then Ok acc
  else match fuel with
       | O => OutOfFuel
       | S f =>
           if (base =? 0)%Z then Raise ZeroDivisionError
           else vdc_loop f (n / base)%Z base (denom * IZR base) (acc + IZR (n mod base) / (denom * IZR base))
       end.
Definition vdc (fuel : nat) (n base : Z) : res R := vdc_loop fuel n base 1 0.

(** util.py:197-202 is_prime; int(num ** 0.5) is the exact integer root *)
Definition is_prime (num : nat) : bool :=
  forallb (fun i => negb (Nat.eqb (num mod i) 0)) (seq 2 (Nat.sqrt num + 1 - 2)).
(** util.py:204-208: one resumption of the generator; the state is the local
    variable prime at the head of the while loop *)
Fixpoint next_prime (fuel : nat) (prime : nat) : res (nat * nat) :=
  match fuel with
  | O => OutOfFuel
  | S f => if is_prime prime then Ok (prime, prime + 2)%nat else next_prime f (prime + 2)
  end.
(** util.py:215-219: dim calls of next on a new generator *)
Fixpoint take_primes (fuel dim : nat) (prime : nat) : res (list nat) :=
  match dim with
  | O => Ok []
  | S d => '(p, st) <- next_prime fuel prime ;; ps <- take_primes fuel d st ;; Ok (p :: ps)
  end.
Record halton : Type := mkH { h_primes : list nat; h_cnt : nat }.
(** util.py:211-222 HaltonSampler.__init__ *)
Definition halton_init (fuel dim : nat) : res halton := ps <- take_primes fuel dim 3 ;; Ok (mkH ps 1).
(** util.py:224-230 get_samples *)
Definition halton_samples (fuel : nat) (n : nat) (h : halton) : res (list (list R) * halton) :=
  cols <- mapM (fun base => mapM (fun i => vdc fuel (Z.of_nat i) (Z.of_nat base)) (seq (h_cnt h) n)) (h_primes h) ;;
  Ok (zip_rows cols, mkH (h_primes h) (h_cnt h + n)).

(** ** sample_SO3 *)
Record quat : Type := Quat { qw : R; qx : R; qy : R; qz : R }.
Definition qnorm2 (q : quat) : R := qw q * qw q + qx q * qx q + qy q * qy q + qz q * qz q.
(** util.py:248-253: one quaternion from three numbers *)
Definition quat_of (r1 r2 r3 : R) : quat :=
  Quat (sqrt (1 - r1) * sin (2 * PI * r2)) (sqrt (1 - r1) * cos (2 * PI * r2))
       (sqrt r1 * sin (2 * PI * r3)) (sqrt r1 * cos (2 * PI * r3)).
(** pyquaternion (external): q.rotation_matrix, after normalisation *)
Definition qnormalise (q : quat) : quat :=
  let n := sqrt (qnorm2 q) in
  if Req_EM_T n 0 then q else Quat (qw q / n) (qx q / n) (qy q / n) (qz q / n).
Definition unit_rot (q : quat) : mat3 :=
  let w := qw q in let x := qx q in let y := qy q in let z := qz q in
  M3 (w * w + x * x - y * y - z * z) (2 * (x * y - w * z)) (2 * (x * z + w * y))
     (2 * (x * y + w * z)) (w * w - x * x + y * y - z * z) (2 * (y * z - w * x))
     (2 * (x * z - w * y)) (2 * (y * z + w * x)) (w * w - x * x - y * y + z * z).
Definition qrot (q : quat) : mat3 := unit_rot (qnormalise q).
(** q.transformation_matrix: a new 4x4 array *)
Definition qtransform (q : quat) : mat4 := M4 (qrot q) v0 v0 1.

(** the result depends on rep; an unknown rep falls off the end: None *)
Inductive so3 : Type := SQuat (l : list quat) | STf (l : list mat4) | SRpy (l : list vec3) | SNone.
(** util.py:233-259 sample_SO3.  [rnd] are the rows (r1,r2,r3) np.random
    has to offer, of which the call takes the first n; a list that is too short
    is no source of random numbers: OutOfFuel.  [ypr] is pyquaternion's
    yaw_pitch_roll.  [method is "random"] is taken as string equality. *)
Definition sample_SO3 (ypr : quat -> vec3) (fuel : nat) (rnd : list (list R)) (n : nat) (rep method : string) : res so3 :=
  rows <- (if String.eqb method "random" then if (length rnd <? n)%nat then OutOfFuel else Ok (firstn n rnd)
           else if String.eqb method "halton" then
             h <- halton_init fuel 3 ;; '(rows, _) <- halton_samples fuel n h ;; Ok rows
           else Raise ValueError) ;;
  qs <- mapM (fun r => match r with [r1; r2; r3] => Ok (quat_of r1 r2 r3) | _ => Raise ValueError end) rows ;;
  if String.eqb rep "quat" then Ok (SQuat qs)
  else if String.eqb rep "transform" then Ok (STf (map qtransform qs))
  else if String.eqb rep "rpy" then Ok (SRpy (map ypr qs))
  else Ok SNone.

(** np.linspace(lo, hi, n) *)
Definition linspace (lo hi : R) (n : nat) : list R :=
  match n with
  | O => []
  | S O => [lo]
  | S (S m) => map (fun k => lo + INR k * ((hi - lo) / INR (S m))) (seq 0 (S m)) ++ [hi]
  end.
