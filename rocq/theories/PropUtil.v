(** * Property theorems C58-C65: util.py.

    Numbers are exact reals.  [choices r] lists all picks of one value per
    entry of r, first entry slowest; [swap01] exchanges the first two entries
    of a list; [mirrored b k n] is the sum of digit i of n in base b divided
    by b^(i+1), i < k. *)
From Coq Require Import String Reals Lra Lia List Bool Arith ZArith Permutation Sorted.
From Verif Require Import PyBase Mat Util UtilProofs HaltonProofs.
Import ListNotations.
Local Open Scope R_scope.

(** C58: rot_x, rot_y, rot_z are proper rotations ... *)
Theorem C58_rotations : forall a, rotation (rot_x a) /\ rotation (rot_y a) /\ rotation (rot_z a).
Proof. exact (fun a => conj (rot_x_rotation a) (conj (rot_y_rotation a) (rot_z_rotation a))). Qed.
Print Assumptions C58_rotations.
(** C58: ... that add their angles ... *)
Theorem C58_rotations_add : forall a b,
  mmul (rot_x a) (rot_x b) = rot_x (a + b) /\ mmul (rot_y a) (rot_y b) = rot_y (a + b) /\ mmul (rot_z a) (rot_z b) = rot_z (a + b).
Proof. exact (fun a b => conj (rot_x_add a b) (conj (rot_y_add a b) (rot_z_add a b))). Qed.
Print Assumptions C58_rotations_add.
(** C58: ... and turn right-handed about their axis. *)
Theorem C58_rotation_axes : forall a,
  mapply (rot_x a) (V3 1 0 0) = V3 1 0 0 /\ mapply (rot_x a) (V3 0 1 0) = V3 0 (cos a) (sin a) /\
  mapply (rot_y a) (V3 0 1 0) = V3 0 1 0 /\ mapply (rot_y a) (V3 0 0 1) = V3 (sin a) 0 (cos a) /\
  mapply (rot_z a) (V3 0 0 1) = V3 0 0 1 /\ mapply (rot_z a) (V3 1 0 0) = V3 (cos a) (sin a) 0.
Proof. exact rot_axes. Qed.
Print Assumptions C58_rotation_axes.
(** C58: the pose constructors. *)
Theorem C58_poses : forall a x y z,
  (rigid (pose_x a x y z) /\ rot (pose_x a x y z) = rot_x a /\ pos (pose_x a x y z) = V3 x y z) /\
  (rigid (pose_y a x y z) /\ rot (pose_y a x y z) = rot_y a /\ pos (pose_y a x y z) = V3 x y z) /\
  (rigid (pose_z a x y z) /\ rot (pose_z a x y z) = rot_z a /\ pos (pose_z a x y z) = V3 x y z) /\
  (rigid (translation x y z) /\ rot (translation x y z) = mid /\ pos (translation x y z) = V3 x y z).
Proof. exact poses. Qed.
Print Assumptions C58_poses.

(** C59 *)
Theorem C59_tf_inverse : forall T, rigid T -> tmul (tf_inverse T) T = eye4 /\ tmul T (tf_inverse T) = eye4 /\ rigid (tf_inverse T).
Proof. exact (fun T H => conj (tf_inverse_l T H) (conj (tf_inverse_r T H) (tf_inverse_rigid T H))). Qed.
Print Assumptions C59_tf_inverse.
Example C59_example : rigid (pose_x 1 2 3 4).
Proof. apply C58_poses. Qed.

(** C60: the exact order of the rows ... *)
Theorem C60_grid_order : forall (A : Type) (r : list (list A)), r <> [] -> create_grid r = map swap01 (choices (swap01 r)).
Proof. exact @create_grid_order. Qed.
Print Assumptions C60_grid_order.
(** C60: ... every combination once per multiplicity ... *)
Theorem C60_grid_complete : forall (A : Type) (r : list (list A)), r <> [] -> Permutation (create_grid r) (choices r).
Proof. exact @create_grid_perm. Qed.
Print Assumptions C60_grid_complete.
(** C60: ... prod(len) rows ... *)
Theorem C60_grid_length : forall (A : Type) (r : list (list A)), r <> [] -> length (create_grid r) = fold_right Nat.mul 1%nat (map (@length A) r).
Proof. exact @create_grid_length. Qed.
Print Assumptions C60_grid_length.
(** C60: ... and a row is in the grid exactly when each of its values comes from its input. *)
Theorem C60_grid_rows : forall (A : Type) (r : list (list A)) x, r <> [] -> In x (create_grid r) <-> Forall2 (fun v l => In v l) x r.
Proof. exact @create_grid_In. Qed.
Print Assumptions C60_grid_rows.
(** the docstring example of create_grid *)
Example C60_example : create_grid [[0; 1]; [1; 2; 3]; [99]]%nat = [[0; 1; 99]; [1; 1; 99]; [0; 2; 99]; [1; 2; 99]; [0; 3; 99]; [1; 3; 99]]%nat.
Proof. reflexivity. Qed.

(** C61: vdc returns, and its value is the mirrored digit expansion. *)
Theorem C61_vdc_value : forall b, (2 <= b)%Z -> forall k fuel n,
  (0 <= n < b ^ Z.of_nat k)%Z -> (k <= fuel)%nat -> vdc fuel n b = Ok (mirrored b k n).
Proof. exact vdc_value. Qed.
Print Assumptions C61_vdc_value.
Theorem C61_vdc_returns : forall b, (2 <= b)%Z -> forall n fuel,
  (0 <= n)%Z -> (Z.to_nat n <= fuel)%nat -> vdc fuel n b = Ok (mirrored b (Z.to_nat n) n).
Proof. exact vdc_returns. Qed.
Print Assumptions C61_vdc_returns.
(** C61: values are in [0,1) ... *)
Theorem C61_vdc_range : forall b, (2 <= b)%Z -> forall n fuel x, (0 <= n)%Z -> vdc fuel n b = Ok x -> 0 <= x < 1.
Proof. exact vdc_range. Qed.
Print Assumptions C61_vdc_range.
(** C61: ... and distinct. *)
Theorem C61_vdc_distinct : forall b, (2 <= b)%Z -> forall n m fuel fuel' x,
  (0 <= n)%Z -> (0 <= m)%Z -> vdc fuel n b = Ok x -> vdc fuel' m b = Ok x -> n = m.
Proof. exact vdc_distinct. Qed.
Print Assumptions C61_vdc_distinct.
(** C61: outside the stated domain the loop does not end. *)
Theorem C61_vdc_negative_diverges : forall b, (2 <= b)%Z -> forall fuel n d acc, (n < 0)%Z -> vdc_loop fuel n b d acc = OutOfFuel.
Proof. exact vdc_negative. Qed.
Print Assumptions C61_vdc_negative_diverges.
Theorem C61_vdc_base1_diverges : forall fuel n d acc, n <> 0%Z -> vdc_loop fuel n 1 d acc = OutOfFuel.
Proof. exact vdc_base1. Qed.
Print Assumptions C61_vdc_base1_diverges.
Example C61_example : vdc 5 6 2 = Ok (3 / 8).
Proof. cbn. f_equal. field. Qed.

(** C62: in a block of b^k indices every cell is hit by exactly one index. *)
Theorem C62_vdc_stratified : forall b, (2 <= b)%Z -> forall k m i, (0 <= m)%Z -> (0 <= i < b ^ Z.of_nat k)%Z ->
  exists! j, (0 <= j < b ^ Z.of_nat k)%Z /\
    exists fuel x, vdc fuel (b ^ Z.of_nat k * m + j) b = Ok x /\ IZR i / IZR b ^ k <= x < (IZR i + 1) / IZR b ^ k.
Proof. exact vdc_stratified. Qed.
Print Assumptions C62_vdc_stratified.
Example C62_example : (2 <= 2)%Z /\ (0 <= 1 < 2 ^ Z.of_nat 2)%Z.
Proof. split; [lia|]. cbn. lia. Qed.

Local Open Scope nat_scope.
(** C63: the test is_prime is right ... *)
Theorem C63_is_prime : forall n, 2 <= n -> (is_prime n = true <-> Znumtheory.prime (Z.of_nat n)).
Proof. exact is_prime_spec. Qed.
Print Assumptions C63_is_prime.
(** C63: ... one resumption yields the least odd prime from the state on ... *)
Theorem C63_next_prime : forall fuel p q st, Nat.Odd p -> 3 <= p -> next_prime fuel p = Ok (q, st) ->
  st = q + 2 /\ p <= q /\ OddPrime q /\ (forall r, OddPrime r -> p <= r -> q <= r).
Proof. exact next_prime_Ok. Qed.
Print Assumptions C63_next_prime.
(** C63: ... it always yields ... *)
Theorem C63_next_prime_terminates : forall p, Nat.Odd p -> 3 <= p -> exists F q, forall fuel, F <= fuel -> next_prime fuel p = Ok (q, q + 2).
Proof. exact next_prime_fuel. Qed.
Print Assumptions C63_next_prime_terminates.
(** C63: ... so dim resumptions give dim increasing odd primes with no odd prime left out between them ... *)
Theorem C63_prime_stream : forall fuel dim ps, take_primes fuel dim 3 = Ok ps ->
  length ps = dim /\ StronglySorted lt ps /\ Forall (fun p => OddPrime p /\ 3 <= p) ps /\
  (forall r, OddPrime r -> 3 <= r -> (exists p, In p ps /\ r <= p) -> In r ps).
Proof. exact (fun fuel dim ps => take_primes_Ok fuel dim 3 ps odd3 (Nat.le_refl 3)). Qed.
Print Assumptions C63_prime_stream.
(** C63: ... for every dim. *)
Theorem C63_prime_stream_terminates : forall dim, exists F ps, forall fuel, F <= fuel -> take_primes fuel dim 3 = Ok ps.
Proof. exact (fun dim => take_primes_fuel dim 3 odd3 (Nat.le_refl 3)). Qed.
Print Assumptions C63_prime_stream_terminates.
Example C63_example : take_primes 5 6 3 = Ok [3; 5; 7; 11; 13; 17].
Proof. reflexivity. Qed.

(** C64: any split of a request gives the same points, in the same order, and the same final state. *)
Theorem C64_halton_chunks : forall fuel dim h ns, halton_init fuel dim = Ok h -> total ns <= fuel ->
  halton_many fuel ns h = halton_samples fuel (total ns) h.
Proof. exact halton_chunks. Qed.
Print Assumptions C64_halton_chunks.
(** C64: the same from any later state (any count, any bases from 2 on). *)
Theorem C64_halton_continues : forall fuel ns h, Forall (fun p => 2 <= p) (h_primes h) -> h_primes h <> [] -> h_cnt h + total ns <= S fuel ->
  halton_many fuel ns h = Ok (map (halton_row (h_primes h)) (seq (h_cnt h) (total ns)), mkH (h_primes h) (h_cnt h + total ns)).
Proof. exact halton_many_val. Qed.
Print Assumptions C64_halton_continues.
(** C64: row i (from 0) of a new sampler holds the values of index i+1. *)
Theorem C64_halton_rows : forall fuel dim h n, halton_init fuel dim = Ok h -> 1 <= dim -> n <= fuel -> exists rows h',
  halton_samples fuel n h = Ok (rows, h') /\ length rows = n /\
  forall i row, nth_error rows i = Some row ->
    Forall2 (fun p x => exists f, vdc f (Z.of_nat (i + 1)) (Z.of_nat p) = Ok x) (h_primes h) row.
Proof. exact halton_rows. Qed.
Print Assumptions C64_halton_rows.
(** C64: the bases are the first dim odd primes. *)
Theorem C64_halton_bases : forall fuel dim h, halton_init fuel dim = Ok h -> length (h_primes h) = dim /\ first_odd_primes 3 (h_primes h) /\ h_cnt h = 1.
Proof. exact halton_init_Ok. Qed.
Print Assumptions C64_halton_bases.
Theorem C64_halton_init_terminates : forall dim, exists F h, forall fuel, F <= fuel -> halton_init fuel dim = Ok h.
Proof. exact halton_init_fuel. Qed.
Print Assumptions C64_halton_init_terminates.
Example C64_example : halton_init 5 3 = Ok (mkH [3; 5; 7] 1).
Proof. reflexivity. Qed.

(** C65: random method: n unit quaternions, or their n transforms or angles, or None for another rep. *)
Theorem C65_so3_random : forall ypr fuel rnd n rep, (n <= length rnd)%nat -> Forall unit_row rnd ->
  exists v, sample_SO3 ypr fuel rnd n rep "random" = Ok v /\ so3_good n rep ypr v.
Proof. exact so3_random. Qed.
Print Assumptions C65_so3_random.
(** C65: halton method. *)
Theorem C65_so3_halton : forall ypr rnd n rep, exists F, forall fuel, F <= fuel ->
  exists v, sample_SO3 ypr fuel rnd n rep "halton" = Ok v /\ so3_good n rep ypr v.
Proof. exact so3_halton. Qed.
Print Assumptions C65_so3_halton.
(** C65: any other method. *)
Theorem C65_so3_unknown_method : forall ypr fuel rnd n rep method, method <> "random"%string -> method <> "halton"%string ->
  sample_SO3 ypr fuel rnd n rep method = Raise ValueError.
Proof. exact so3_unknown. Qed.
Print Assumptions C65_so3_unknown_method.
Example C65_example : Forall unit_row [[0; 1 / 2; 1]; [1; 0; 0]]%R.
Proof. repeat constructor; (eexists _, _, _; split; [reflexivity|lra]). Qed.
