(** * Error of the floating-point inverse kinematics. *)
From Coq Require Import Reals Lra Lia Psatz List Bool Arith ZArith.
From Flocq Require Import Core.
From Verif Require Import PyBase Mat Util UtilProofs Geometry GeometryProofs Robot RobotProofs RobotForms Ik IkProofs KukaProofs Motion FloatFk FloatFkProofs FloatIk.
Import ListNotations.
Local Open Scope R_scope.

(** ** Specification *)
(** x ** 2 within 2u and never negative, the square root within u, an angle within 4u of a
    direction of (x, y), three products summed as in [ok_dot]; 1 ** 2 is exact *)
Record ik_ok (A : arith_ik) (u eta g h : R) : Prop := {
  io_ar : arith_ok (ar A) u eta g h;
  io_pos : forall x, 0 <= x -> 0 <= rnd (ar A) x;
  io_sq : forall x, Rabs (fsq A x - x ^ 2) <= 2 * u * x ^ 2 + eta;
  io_sq_pos : forall x, 0 <= fsq A x;
  io_one : rnd (ar A) (1 - fsq A 1) = 0 /\ rnd (ar A) (1 - fsq A (-1)) = 0;
  io_sqrt : forall x, 0 <= x -> Rabs (fsqrt A x - sqrt x) <= u * sqrt x + eta;
  io_atan : forall y x, exists t, x = sqrt (x ^ 2 + y ^ 2) * cos t /\ y = sqrt (x ^ 2 + y ^ 2) * sin t /\ Rabs (fatan2 A y x - t) <= 4 * u;
  io_range : forall y x, Rabs (fatan2 A y x) <= 3.2;
  io_dot : forall a0 a1 a2 b0 b1 b2, Rabs (fdot3 A a0 a1 a2 b0 b1 b2 - (a0 * b0 + a1 * b1 + a2 * b2)) <= g * (Rabs (a0 * b0) + Rabs (a1 * b1) + Rabs (a2 * b2)) + h;
  io_pi : Rabs (fpi A - PI) <= 4 * u }.

(** ** Real numbers *)
Lemma abs_le_add a b x y : Rabs (a - b) <= x -> Rabs b <= y -> Rabs a <= x + y.
Proof. intros H1 H2. replace a with ((a - b) + b) by ring. eapply Rle_trans; [apply Rabs_triang|lra]. Qed.
Lemma abs_mul_le a b x y : Rabs a <= x -> Rabs b <= y -> Rabs (a * b) <= x * y.
Proof. intros. rewrite Rabs_mult. apply Rmult_le_compat; auto using Rabs_pos. Qed.
Lemma abs_div_le a b x y : Rabs a <= x -> 0 < y <= b -> Rabs (a / b) <= x / y.
Proof.
  intros H [H1 H2]. unfold Rdiv. rewrite Rabs_mult, (Rabs_right (/ b)) by (apply Rle_ge, Rlt_le, Rinv_0_lt_compat; lra).
  apply Rmult_le_compat; auto using Rabs_pos; [apply Rlt_le, Rinv_0_lt_compat; lra|apply Rinv_le_contravar; lra].
Qed.
Lemma hyp_pos x y : 0 <= sqrt (x ^ 2 + y ^ 2). Proof. apply sqrt_pos. Qed.
Lemma hyp_abs x y : Rabs x <= sqrt (x ^ 2 + y ^ 2) /\ Rabs y <= sqrt (x ^ 2 + y ^ 2).
Proof.
  pose proof (pow2_ge_0 x). pose proof (pow2_ge_0 y). split; rewrite <- sqrt_Rsqr_abs; apply sqrt_le_1_alt; unfold Rsqr; nra.
Qed.
Lemma hyp_le x y b : 0 <= b -> x ^ 2 + y ^ 2 <= b ^ 2 -> sqrt (x ^ 2 + y ^ 2) <= b.
Proof. intros Hb H. rewrite <- (sqrt_pow2 b Hb). apply sqrt_le_1_alt. exact H. Qed.
(** the length of a vector changes by at most the change of the vector *)
Lemma hyp_lip x y x' y' d : Rabs (x' - x) <= d -> Rabs (y' - y) <= d -> Rabs (sqrt (x' ^ 2 + y' ^ 2) - sqrt (x ^ 2 + y ^ 2)) <= 2 * d.
Proof.
  intros Hx Hy. pose proof (Rabs_pos (x' - x)) as D0. set (p := sqrt (x ^ 2 + y ^ 2)). set (p' := sqrt (x' ^ 2 + y' ^ 2)).
  assert (Q : p ^ 2 = x ^ 2 + y ^ 2) by apply sqrt_sum_sq. assert (Q' : p' ^ 2 = x' ^ 2 + y' ^ 2) by apply sqrt_sum_sq.
  assert (P : 0 <= p) by apply sqrt_pos. assert (P' : 0 <= p') by apply sqrt_pos.
  assert (CS : x * x' + y * y' <= p * p').
  { apply Rsqr_incr_0_var; [|nra]. unfold Rsqr. pose proof (pow2_ge_0 (x * y' - y * x')). nra. }
  apply Rabs_le_inv in Hx. apply Rabs_le_inv in Hy.
  assert (S : (p' - p) ^ 2 <= (2 * d) ^ 2).
  { assert ((x' - x) ^ 2 <= d ^ 2) by nra. assert ((y' - y) ^ 2 <= d ^ 2) by nra. nra. }
  apply Rabs_le. split; nra.
Qed.
Lemma abs_1 t : Rabs (cos t) <= 1 /\ Rabs (sin t) <= 1.
Proof. destruct (trig_le t). split; auto. Qed.
Lemma unit_angle c s : c ^ 2 + s ^ 2 = 1 -> exists t, cos t = c /\ sin t = s.
Proof. intros H. exists (atan2 s c). apply atan2_unit. exact H. Qed.

Section Err.
Context (A : arith_ik) (u eta g h : R) (OK : ik_ok A u eta g h).
Context (Hu : 0 < u <= 1e-13) (He : 0 <= eta <= u ^ 2) (Hg : 0 <= g <= 8 * u) (Hh : 0 <= h <= u).
Local Notation rn := (rnd (ar A)).

Lemma eta_u : eta <= u. Proof. clear Hg Hh. nra. Qed.
Lemma eta_k : eta <= u / 1000.
Proof. clear Hg Hh. assert (u ^ 2 <= u / 1000) by nra. lra. Qed.
(** ** Operations on numbers of known size: errors in multiples of u *)
Lemma rn_e x M : Rabs x <= M -> Rabs (rn x - x) <= (M + 1) * u.
Proof. clear Hg Hh. intros H. pose proof (ok_rnd _ _ _ _ _ (io_ar _ _ _ _ _ OK) x). pose proof eta_u. assert (u * Rabs x <= u * M) by (apply Rmult_le_compat_l; lra). lra. Qed.
Lemma mul_e x y x' y' p q X Y e : Rabs (x' - x) <= p * u -> Rabs (y' - y) <= q * u -> Rabs x <= X -> Rabs y <= Y -> 0 <= p <= 1e12 -> 0 <= q <= 1e12 ->
  X * q + Y * p + p + (X + 1) * (Y + 1) + 1 <= e -> Rabs (rn (x' * y') - x * y) <= e * u.
Proof. clear Hg Hh.
  intros Hx Hy BX BY Hp Hq E. assert (pu : p * u <= 1) by nra. assert (qu : q * u <= 1) by nra. assert (pu0 : 0 <= p * u) by nra. assert (qu0 : 0 <= q * u) by nra.
  pose proof (Rabs_pos x) as X0. pose proof (Rabs_pos y) as Y0.
  pose proof (abs_le_add _ _ _ _ Hx BX) as BX'. pose proof (abs_le_add _ _ _ _ Hy BY) as BY'.
  assert (M : Rabs (x' * y') <= (X + 1) * (Y + 1)) by (apply abs_mul_le; lra). pose proof (rn_e _ _ M) as Rr.
  assert (D : Rabs (x' * y' - x * y) <= (X + p * u) * (q * u) + Y * (p * u)).
  { replace (x' * y' - x * y) with (x' * (y' - y) + y * (x' - x)) by ring. eapply Rle_trans; [apply Rabs_triang|]. apply Rplus_le_compat; apply abs_mul_le; lra. }
  assert (pq : p * u * (q * u) <= p * u * 1) by (apply Rmult_le_compat_l; lra).
  eapply Rle_trans; [eapply abs3; [exact Rr|exact D]|]. assert ((X * q + Y * p + p + (X + 1) * (Y + 1) + 1) * u <= e * u) by (apply Rmult_le_compat_r; lra). lra.
Qed.
Lemma add_e x y x' y' p q X Y e : Rabs (x' - x) <= p * u -> Rabs (y' - y) <= q * u -> Rabs x <= X -> Rabs y <= Y -> 0 <= p <= 1e12 -> 0 <= q <= 1e12 ->
  p + q + X + Y + 3 <= e -> Rabs (rn (x' + y') - (x + y)) <= e * u.
Proof. clear Hg Hh.
  intros Hx Hy BX BY Hp Hq E. assert (pu : p * u <= 1) by nra. assert (qu : q * u <= 1) by nra.
  pose proof (abs_le_add _ _ _ _ Hx BX) as BX'. pose proof (abs_le_add _ _ _ _ Hy BY) as BY'.
  assert (M : Rabs (x' + y') <= X + Y + 2) by (eapply Rle_trans; [apply Rabs_triang|lra]). pose proof (rn_e _ _ M) as Rr.
  assert (D : Rabs (x' + y' - (x + y)) <= (p + q) * u).
  { replace (x' + y' - (x + y)) with ((x' - x) + (y' - y)) by ring. eapply Rle_trans; [apply Rabs_triang|lra]. }
  eapply Rle_trans; [eapply abs3; [exact Rr|exact D]|]. assert ((p + q + X + Y + 3) * u <= e * u) by (apply Rmult_le_compat_r; lra). lra.
Qed.
Lemma sub_e x y x' y' p q X Y e : Rabs (x' - x) <= p * u -> Rabs (y' - y) <= q * u -> Rabs x <= X -> Rabs y <= Y -> 0 <= p <= 1e12 -> 0 <= q <= 1e12 ->
  p + q + X + Y + 3 <= e -> Rabs (rn (x' - y') - (x - y)) <= e * u.
Proof. clear Hg Hh.
  intros Hx Hy BX BY Hp Hq E. unfold Rminus at 2 3. apply (add_e x (- y) x' (- y') p q X Y); auto; [|rewrite Rabs_Ropp; auto].
  replace (- y' - - y) with (- (y' - y)) by ring. rewrite Rabs_Ropp. auto.
Qed.
Lemma sq_e x x' p X e : Rabs (x' - x) <= p * u -> Rabs x <= X -> 0 <= p <= 1e12 -> (2 * X + 1) * p + 2 * (X + 1) ^ 2 + 1 <= e -> Rabs (fsq A x' - x ^ 2) <= e * u.
Proof. clear Hg Hh.
  intros Hx BX Hp E. assert (pu : p * u <= 1) by nra. assert (pu0 : 0 <= p * u) by nra. pose proof (Rabs_pos x) as X0. pose proof (abs_le_add _ _ _ _ Hx BX) as BX'.
  assert (M : x' ^ 2 <= (X + 1) ^ 2). { rewrite <- (pow2_abs x'). pose proof (Rabs_pos x'). apply pow_incr. lra. }
  pose proof (io_sq _ _ _ _ _ OK x') as Rr. pose proof eta_u.
  assert (D : Rabs (x' ^ 2 - x ^ 2) <= (p * u) * (2 * X + 1)).
  { replace (x' ^ 2 - x ^ 2) with ((x' - x) * (x' + x)) by ring. apply abs_mul_le; auto. eapply Rle_trans; [apply Rabs_triang|lra]. }
  assert (2 * u * x' ^ 2 <= 2 * u * (X + 1) ^ 2) by (apply Rmult_le_compat_l; lra).
  eapply Rle_trans; [eapply abs3; [exact Rr|exact D]|]. assert (((2 * X + 1) * p + 2 * (X + 1) ^ 2 + 1) * u <= e * u) by (apply Rmult_le_compat_r; lra). lra.
Qed.
Lemma sin_e t t' p : Rabs (t' - t) <= p * u -> Rabs (fsin (ar A) t' - sin t) <= (p + 1) * u.
Proof. intros H. pose proof (ok_sin _ _ _ _ _ (io_ar _ _ _ _ _ OK) t') as E. pose proof (sin_lip t' t). eapply Rle_trans; [eapply abs3; [exact E|]|]; [eassumption|lra]. Qed.
Lemma cos_e t t' p : Rabs (t' - t) <= p * u -> Rabs (fcos (ar A) t' - cos t) <= (p + 1) * u.
Proof. intros H. pose proof (ok_cos _ _ _ _ _ (io_ar _ _ _ _ _ OK) t') as E. pose proof (cos_lip t' t). eapply Rle_trans; [eapply abs3; [exact E|]|]; [eassumption|lra]. Qed.
Lemma exact_e x : Rabs (x - x) <= 0 * u. Proof. rewrite Rminus_eq_0, Rabs_R0. lra. Qed.
Lemma opp_e x x' p : Rabs (x' - x) <= p * u -> Rabs (- x' - - x) <= p * u.
Proof. replace (- x' - - x) with (- (x' - x)) by ring. rewrite Rabs_Ropp. auto. Qed.
(** a rounded length *)
Lemma rd_e a a' : Rabs a <= 1 -> rd u eta a a' -> Rabs (a' - a) <= 2 * u.
Proof. clear Hg Hh. unfold rd. intros Ha H. pose proof eta_u. assert (u * Rabs a <= u * 1) by (apply Rmult_le_compat_l; lra). lra. Qed.

(** ** Lengths of vectors, np.sqrt(x ** 2 + y ** 2) *)
Lemma hyp_e x y : Rabs x <= 4 -> Rabs y <= 4 -> Rabs (fsqrt A (rn (fsq A x + fsq A y)) - sqrt (x ^ 2 + y ^ 2)) <= 32 * u.
Proof. clear Hg Hh.
  intros Bx By. set (v := x ^ 2 + y ^ 2). set (w := rn (fsq A x + fsq A y)).
  assert (V0 : 0 <= v) by (unfold v; nra). assert (W0 : 0 <= w). { apply (io_pos _ _ _ _ _ OK). pose proof (io_sq_pos _ _ _ _ _ OK x). pose proof (io_sq_pos _ _ _ _ _ OK y). lra. }
  assert (VB : v <= 32) by (unfold v; apply Rabs_le_inv in Bx; apply Rabs_le_inv in By; nra).
  pose proof (io_sq _ _ _ _ _ OK x) as Sx. pose proof (io_sq _ _ _ _ _ OK y) as Sy. pose proof eta_k as Ek.
  assert (D1 : Rabs (fsq A x + fsq A y - v) <= 2 * u * v + 2 * eta).
  { unfold v. replace (fsq A x + fsq A y - (x ^ 2 + y ^ 2)) with ((fsq A x - x ^ 2) + (fsq A y - y ^ 2)) by ring. eapply Rle_trans; [apply Rabs_triang|]. lra. }
  pose proof (ok_rnd _ _ _ _ _ (io_ar _ _ _ _ _ OK) (fsq A x + fsq A y)) as D2. fold w in D2.
  pose proof (abs_tri _ _ _ D1) as D3. rewrite (Rabs_right v) in D3 by lra.
  assert (uv : u * v <= v / 1000) by nra.
  assert (D : Rabs (w - v) <= 3.1 * u * v + 4 * eta).
  { assert (u * Rabs (fsq A x + fsq A y) <= u * (v + (2 * u * v + 2 * eta))) by (apply Rmult_le_compat_l; lra).
    assert (u * (2 * u * v) <= u * (v / 100)) by (apply Rmult_le_compat_l; lra). assert (u * (2 * eta) <= 1 * eta) by nra.
    eapply Rle_trans; [eapply abs3; [exact D2|exact D1]|]. assert (0 <= u * v) by (apply Rmult_le_pos; lra). lra. }
  set (p := sqrt v). set (q := sqrt w). assert (P0 : 0 <= p) by apply sqrt_pos. assert (Q0 : 0 <= q) by apply sqrt_pos.
  assert (Pv : p * p = v) by (apply sqrt_sqrt; auto). assert (Qw : q * q = w) by (apply sqrt_sqrt; auto).
  assert (PB : p <= 5.7). { apply Rsqr_incr_0_var; [|lra]. unfold Rsqr. lra. }
  assert (K : Rabs (q - p) <= 22 * u).
  { destruct (Rle_lt_dec u p) as [C|C].
    - assert (E : Rabs (q - p) * p <= 22 * u * p).
      { assert (F : Rabs (q - p) * (q + p) = Rabs (w - v)). { rewrite <- Pv, <- Qw. replace (q * q - p * p) with ((q - p) * (q + p)) by ring. rewrite Rabs_mult, (Rabs_right (q + p)) by lra. reflexivity. }
        assert (Rabs (q - p) * p <= Rabs (q - p) * (q + p)) by (apply Rmult_le_compat_l; [apply Rabs_pos|lra]).
        assert (eta <= u * p) by nra. assert (u * v <= u * (5.7 * p)). { apply Rmult_le_compat_l; [lra|]. rewrite <- Pv. nra. } lra. }
      apply Rmult_le_reg_r with p; lra.
    - assert (F : (q - p) ^ 2 <= Rabs (w - v)).
      { rewrite <- Pv, <- Qw. replace (q * q - p * p) with ((q - p) * (q + p)) by ring. rewrite Rabs_mult, (Rabs_right (q + p)) by lra. rewrite <- pow2_abs. replace (Rabs (q - p) ^ 2) with (Rabs (q - p) * Rabs (q - p)) by ring.
        apply Rmult_le_compat_l; [apply Rabs_pos|]. apply Rabs_le. lra. }
      assert (V2 : v <= u ^ 2) by (rewrite <- Pv; nra). assert (u * v <= u ^ 2) by nra.
      assert ((q - p) ^ 2 <= (22 * u) ^ 2) by nra. apply Rabs_le. split; nra. }
  pose proof (io_sqrt _ _ _ _ _ OK w W0) as S. fold q in S. apply Rabs_le_inv in K. assert (q <= 6) by nra. assert (u * q <= u * 6) by nra.
  apply Rle_trans with ((u * q + eta) + 22 * u); [|lra]. eapply abs3; [exact S|]. apply Rabs_le. lra.
Qed.
End Err.
