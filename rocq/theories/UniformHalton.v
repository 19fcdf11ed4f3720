(** * Halton samples of sample_SO3 come near every orientation. *)
From Coq Require Import String Reals Lra Lia List Bool Arith ZArith.
From Verif Require Import PyBase Mat Util UtilProofs HaltonProofs HaltonBox FloatFkProofs IkProofs Path Io IoProofs Examples ExamplesProofs Uniform.
Import ListNotations.
Local Open Scope R_scope.

(** ** points *)
Lemma cell_of p k x : (2 <= p)%nat -> 0 <= x <= 1 -> exists i, cell_ok p (k, i) /\
  forall y, IZR i / INR p ^ k <= y < (IZR i + 1) / INR p ^ k -> Rabs (y - x) <= / INR p ^ k.
Proof.
  intros Hp Hx. assert (P2 : 2 <= INR p) by (apply (le_INR 2); auto). assert (PP : 0 < INR p ^ k) by (apply pow_lt; lra).
  set (N := (Z.of_nat p ^ Z.of_nat k)%Z). assert (EN : IZR N = INR p ^ k) by (unfold N; rewrite <- pow_IZR, <- INR_IZR_INZ; reflexivity).
  assert (PN : (0 < N)%Z) by (apply Z.pow_pos_nonneg; lia).
  assert (F : exists i, (0 <= i < N)%Z /\ IZR i <= x * INR p ^ k <= IZR i + 1).
  { destruct (Req_EM_T x 1) as [->|Nx].
    - exists (N - 1)%Z. split; [lia|]. rewrite minus_IZR, EN. lra.
    - destruct (archimed (x * INR p ^ k)) as [A1 A2]. exists (up (x * INR p ^ k) - 1)%Z. rewrite minus_IZR. assert (B : 0 <= x * INR p ^ k < INR p ^ k) by nra. split; [|lra]. split.
      + assert (0 < up (x * INR p ^ k))%Z; [|lia]. apply lt_IZR. lra.
      + apply lt_IZR. rewrite minus_IZR, EN. lra. }
  destruct F as (i & Hi & L & U). exists i. split; [exact Hi|]. intros y [Y1 Y2].
  apply (Rmult_le_compat_r (INR p ^ k)) in Y1; [|lra]. apply (Rmult_lt_compat_r (INR p ^ k)) in Y2; [|lra].
  replace (IZR i / INR p ^ k * INR p ^ k) with (IZR i) in Y1 by (field; lra). replace ((IZR i + 1) / INR p ^ k * INR p ^ k) with (IZR i + 1) in Y2 by (field; lra).
  assert (B : Rabs ((y - x) * INR p ^ k) <= 1) by (apply Rabs_le; lra). rewrite Rabs_mult, (Rabs_pos_eq (INR p ^ k)) in B by lra.
  apply (Rmult_le_reg_r (INR p ^ k)); [lra|]. rewrite Rinv_l by lra. exact B.
Qed.
Lemma cells_of k : forall primes xs, Forall (fun p => 2 <= p)%nat primes -> Forall (fun x => 0 <= x <= 1) xs -> length xs = length primes ->
  exists cells, Forall2 cell_ok primes cells /\ Forall (fun c => fst c = k) cells /\
    forall row, in_row_box primes cells row -> Forall2 (fun px y => Rabs (y - snd px) <= / INR (fst px) ^ k) (combine primes xs) row.
Proof.
  induction primes as [|p ps IH]; intros [|x xs] P X L; try discriminate L.
  - exists []. split; auto. split; auto. intros row H. inversion H; subst. constructor.
  - inversion P; subst. inversion X; subst. destruct (cell_of p k x) as (i & C & H); auto. destruct (IH xs) as (cs & C' & F & H'); auto.
    exists ((k, i) :: cs). split; [constructor; auto|]. split; [constructor; auto|]. intros row R. unfold in_row_box in *. cbn [combine] in *. inversion R; subst. constructor; auto.
Qed.
Lemma boxes_same k : forall primes cells, Forall2 cell_ok primes cells -> Forall (fun c => fst c = k) cells -> boxes primes cells = fold_right Nat.mul 1%nat (map (fun p => p ^ k)%nat primes).
Proof. intros primes cells H. induction H as [|p c ps cs _ _ IH]; intros F; [reflexivity|]. inversion F; subst. cbn [boxes map fold_right]. rewrite IH; auto. Qed.
(** enough Halton points come near every point of the cube *)
Lemma halton_near fuel dim h k n rows h' : halton_init fuel dim = Ok h -> (1 <= dim)%nat -> (n <= fuel)%nat -> halton_samples fuel n h = Ok (rows, h') ->
  (fold_right Nat.mul 1 (map (fun p => p ^ k) (h_primes h)) <= n)%nat -> forall xs, length xs = dim -> Forall (fun x => 0 <= x <= 1) xs ->
  exists row, In row rows /\ Forall2 (fun px y => Rabs (y - snd px) <= / INR (fst px) ^ k) (combine (h_primes h) xs) row.
Proof.
  intros Hi Hd Hf E HN xs Lx X. destruct (halton_init_Ok _ _ _ Hi) as (Hl & Hp & Hc). pose proof (fop_ge2 _ Hp) as P2.
  assert (NE : h_primes h <> []) by (intros Z; rewrite Z in Hl; cbn in Hl; lia).
  destruct (cells_of k (h_primes h) xs P2 X ltac:(congruence)) as (cells & C & F & H). rewrite <- (boxes_same k _ cells C F) in HN.
  destruct (halton_even fuel dim h 0 [] h n rows h' cells 0 Hi Hd ltac:(lia)) as (i & (_ & row & I1 & I2) & _); auto.
  - rewrite halton_samples_val by (auto; lia). cbn [seq map]. rewrite Nat.add_0_r. destruct h; reflexivity.
  - exists row. split; [eapply nth_error_In; eauto|auto].
Qed.

(** ** quaternions *)
Definition quat_near (e : R) (p q : quat) : Prop := Rabs (qw p - qw q) <= e /\ Rabs (qx p - qx q) <= e /\ Rabs (qy p - qy q) <= e /\ Rabs (qz p - qz q) <= e.
Definition mat_near (e : R) (A B : mat3) : Prop :=
  Rabs (m00 A - m00 B) <= e /\ Rabs (m01 A - m01 B) <= e /\ Rabs (m02 A - m02 B) <= e /\
  Rabs (m10 A - m10 B) <= e /\ Rabs (m11 A - m11 B) <= e /\ Rabs (m12 A - m12 B) <= e /\
  Rabs (m20 A - m20 B) <= e /\ Rabs (m21 A - m21 B) <= e /\ Rabs (m22 A - m22 B) <= e.
Lemma turn_near t t' d : Rabs (t - t') <= d -> Rabs (2 * PI * t - 2 * PI * t') <= 2 * PI * d.
Proof. intros H. pose proof PI_RGT_0. rewrite <- Rmult_minus_distr_l, Rabs_mult, (Rabs_pos_eq (2 * PI)) by lra. apply Rmult_le_compat_l; lra. Qed.
Lemma quat_of_near r1 r2 r3 s1 s2 s3 d : 0 <= r1 <= 1 -> 0 <= s1 <= 1 -> Rabs (r1 - s1) <= d -> Rabs (r2 - s2) <= d -> Rabs (r3 - s3) <= d ->
  quat_near (sqrt d + 2 * PI * d) (quat_of r1 r2 r3) (quat_of s1 s2 s3).
Proof.
  intros R S D1 D2 D3. apply turn_near in D2, D3.
  assert (C : forall x, 0 <= x <= 1 -> 0 <= sqrt x <= 1) by (intros x Hx; split; [apply sqrt_pos|rewrite <- sqrt_1; apply sqrt_le_1_alt; lra]).
  assert (Q : Rabs (sqrt r1 - sqrt s1) <= sqrt d) by (apply sqrt_near; lra).
  assert (Q' : Rabs (sqrt (1 - r1) - sqrt (1 - s1)) <= sqrt d) by (apply sqrt_near; try lra; replace (1 - r1 - (1 - s1)) with (- (r1 - s1)) by ring; rewrite Rabs_Ropp; auto).
  unfold quat_near, quat_of. cbn [qw qx qy qz].
  repeat split; (apply prod_near; [apply C; lra|apply trig_le|assumption|eapply Rle_trans; [first [apply sin_lip|apply cos_lip]|assumption]]).
Qed.
Lemma mul_near a b c d e : Rabs a <= 1 -> Rabs d <= 1 -> Rabs (a - c) <= e -> Rabs (b - d) <= e -> Rabs (a * b - c * d) <= 2 * e.
Proof.
  intros A D E F. replace (a * b - c * d) with (a * (b - d) + (a - c) * d) by ring. eapply Rle_trans; [apply Rabs_triang|]. rewrite !Rabs_mult.
  pose proof (Rabs_pos (a - c)). pose proof (Rabs_pos (b - d)). pose proof (Rabs_pos a). pose proof (Rabs_pos d).
  assert (Rabs a * Rabs (b - d) <= 1 * Rabs (b - d)) by (apply Rmult_le_compat_r; lra). assert (Rabs (a - c) * Rabs d <= Rabs (a - c) * 1) by (apply Rmult_le_compat_l; lra). lra.
Qed.
Lemma unit_parts q : qnorm2 q = 1 -> Rabs (qw q) <= 1 /\ Rabs (qx q) <= 1 /\ Rabs (qy q) <= 1 /\ Rabs (qz q) <= 1.
Proof.
  unfold qnorm2. intros H. set (w := qw q) in *. set (x := qx q) in *. set (y := qy q) in *. set (z := qz q) in *.
  assert (0 <= w * w) by nra. assert (0 <= x * x) by nra. assert (0 <= y * y) by nra. assert (0 <= z * z) by nra.
  assert (S : forall a, a * a <= 1 -> Rabs a <= 1) by (intros a Ha; apply Rabs_le; split; nra). repeat split; apply S; lra.
Qed.
Lemma unit_rot_near e p q : qnorm2 p = 1 -> qnorm2 q = 1 -> quat_near e p q -> mat_near (8 * e) (unit_rot p) (unit_rot q).
Proof.
  intros P Q (W & X & Y & Z). destruct (unit_parts p P) as (Pw & Px & Py & Pz). destruct (unit_parts q Q) as (Qw & Qx & Qy & Qz).
  unfold mat_near, unit_rot. cbn [m00 m01 m02 m10 m11 m12 m20 m21 m22].
  destruct p as [w x y z], q as [w' x' y' z']. cbn [qw qx qy qz] in *.
  pose proof (mul_near w w w' w' e Pw Qw W W) as Hww. pose proof (mul_near x x x' x' e Px Qx X X) as Hxx. pose proof (mul_near y y y' y' e Py Qy Y Y) as Hyy. pose proof (mul_near z z z' z' e Pz Qz Z Z) as Hzz.
  pose proof (mul_near x y x' y' e Px Qy X Y) as Hxy. pose proof (mul_near x z x' z' e Px Qz X Z) as Hxz. pose proof (mul_near y z y' z' e Py Qz Y Z) as Hyz.
  pose proof (mul_near w x w' x' e Pw Qx W X) as Hwx. pose proof (mul_near w y w' y' e Pw Qy W Y) as Hwy. pose proof (mul_near w z w' z' e Pw Qz W Z) as Hwz.
  clear - Hww Hxx Hyy Hzz Hxy Hxz Hyz Hwx Hwy Hwz.
  repeat match goal with H : Rabs _ <= _ |- _ => apply Rabs_le_inv in H end.
  repeat split; apply Rabs_le; lra.
Qed.
Definition row_quat (row : list R) (q : quat) : Prop := exists r1 r2 r3, row = [r1; r2; r3] /\ q = quat_of r1 r2 r3.
Lemma row_quats rows qs : mapM (fun r => match r with [r1; r2; r3] => Ok (quat_of r1 r2 r3) | _ => Raise ValueError end) rows = Ok qs -> Forall2 row_quat rows qs.
Proof.
  revert qs. induction rows as [|r rows IH]; intros qs H; cbn [mapM] in H.
  - injection H as <-. constructor.
  - destruct r as [|r1 [|r2 [|r3 [|]]]]; try discriminate H. cbn [bind] in H. apply bind_Ok in H. destruct H as (qs' & E & H). injection H as <-. constructor; [exists r1, r2, r3; auto|]. apply IH. exact E.
Qed.
(** the samples are the images of the rows *)
Lemma so3_images ypr fuel rnd n rep method v : sample_SO3 ypr fuel rnd n rep method = Ok v -> exists rows qs, Forall2 row_quat rows qs /\
  ((method = "random"%string /\ rows = firstn n rnd /\ (n <= length rnd)%nat) \/ (method = "halton"%string /\ exists h h', halton_init fuel 3 = Ok h /\ halton_samples fuel n h = Ok (rows, h'))) /\
  match v with
  | SQuat l => rep = "quat"%string /\ l = qs
  | STf l => rep = "transform"%string /\ Forall2 (fun q T => T = M4 (qrot q) v0 v0 1) qs l
  | SRpy l => rep = "rpy"%string /\ l = map ypr qs
  | SNone => rep <> "quat"%string /\ rep <> "transform"%string /\ rep <> "rpy"%string
  end.
Proof.
  unfold sample_SO3. intros H. apply bind_Ok in H. destruct H as (rows & E & H). apply bind_Ok in H. destruct H as (qs & Q & H). exists rows, qs. split; [apply row_quats; auto|]. split.
  - destruct (String.eqb_spec method "random") as [->|N].
    + left. destruct (Nat.ltb_spec (length rnd) n); [discriminate|]. injection E as <-. auto.
    + destruct (String.eqb_spec method "halton") as [->|N']; [|discriminate]. right. split; auto. apply bind_Ok in E. destruct E as (h & Eh & E). apply bind_Ok in E. destruct E as ([rows' h'] & Er & E). injection E as <-. eauto.
  - destruct (String.eqb_spec rep "quat") as [->|N1]; [injection H as <-; auto|]. destruct (String.eqb_spec rep "transform") as [->|N2].
    + injection H as <-. split; auto. clear. induction qs; constructor; auto.
    + destruct (String.eqb_spec rep "rpy") as [->|N3]; injection H as <-; auto.
Qed.
Lemma so3_near k n : (105 ^ k <= n)%nat -> exists F, forall fuel ypr rnd, (F <= fuel)%nat -> exists l, sample_SO3 ypr fuel rnd n "transform" "halton" = Ok (STf l) /\
  forall A, rotation A -> exists T, In T l /\ mat_near (8 * (sqrt ((/ 3) ^ k) + 2 * PI * (/ 3) ^ k)) (rot T) A.
Proof.
  intros HN. destruct (halton_init_fuel 3) as (F & h & E). exists (Nat.max (Nat.max F n) 5). intros fuel ypr rnd Hf. pose proof (E fuel ltac:(lia)) as Ei.
  assert (Hp : h_primes h = [3; 5; 7]%nat).
  { pose proof (E (Nat.max F 5) ltac:(lia)) as E5. destruct (Nat.max F 5) as [|[|[|[|[|f]]]]] eqn:M; try lia. cbn in E5. injection E5 as <-. reflexivity. }
  destruct (halton_rows fuel 3 h n Ei ltac:(lia) ltac:(lia)) as (rows & h' & Er & Hl & Hr).
  assert (U : Forall unit_row rows).
  { apply Forall_forall. intros row Hin. apply In_nth_error in Hin. destruct Hin as (i & Hi). apply Hr in Hi. rewrite Hp in Hi.
    inversion Hi as [|? r1 ? ? H1 T1]; subst. inversion T1 as [|? r2 ? ? H2 T2]; subst. inversion T2 as [|? r3 ? ? H3 T3]; subst. inversion T3; subst.
    exists r1, r2, r3. split; auto. destruct H1 as (f & H1). pose proof (vdc_range (Z.of_nat 3) ltac:(lia) (Z.of_nat (i + 1)) f r1 ltac:(lia) H1). lra. }
  destruct (quats_of_rows rows U) as (qs & Q & _ & Uq).
  assert (ES : sample_SO3 ypr fuel rnd n "transform" "halton" = Ok (STf (map qtransform qs))).
  { unfold sample_SO3. cbn [String.eqb Ascii.eqb Bool.eqb]. rewrite Ei. cbn [bind]. rewrite Er. cbn [bind]. rewrite Q. reflexivity. }
  eexists. split; [exact ES|]. intros A HA. destruct (quat_of_matrix_rot A HA) as [U1 V1]. destruct (quat_onto _ U1) as (s1 & s2 & s3 & B1 & B2 & B3 & Es).
  destruct (halton_near fuel 3 h k n rows h' Ei ltac:(lia) ltac:(lia) Er) with (xs := [s1; s2; s3]) as (row & I & H).
  - rewrite Hp. cbn [map fold_right]. rewrite Nat.mul_1_r, <- !Nat.pow_mul_l. exact HN.
  - reflexivity.
  - repeat (apply Forall_cons; [lra|]). apply Forall_nil.
  - rewrite Hp in H. cbn [combine] in H. inversion H as [|? r1 ? ? H1 T1]; subst. inversion T1 as [|? r2 ? ? H2 T2]; subst. inversion T2 as [|? r3 ? ? H3 T3]; subst. inversion T3; subst. cbn [fst snd] in *.
    assert (D3 : / INR 3 ^ k = (/ 3) ^ k) by (rewrite pow_inv; replace (INR 3) with 3 by (cbn; lra); reflexivity).
    assert (D5 : forall m, 3 <= INR m -> / INR m ^ k <= (/ 3) ^ k) by (intros m Hm; rewrite pow_inv; apply Rinv_le_contravar; [apply pow_lt; lra|apply pow_incr; lra]).
    assert (D : forall m, 3 <= INR m -> forall y, Rabs y <= / INR m ^ k -> Rabs y <= (/ 3) ^ k) by (intros m Hm y Hy; specialize (D5 m Hm); lra).
    apply (D 3%nat ltac:(cbn; lra)) in H1. apply (D 5%nat ltac:(cbn; lra)) in H2. apply (D 7%nat ltac:(cbn; lra)) in H3.
    pose proof (row_quats _ _ Q) as RQ.
    assert (X : exists q, In q qs /\ q = quat_of r1 r2 r3).
    { clear - RQ I. induction RQ as [|r q rs qs Hq _ IH]; [destruct I|]. destruct I as [->|I]; [|destruct (IH I) as (q' & A & B); exists q'; split; [right|]; auto].
      exists q. split; [left; auto|]. destruct Hq as (a & b & c & Ea & ->). injection Ea as <- <- <-. reflexivity. }
    destruct X as (q & Iq & Eq). exists (qtransform q). split; [apply in_map; auto|]. cbn [qtransform rot].
    rewrite Forall_forall in Uq, U. pose proof (Uq q Iq) as Uq1. pose proof (U _ I) as (x1 & x2 & x3 & Ex & Bx). injection Ex as <- <- <-.
    rewrite qrot_unit by auto. rewrite <- V1, qrot_unit by auto. apply unit_rot_near; auto. rewrite Eq, <- Es. apply quat_of_near; auto.
Qed.
Lemma small_enough e : 0 < e -> exists k, 8 * (sqrt ((/ 3) ^ k) + 2 * PI * (/ 3) ^ k) <= e.
Proof.
  intros He. pose proof PI_RGT_0 as P. set (d := Rmin ((e / 16) ^ 2) (e / (32 * PI))).
  assert (Hd : 0 < d) by (apply Rmin_pos; [apply pow_lt; lra|apply Rdiv_lt_0_compat; lra]).
  destruct (pow_lt_1_zero (/ 3) ltac:(rewrite Rabs_pos_eq; lra) d Hd) as (k & K). specialize (K k (le_n k)). assert (0 < (/ 3) ^ k) by (apply pow_lt; lra). rewrite Rabs_pos_eq in K by lra.
  exists k. pose proof (Rmin_l ((e / 16) ^ 2) (e / (32 * PI))). pose proof (Rmin_r ((e / 16) ^ 2) (e / (32 * PI))). fold d in H0, H1.
  assert (sqrt ((/ 3) ^ k) <= e / 16). { rewrite <- (sqrt_pow2 (e / 16)) by lra. apply sqrt_le_1_alt. lra. }
  assert (2 * PI * (/ 3) ^ k <= e / 16). { replace (e / 16) with (2 * PI * (e / (32 * PI))) by (field; lra). apply Rmult_le_compat_l; lra. }
  lra.
Qed.
Lemma so3_dense e : 0 < e -> exists N, forall n, (N <= n)%nat -> exists F, forall fuel ypr rnd, (F <= fuel)%nat -> exists l, sample_SO3 ypr fuel rnd n "transform" "halton" = Ok (STf l) /\
  forall A, rotation A -> exists T, In T l /\ mat_near e (rot T) A.
Proof.
  intros He. destruct (small_enough e He) as (k & K). exists (105 ^ k)%nat. intros n Hn. destruct (so3_near k n Hn) as (F & H). exists F. intros fuel ypr rnd Hf.
  destruct (H fuel ypr rnd Hf) as (l & E & G). exists l. split; auto. intros A HA. destruct (G A HA) as (T & I & M). exists T. split; auto. unfold mat_near in *. lra.
Qed.
