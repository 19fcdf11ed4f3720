(** * Proofs about util.py: vdc, next_prime, HaltonSampler, sample_SO3. *)
From Coq Require Import String Reals Lra Lia List Bool Arith ZArith Znumtheory Factorial Sorted.
From Verif Require Import PyBase Mat Util UtilProofs.
Import ListNotations.
Local Open Scope R_scope.

(** ** van der Corput *)
(** the k lowest digits of n in base b, mirrored behind the point *)
Definition mirrored (b : Z) (k : nat) (n : Z) : R :=
  fold_right Rplus 0 (map (fun i => IZR ((n / b ^ Z.of_nat i) mod b) / IZR b ^ (i + 1)) (seq 0 k)).

Section Vdc.
Context (b : Z) (Hb : (2 <= b)%Z).
Lemma bpos : 2 <= IZR b.
Proof. apply IZR_le in Hb. exact Hb. Qed.

Lemma sum_scale (f : nat -> R) c l : fold_right Rplus 0 (map (fun i => f i / c) l) = fold_right Rplus 0 (map f l) / c.
Proof. induction l as [|x l IH]; cbn; [unfold Rdiv; ring|]. rewrite IH. unfold Rdiv. ring. Qed.

Lemma mirrored_S k n : mirrored b (S k) n = (IZR (n mod b) + mirrored b k (n / b)) / IZR b.
Proof.
  pose proof bpos. unfold mirrored. cbn [seq map fold_right]. rewrite <- seq_shift, map_map.
  replace (IZR b ^ (0 + 1)) with (IZR b) by (cbn; ring). change (Z.of_nat 0) with 0%Z. rewrite Z.pow_0_r, Z.div_1_r.
  unfold Rdiv at 3. rewrite Rmult_plus_distr_r. f_equal.
  change (fold_right Rplus 0 (map (fun i => IZR ((n / b / b ^ Z.of_nat i) mod b) / IZR b ^ (i + 1)) (seq 0 k)) * / IZR b)
    with (fold_right Rplus 0 (map (fun i => IZR ((n / b / b ^ Z.of_nat i) mod b) / IZR b ^ (i + 1)) (seq 0 k)) / IZR b).
  rewrite <- sum_scale. f_equal. apply map_ext. intros i.
  assert (E : (n / b ^ Z.of_nat (S i) = n / b / b ^ Z.of_nat i)%Z).
  { rewrite Nat2Z.inj_succ, Z.pow_succ_r by lia. rewrite Z.div_div by (try apply Z.pow_pos_nonneg; lia). reflexivity. }
  rewrite E. cbn [Nat.add pow]. field. split; [apply pow_nonzero|]; lra.
Qed.
Lemma mirrored_0 k : mirrored b k 0 = 0.
Proof. pose proof bpos. induction k as [|k IH]; [reflexivity|]. rewrite mirrored_S, Z.div_0_l, IH, Z.mod_0_l by lia. field. lra. Qed.

Lemma digit_bound n : (0 <= n mod b <= b - 1)%Z.
Proof. pose proof (Z.mod_pos_bound n b). lia. Qed.
Lemma mirrored_bound : forall k n, 0 <= mirrored b k n <= 1 - / IZR b ^ k.
Proof.
  pose proof bpos as B. induction k as [|k IH]; intros n; [cbn; lra|]. rewrite mirrored_S.
  destruct (digit_bound n) as [D1 D2]. apply IZR_le in D1, D2. rewrite minus_IZR in D2.
  specialize (IH (n / b)%Z). assert (P : 0 < IZR b ^ k) by (apply pow_lt; lra).
  assert (0 < / IZR b) by (apply Rinv_0_lt_compat; lra).
  cbn [pow]. rewrite Rinv_mult. unfold Rdiv. split; [nra|].
  apply (Rmult_le_reg_l (IZR b)); [lra|]. replace (IZR b * ((IZR (n mod b) + mirrored b k (n / b)) * / IZR b)) with (IZR (n mod b) + mirrored b k (n / b)) by (field; lra).
  replace (IZR b * (1 - / IZR b * / IZR b ^ k)) with (IZR b - / IZR b ^ k) by (field; lra). lra.
Qed.
Lemma mirrored_lt1 k n : 0 <= mirrored b k n < 1.
Proof.
  pose proof (mirrored_bound k n). assert (0 < / IZR b ^ k); [|lra].
  apply Rinv_0_lt_compat, pow_lt. pose proof bpos. lra.
Qed.

Lemma div_small k n : (0 <= n < b ^ Z.of_nat (S k))%Z -> (0 <= n / b < b ^ Z.of_nat k)%Z.
Proof.
  intros [H1 H2]. rewrite Nat2Z.inj_succ, Z.pow_succ_r in H2 by lia. split; [apply Z.div_pos; lia|]. apply Z.div_lt_upper_bound; lia.
Qed.
Lemma lt_pow n : (0 <= n)%Z -> (n < b ^ Z.of_nat (Z.to_nat n))%Z.
Proof. intros H. rewrite Z2Nat.id by auto. apply Z.pow_gt_lin_r; lia. Qed.

Lemma vdc_loop_value : forall k fuel n denom acc, (0 <= n < b ^ Z.of_nat k)%Z -> (k <= fuel)%nat -> denom <> 0 ->
  vdc_loop fuel n b denom acc = Ok (acc + mirrored b k n / denom).
Proof.
  pose proof bpos as B. induction k as [|k IH]; intros fuel n denom acc Hn Hf Hd.
  - cbn in Hn. assert (n = 0)%Z by lia. subst n. destruct fuel; cbn [vdc_loop Z.eqb]; f_equal; rewrite mirrored_0; field; auto.
  - destruct (Z.eqb_spec n 0) as [->|Hn0].
    + destruct fuel; cbn [vdc_loop Z.eqb]; f_equal; rewrite mirrored_0; field; auto.
    + destruct fuel as [|fuel]; [lia|]. cbn [vdc_loop]. apply Z.eqb_neq in Hn0. rewrite Hn0.
      replace (b =? 0)%Z with false by (symmetry; apply Z.eqb_neq; lia).
      rewrite IH; [|apply div_small; auto|lia|].
      * f_equal. rewrite mirrored_S. field. lra.
      * apply Rmult_integral_contrapositive_currified; lra.
Qed.
Lemma vdc_value k fuel n : (0 <= n < b ^ Z.of_nat k)%Z -> (k <= fuel)%nat -> vdc fuel n b = Ok (mirrored b k n).
Proof. intros. unfold vdc. rewrite (vdc_loop_value k) by (auto; lra). f_equal. field. Qed.
(** all large enough k give the same value *)
Lemma mirrored_stable k k' n : (0 <= n < b ^ Z.of_nat k)%Z -> (0 <= n < b ^ Z.of_nat k')%Z -> mirrored b k n = mirrored b k' n.
Proof.
  intros H H'. pose proof (vdc_value k (k + k') n H ltac:(lia)). pose proof (vdc_value k' (k + k') n H' ltac:(lia)). congruence.
Qed.
Lemma vdc_returns n fuel : (0 <= n)%Z -> (Z.to_nat n <= fuel)%nat -> vdc fuel n b = Ok (mirrored b (Z.to_nat n) n).
Proof. intros H Hf. apply vdc_value; auto. split; auto. apply lt_pow; auto. Qed.
Lemma vdc_Ok fuel n x : (0 <= n)%Z -> vdc fuel n b = Ok x -> x = mirrored b (Z.to_nat n) n.
Proof.
  intros Hn H. assert (Hm : forall f n d acc x, vdc_loop f n b d acc = Ok x -> forall f', (f <= f')%nat -> vdc_loop f' n b d acc = Ok x).
  { clear. induction f as [|f IH]; intros n d acc x H f' Hf; cbn [vdc_loop] in H.
    - destruct (n =? 0)%Z eqn:E; [|discriminate]. destruct f'; cbn [vdc_loop]; rewrite E; auto.
    - destruct f' as [|f']; [lia|]. cbn [vdc_loop]. destruct (n =? 0)%Z; auto. destruct (b =? 0)%Z; auto. eapply IH; eauto. lia. }
  pose proof (Hm _ _ _ _ _ H (Nat.max fuel (Z.to_nat n)) ltac:(lia)) as H1.
  pose proof (vdc_returns n (Nat.max fuel (Z.to_nat n)) Hn ltac:(lia)) as H2. unfold vdc in H2. congruence.
Qed.

Lemma mirrored_inj : forall k n m, (0 <= n < b ^ Z.of_nat k)%Z -> (0 <= m < b ^ Z.of_nat k)%Z -> mirrored b k n = mirrored b k m -> n = m.
Proof.
  pose proof bpos as B. induction k as [|k IH]; intros n m Hn Hm E; [cbn in *; lia|].
  rewrite !mirrored_S in E. assert (E' : IZR (n mod b) + mirrored b k (n / b) = IZR (m mod b) + mirrored b k (m / b)).
  { apply (Rmult_eq_reg_r (/ IZR b)); [exact E|]. apply Rinv_neq_0_compat. lra. }
  pose proof (mirrored_lt1 k (n / b)). pose proof (mirrored_lt1 k (m / b)).
  assert (Ed : (n mod b = m mod b)%Z).
  { assert (H1 : IZR (n mod b) < IZR (m mod b) + 1) by lra. assert (H2 : IZR (m mod b) < IZR (n mod b) + 1) by lra.
    rewrite <- plus_IZR in H1, H2. apply lt_IZR in H1, H2. lia. }
  rewrite Ed in E'. assert (Eq : (n / b = m / b)%Z) by (apply IH; [apply div_small; auto..|lra]).
  rewrite (Z.div_mod n b), (Z.div_mod m b) by lia. congruence.
Qed.

(** ** stratification *)
Lemma block_div k m j : (0 <= j)%Z -> ((b ^ Z.of_nat (S k) * m + j) / b = b ^ Z.of_nat k * m + j / b)%Z /\ ((b ^ Z.of_nat (S k) * m + j) mod b = j mod b)%Z.
Proof.
  intros Hj. rewrite Nat2Z.inj_succ, Z.pow_succ_r by lia.
  replace (b * b ^ Z.of_nat k * m + j)%Z with (j + (b ^ Z.of_nat k * m) * b)%Z by ring.
  rewrite Z.div_add, Z.mod_add by lia. split; [lia|auto].
Qed.
Lemma pow_pos k : (0 < b ^ Z.of_nat k)%Z.
Proof. apply Z.pow_pos_nonneg; lia. Qed.
Lemma pow_IZR' k : IZR (b ^ Z.of_nat k) = IZR b ^ k.
Proof. symmetry. apply pow_IZR. Qed.

Definition in_cell (k : nat) (i : Z) (x : R) : Prop := IZR i / IZR b ^ k <= x < (IZR i + 1) / IZR b ^ k.
Lemma in_cell_S k i d x : (0 <= d < b)%Z -> (0 <= i)%Z -> 0 <= x < 1 ->
  in_cell (S k) i ((IZR d + x) / IZR b) <-> d = (i / b ^ Z.of_nat k)%Z /\ in_cell k (i mod b ^ Z.of_nat k) x.
Proof.
  intros Hd Hi Hx. pose proof bpos as B. pose proof (pow_pos k) as P. assert (PR : 0 < IZR b ^ k) by (rewrite <- pow_IZR'; apply (IZR_lt 0); auto).
  assert (E : in_cell (S k) i ((IZR d + x) / IZR b) <-> IZR i <= (IZR d + x) * IZR b ^ k < IZR i + 1).
  { unfold in_cell. cbn [pow]. split; intros [H1 H2]; split.
    - apply (Rmult_le_compat_r (IZR b * IZR b ^ k)) in H1; [|nra]. revert H1. replace (IZR i / (IZR b * IZR b ^ k) * (IZR b * IZR b ^ k)) with (IZR i) by (field; lra).
      replace ((IZR d + x) / IZR b * (IZR b * IZR b ^ k)) with ((IZR d + x) * IZR b ^ k) by (field; lra). auto.
    - apply (Rmult_lt_compat_r (IZR b * IZR b ^ k)) in H2; [|nra]. revert H2. replace ((IZR i + 1) / (IZR b * IZR b ^ k) * (IZR b * IZR b ^ k)) with (IZR i + 1) by (field; lra).
      replace ((IZR d + x) / IZR b * (IZR b * IZR b ^ k)) with ((IZR d + x) * IZR b ^ k) by (field; lra). auto.
    - apply (Rmult_le_reg_r (IZR b * IZR b ^ k)); [nra|]. replace (IZR i / (IZR b * IZR b ^ k) * (IZR b * IZR b ^ k)) with (IZR i) by (field; lra).
      replace ((IZR d + x) / IZR b * (IZR b * IZR b ^ k)) with ((IZR d + x) * IZR b ^ k) by (field; lra). auto.
    - apply (Rmult_lt_reg_r (IZR b * IZR b ^ k)); [nra|]. replace ((IZR i + 1) / (IZR b * IZR b ^ k) * (IZR b * IZR b ^ k)) with (IZR i + 1) by (field; lra).
      replace ((IZR d + x) / IZR b * (IZR b * IZR b ^ k)) with ((IZR d + x) * IZR b ^ k) by (field; lra). auto. }
  assert (E2 : forall c, in_cell k c x <-> IZR c <= x * IZR b ^ k < IZR c + 1).
  { intros c. unfold in_cell. split; intros [H1 H2]; split.
    - apply (Rmult_le_compat_r (IZR b ^ k)) in H1; [|lra]. revert H1. replace (IZR c / IZR b ^ k * IZR b ^ k) with (IZR c) by (field; lra). auto.
    - apply (Rmult_lt_compat_r (IZR b ^ k)) in H2; [|lra]. revert H2. replace ((IZR c + 1) / IZR b ^ k * IZR b ^ k) with (IZR c + 1) by (field; lra). auto.
    - apply (Rmult_le_reg_r (IZR b ^ k)); [lra|]. replace (IZR c / IZR b ^ k * IZR b ^ k) with (IZR c) by (field; lra). auto.
    - apply (Rmult_lt_reg_r (IZR b ^ k)); [lra|]. replace ((IZR c + 1) / IZR b ^ k * IZR b ^ k) with (IZR c + 1) by (field; lra). auto. }
  rewrite E, E2. clear E E2. set (N := (b ^ Z.of_nat k)%Z) in *. rewrite <- pow_IZR' in *. fold N in PR |- *.
  pose proof (Z.div_mod i N ltac:(lia)) as Ei. pose proof (Z.mod_pos_bound i N P) as Bi.
  set (q := (i / N)%Z) in *. set (r := (i mod N)%Z) in *.
  assert (EiR : IZR i = IZR N * IZR q + IZR r) by (rewrite <- mult_IZR, <- plus_IZR; f_equal; auto).
  assert (Hr : 0 <= IZR r <= IZR N - 1). { rewrite <- minus_IZR. split; [apply (IZR_le 0)|apply IZR_le]; lia. }
  assert (HxN : 0 <= x * IZR N < IZR N) by nra.
  split.
  - intros [H1 H2]. assert (Ed : d = q).
    { assert (G1 : IZR N * IZR d < IZR N * (IZR q + 1)) by nra. apply Rmult_lt_reg_l in G1; auto. rewrite <- plus_IZR in G1. apply lt_IZR in G1.
      assert (G2 : IZR N * IZR q < IZR N * (IZR d + 1)) by nra. apply Rmult_lt_reg_l in G2; auto. rewrite <- plus_IZR in G2. apply lt_IZR in G2. lia. }
    split; auto. rewrite Ed in *. nra.
  - intros [-> H]. nra.
Qed.

Lemma strat : forall k K m i, (0 <= m < b ^ Z.of_nat K)%Z -> (0 <= i < b ^ Z.of_nat k)%Z ->
  exists! j, (0 <= j < b ^ Z.of_nat k)%Z /\ in_cell k i (mirrored b (k + K) (b ^ Z.of_nat k * m + j)).
Proof.
  induction k as [|k IH]; intros K m i Hm Hi.
  - exists 0%Z. cbn [Z.of_nat Z.pow] in *. assert (i = 0)%Z by lia. subst i. pose proof (mirrored_lt1 (0 + K) (1 * m + 0)).
    split; [split; [lia|unfold in_cell; cbn [pow]; lra]|]. intros j [Hj _]. lia.
  - pose proof (pow_pos k) as P. pose proof (pow_pos (S k)) as P'. assert (EP : (b ^ Z.of_nat (S k) = b * b ^ Z.of_nat k)%Z) by (rewrite Nat2Z.inj_succ, Z.pow_succ_r; lia).
    set (q := (i / b ^ Z.of_nat k)%Z). set (r := (i mod b ^ Z.of_nat k)%Z).
    assert (Hr : (0 <= r < b ^ Z.of_nat k)%Z) by (apply Z.mod_pos_bound; auto).
    assert (Hq : (0 <= q < b)%Z) by (split; [apply Z.div_pos; lia|apply Z.div_lt_upper_bound; [auto|rewrite EP in Hi; lia]]).
    destruct (IH K m r Hm Hr) as (j' & (Hj' & Hc) & Huniq).
    assert (Hstep : forall j, (0 <= j < b ^ Z.of_nat (S k))%Z -> in_cell (S k) i (mirrored b (S k + K) (b ^ Z.of_nat (S k) * m + j)) <->
        (j mod b = q)%Z /\ in_cell k r (mirrored b (k + K) (b ^ Z.of_nat k * m + j / b))).
    { intros j Hj. cbn [Nat.add]. rewrite mirrored_S. destruct (block_div k m j) as [E1 E2]; [lia|]. rewrite E1, E2.
      rewrite in_cell_S; [reflexivity|apply Z.mod_pos_bound; lia|lia|apply mirrored_lt1]. }
    exists (b * j' + q)%Z. split.
    + assert (Hj : (0 <= b * j' + q < b ^ Z.of_nat (S k))%Z) by nia. split; auto. apply Hstep; auto.
      rewrite (Z.mul_comm b j'), Z.add_comm, Z.mod_add, Z.div_add, Z.mod_small, Z.div_small by lia. split; auto.
    + intros j [Hj Hcj]. apply Hstep in Hcj; auto. destruct Hcj as [Ed Hcj]. 
      rewrite (Huniq (j / b)%Z).
      * rewrite <- Ed. symmetry. apply Z.div_mod. lia.
      * split; auto. apply div_small. auto.
Qed.

Lemma vdc_stratified k m i : (0 <= m)%Z -> (0 <= i < b ^ Z.of_nat k)%Z ->
  exists! j, (0 <= j < b ^ Z.of_nat k)%Z /\ exists fuel x, vdc fuel (b ^ Z.of_nat k * m + j) b = Ok x /\ IZR i / IZR b ^ k <= x < (IZR i + 1) / IZR b ^ k.
Proof.
  intros Hm Hi. destruct (strat k (Z.to_nat m) m i) as (j & (Hj & Hc) & Hu); [split; [auto|apply lt_pow; auto]|auto|].
  assert (HK : forall j', (0 <= j' < b ^ Z.of_nat k)%Z -> (0 <= b ^ Z.of_nat k * m + j' < b ^ Z.of_nat (k + Z.to_nat m))%Z).
  { intros j' Hj'. pose proof (lt_pow m Hm). rewrite Nat2Z.inj_add, Z.pow_add_r by lia. pose proof (pow_pos k). nia. }
  exists j. split.
  - split; auto. exists (k + Z.to_nat m)%nat, (mirrored b (k + Z.to_nat m) (b ^ Z.of_nat k * m + j)). split; auto. apply vdc_value; auto.
  - intros j' (Hj' & fuel & x & Hv & Hx). apply Hu. split; auto. unfold in_cell.
    pose proof (HK j' Hj') as [N1 N2]. apply vdc_Ok in Hv; auto. rewrite (mirrored_stable _ (Z.to_nat (b ^ Z.of_nat k * m + j')) _ (conj N1 N2)); [rewrite <- Hv; auto|].
    split; auto. apply lt_pow; auto.
Qed.

Lemma vdc_range n fuel x : (0 <= n)%Z -> vdc fuel n b = Ok x -> 0 <= x < 1.
Proof. intros Hn H. apply vdc_Ok in H; auto. subst x. apply mirrored_lt1. Qed.
Lemma vdc_distinct n m fuel fuel' x : (0 <= n)%Z -> (0 <= m)%Z -> vdc fuel n b = Ok x -> vdc fuel' m b = Ok x -> n = m.
Proof.
  intros Hn Hm H H'. apply vdc_Ok in H, H'; auto. set (k := Nat.max (Z.to_nat n) (Z.to_nat m)).
  assert (Bn : (0 <= n < b ^ Z.of_nat k)%Z) by (split; auto; eapply Z.lt_le_trans; [apply lt_pow; auto|apply Z.pow_le_mono_r; lia]).
  assert (Bm : (0 <= m < b ^ Z.of_nat k)%Z) by (split; auto; eapply Z.lt_le_trans; [apply lt_pow; auto|apply Z.pow_le_mono_r; lia]).
  apply (mirrored_inj k); auto. rewrite (mirrored_stable k (Z.to_nat n) n), (mirrored_stable k (Z.to_nat m) m); auto; [congruence|split; auto; apply lt_pow; auto..].
Qed.
(** negative indices never end *)
Lemma vdc_negative : forall fuel n d acc, (n < 0)%Z -> vdc_loop fuel n b d acc = OutOfFuel.
Proof.
  induction fuel as [|fuel IH]; intros n d acc Hn; cbn [vdc_loop]; replace (n =? 0)%Z with false by (symmetry; apply Z.eqb_neq; lia); auto.
  replace (b =? 0)%Z with false by (symmetry; apply Z.eqb_neq; lia). apply IH. apply Z.div_lt_upper_bound; lia.
Qed.
End Vdc.
Lemma vdc_base1 : forall fuel n d acc, n <> 0%Z -> vdc_loop fuel n 1 d acc = OutOfFuel.
Proof.
  induction fuel as [|fuel IH]; intros n d acc Hn; cbn [vdc_loop]; apply Z.eqb_neq in Hn; rewrite Hn; auto. cbn [Z.eqb]. rewrite Z.div_1_r. apply IH. apply Z.eqb_neq; auto.
Qed.

(** ** primes *)
Local Open Scope nat_scope.
Definition Prime (n : nat) : Prop := Znumtheory.prime (Z.of_nat n).
Lemma mod_zero_divide n i : i <> 0 -> (n mod i = 0 <-> Nat.divide i n).
Proof. intros H. apply Nat.mod_divide. auto. Qed.
Lemma Zdivide_nat i n : (Z.of_nat i | Z.of_nat n)%Z -> Nat.divide i n.
Proof.
  intros [k Hk]. destruct (Nat.eq_dec n 0) as [->|Hn]; [exists 0; auto|]. destruct (Nat.eq_dec i 0) as [->|Hi]; [lia|].
  exists (Z.to_nat k). assert (0 <= k)%Z by nia. nia.
Qed.
Lemma divide_Zdivide i n : Nat.divide i n -> (Z.of_nat i | Z.of_nat n)%Z.
Proof. intros [k ->]. exists (Z.of_nat k). lia. Qed.

Lemma is_prime_spec n : 2 <= n -> (is_prime n = true <-> Prime n).
Proof.
  intros Hn. unfold is_prime, Prime. rewrite forallb_forall, <- prime_alt. split.
  - intros H. split; [lia|]. intros z Hz Hd.
    assert (exists i, z = Z.of_nat i) as [i ->] by (exists (Z.to_nat z); lia).
    apply Zdivide_nat in Hd. destruct Hd as [m Hm].
    assert (Hsq : forall a, 2 <= a -> a * a <= n -> Nat.divide a n -> False).
    { intros a Ha Haa Hd. specialize (H a). apply negb_true_iff, Nat.eqb_neq in H; [apply H; apply mod_zero_divide; auto; lia|].
      apply in_seq. assert (a <= Nat.sqrt n) by (apply Nat.sqrt_le_square; auto). lia. }
    destruct (le_lt_dec i m).
    + apply (Hsq i); [lia|nia|exists m; lia].
    + apply (Hsq m); [nia|nia|exists i; lia].
  - intros [_ H] i Hi. apply in_seq in Hi. apply negb_true_iff, Nat.eqb_neq. intros E. apply mod_zero_divide in E; [|lia].
    apply (H (Z.of_nat i)); [|apply divide_Zdivide; auto].
    assert (i <= Nat.sqrt n) by lia. pose proof (Nat.sqrt_spec n ltac:(lia)) as [S1 _]. nia.
Qed.

(** infinitely many primes *)
Lemma prime_factor : forall n, 2 <= n -> exists p, Prime p /\ Nat.divide p n.
Proof.
  induction n as [n IH] using lt_wf_ind. intros Hn. destruct (prime_dec (Z.of_nat n)) as [P|P].
  - exists n. split; auto. exists 1. lia.
  - apply not_prime_divide in P; [|lia]. destruct P as (z & Hz & Hd).
    assert (exists i, z = Z.of_nat i) as [i ->] by (exists (Z.to_nat z); lia). apply Zdivide_nat in Hd.
    destruct (IH i) as (p & Hp & Hpi); [lia|lia|]. exists p. split; auto. eapply Nat.divide_trans; eauto.
Qed.
Lemma fact_divide : forall n i, 1 <= i <= n -> Nat.divide i (fact n).
Proof.
  induction n as [|n IH]; intros i Hi; [lia|]. cbn [fact]. destruct (Nat.eq_dec i (S n)) as [->|Hne].
  - exists (fact n). lia.
  - destruct (IH i) as [k Hk]; [lia|]. exists (S n * k). change (fact n + n * fact n) with (S n * fact n). rewrite Hk. lia.
Qed.
Lemma prime_above n : exists p, n < p /\ Prime p.
Proof.
  destruct (prime_factor (fact n + 1)) as (p & Hp & Hd); [pose proof (lt_O_fact n); lia|].
  exists p. split; auto. destruct (le_lt_dec p n); auto. exfalso.
  assert (1 < p) by (destruct Hp; lia). assert (Nat.divide p (fact n)) by (apply fact_divide; lia).
  assert (Nat.divide p 1). { replace 1 with (fact n + 1 - fact n) by lia. apply Nat.divide_sub_r; auto. }
  apply Nat.divide_1_r in H1. lia.
Qed.
Lemma prime_odd p : Prime p -> 3 <= p -> Nat.Odd p.
Proof.
  intros Hp H3. destruct (Nat.Even_or_Odd p) as [[m Hm]|]; auto. exfalso.
  apply prime_alt in Hp. destruct Hp as [_ Hp]. apply (Hp 2%Z); [lia|]. exists (Z.of_nat m). lia.
Qed.

Definition OddPrime (p : nat) : Prop := Prime p /\ Nat.Odd p.
Lemma odd_step p r : Nat.Odd p -> Nat.Odd r -> p < r -> p + 2 <= r.
Proof. intros [a ->] [c ->]. lia. Qed.
Lemma next_prime_Ok : forall fuel p q st, Nat.Odd p -> 3 <= p -> next_prime fuel p = Ok (q, st) ->
  st = q + 2 /\ p <= q /\ OddPrime q /\ (forall r, OddPrime r -> p <= r -> q <= r).
Proof.
  induction fuel as [|fuel IH]; intros p q st Ho H3 H; cbn [next_prime] in H; [discriminate|].
  destruct (is_prime p) eqn:E.
  - injection H as <- <-. apply is_prime_spec in E; [|lia]. unfold OddPrime. auto 6.
  - apply IH in H; [|destruct Ho as [a ->]; exists (S a); lia|lia]. destruct H as (-> & Hle & Hq & Hm). split; [auto|]. split; [lia|]. split; auto.
    intros r Hr Hpr. apply Hm; auto. apply odd_step; auto; [apply Hr|]. destruct (Nat.eq_dec p r) as [->|]; [|lia]. exfalso.
    destruct Hr as [Hr _]. apply is_prime_spec in Hr; [congruence|lia].
Qed.
Lemma next_prime_terminates : forall k p, Nat.Odd p -> 3 <= p -> OddPrime (p + 2 * k) -> forall fuel, k < fuel -> exists q, next_prime fuel p = Ok (q, q + 2) /\ q <= p + 2 * k.
Proof.
  induction k as [|k IH]; intros p Ho H3 Hp fuel Hf; (destruct fuel as [|fuel]; [lia|]); cbn [next_prime].
  - exists p. destruct Hp as [Hp _]. replace (p + 2 * 0) with p in Hp by lia. apply is_prime_spec in Hp; [|lia]. rewrite Hp. split; [auto|lia].
  - destruct (is_prime p); [exists p; split; [auto|lia]|].
    destruct (IH (p + 2)) with (fuel := fuel) as (q & E & Hq); [destruct Ho as [a ->]; exists (S a); lia|lia| |lia|].
    + replace (p + 2 + 2 * k) with (p + 2 * S k) by lia. auto.
    + exists q. split; auto. lia.
Qed.
Lemma next_prime_fuel p : Nat.Odd p -> 3 <= p -> exists F q, forall fuel, F <= fuel -> next_prime fuel p = Ok (q, q + 2).
Proof.
  intros Ho H3. destruct (prime_above p) as (r & Hr & Pr). pose proof (prime_odd r Pr ltac:(lia)) as Or.
  destruct Ho as [a Ha], Or as [c Hc]. assert (E : r = p + 2 * (c - a)) by lia.
  destruct (next_prime_terminates (c - a) p ltac:(exists a; auto) H3) with (fuel := S (c - a)) as (q & Eq & _).
  { rewrite <- E. split; auto. exists c; auto. } { lia. }
  assert (Hmono : forall f p x, next_prime f p = Ok x -> forall f', f <= f' -> next_prime f' p = Ok x).
  { clear. induction f as [|f IH]; intros p x H f' Hf; cbn [next_prime] in H; [discriminate|]. destruct f'; [lia|]. cbn [next_prime]. destruct (is_prime p); auto. apply IH; auto. lia. }
  exists (S (c - a)), q. intros fuel Hf. eapply Hmono; eauto.
Qed.

(** the first primes, from p on *)
Definition first_odd_primes (from : nat) (ps : list nat) : Prop :=
  StronglySorted lt ps /\ Forall (fun p => OddPrime p /\ from <= p) ps /\
  (forall r, OddPrime r -> from <= r -> (exists p, In p ps /\ r <= p) -> In r ps).
Lemma take_primes_Ok : forall fuel dim p ps, Nat.Odd p -> 3 <= p -> take_primes fuel dim p = Ok ps -> length ps = dim /\ first_odd_primes p ps.
Proof.
  intros fuel. induction dim as [|dim IH]; intros p ps Ho H3 H; cbn [take_primes] in H.
  - injection H as <-. split; auto. split; [constructor|]. split; [constructor|]. intros r _ _ (q & [] & _).
  - apply bind_Ok in H. destruct H as ([q st] & E1 & H). apply bind_Ok in H. destruct H as (qs & E2 & H). injection H as <-.
    apply next_prime_Ok in E1; auto. destruct E1 as (-> & Hle & Hq & Hmin).
    apply IH in E2; [|destruct Hq as [_ [a ->]]; exists (S a); lia|lia]. destruct E2 as (Hl & Hs & Hf & Hall).
    split; [cbn; lia|]. split; [|split].
    + constructor; auto. eapply Forall_impl; [|exact Hf]. cbn. intros a [_ Ha]. lia.
    + constructor; auto. eapply Forall_impl; [|exact Hf]. cbn. intros a [Ha1 Ha]. split; auto. lia.
    + intros r Hr Hpr (s & Hs' & Hrs). pose proof (Hmin r Hr Hpr) as Hqr. destruct (Nat.eq_dec q r) as [->|Hne]; [left; auto|]. right.
      destruct Hs' as [<-|Hs']; [lia|]. apply Hall; auto; [|exists s; auto]. apply odd_step; [apply Hq|apply Hr|lia].
Qed.
Lemma take_primes_fuel : forall dim p, Nat.Odd p -> 3 <= p -> exists F ps, forall fuel, F <= fuel -> take_primes fuel dim p = Ok ps.
Proof.
  induction dim as [|dim IH]; intros p Ho H3.
  - exists 0, []. intros. reflexivity.
  - destruct (next_prime_fuel p Ho H3) as (F1 & q & E1). pose proof (E1 F1 (Nat.le_refl _)) as Eq. apply next_prime_Ok in Eq; auto. destruct Eq as (_ & Hle & Hq & _).
    destruct (IH (q + 2)) as (F2 & ps & E2); [destruct Hq as [_ [a ->]]; exists (S a); lia|lia|].
    exists (Nat.max F1 F2), (q :: ps). intros fuel Hf. cbn [take_primes]. rewrite E1 by lia. cbn [bind]. rewrite E2 by lia. reflexivity.
Qed.
Lemma odd3 : Nat.Odd 3. Proof. exists 1. reflexivity. Qed.

(** ** HaltonSampler *)
Definition halton_row (primes : list nat) (i : nat) : list R := map (fun p => mirrored (Z.of_nat p) i (Z.of_nat i)) primes.
Lemma zip_rows_map (f : nat -> nat -> R) ps l : ps <> [] -> zip_rows (map (fun p => map (f p) l) ps) = map (fun i => map (fun p => f p i) ps) l.
Proof.
  induction ps as [|p ps IH]; intros H; [congruence|]. cbn [map]. destruct ps as [|p' ps].
  - cbn [map zip_rows]. rewrite map_map. reflexivity.
  - assert (E : zip_rows (map (f p) l :: map (fun p => map (f p) l) (p' :: ps)) =
      map (fun q => fst q :: snd q) (combine (map (f p) l) (zip_rows (map (fun p => map (f p) l) (p' :: ps))))) by reflexivity.
    rewrite E, IH by discriminate. clear. induction l as [|i l IH]; [reflexivity|]. cbn [map combine] in *. rewrite IH. reflexivity.
Qed.
Lemma mapM_all_Ok {A B} (f : A -> res B) (g : A -> B) l : (forall x, In x l -> f x = Ok (g x)) -> mapM f l = Ok (map g l).
Proof.
  induction l as [|a l IH]; intros H; [reflexivity|]. cbn [mapM map]. rewrite H by (left; auto). cbn [bind]. rewrite IH by (intros; apply H; right; auto). reflexivity.
Qed.
Lemma halton_samples_val fuel n h : Forall (fun p => 2 <= p) (h_primes h) -> h_primes h <> [] -> h_cnt h + n <= S fuel ->
  halton_samples fuel n h = Ok (map (halton_row (h_primes h)) (seq (h_cnt h) n), mkH (h_primes h) (h_cnt h + n)).
Proof.
  intros Hp Hne Hf. unfold halton_samples.
  rewrite (mapM_all_Ok _ (fun p => map (fun i => mirrored (Z.of_nat p) i (Z.of_nat i)) (seq (h_cnt h) n))).
  - cbn [bind]. rewrite (zip_rows_map (fun p i => mirrored (Z.of_nat p) i (Z.of_nat i))) by auto. reflexivity.
  - intros p Hin. apply mapM_all_Ok. intros i Hi. rewrite Forall_forall in Hp. specialize (Hp p Hin). apply in_seq in Hi.
    rewrite (vdc_value (Z.of_nat p) ltac:(lia) i); auto; [|lia]. split; [lia|].
    pose proof (lt_pow (Z.of_nat p) ltac:(lia) (Z.of_nat i) ltac:(lia)) as L. rewrite Nat2Z.id in L. auto.
Qed.
(** several requests, one after the other *)
Fixpoint halton_many (fuel : nat) (ns : list nat) (h : halton) : res (list (list R) * halton) :=
  match ns with
  | [] => Ok ([], h)
  | n :: ns => '(rows, h1) <- halton_samples fuel n h ;; '(rest, h2) <- halton_many fuel ns h1 ;; Ok (rows ++ rest, h2)
  end.
Definition total (ns : list nat) : nat := fold_right Nat.add 0 ns.
Lemma halton_many_val fuel : forall ns h, Forall (fun p => 2 <= p) (h_primes h) -> h_primes h <> [] -> h_cnt h + total ns <= S fuel ->
  halton_many fuel ns h = Ok (map (halton_row (h_primes h)) (seq (h_cnt h) (total ns)), mkH (h_primes h) (h_cnt h + total ns)).
Proof.
  induction ns as [|n ns IH]; intros h Hp Hne Hf; cbn [halton_many total fold_right] in *.
  - rewrite Nat.add_0_r. destruct h; reflexivity.
  - fold (total ns) in *. rewrite halton_samples_val by (auto; lia). cbn [bind]. rewrite IH by (cbn [h_primes h_cnt]; auto; lia).
    cbn [bind h_primes h_cnt]. rewrite seq_app, map_app, Nat.add_assoc. reflexivity.
Qed.
Lemma halton_many_dim0 fuel : forall ns h, h_primes h = [] -> halton_many fuel ns h = Ok ([], mkH [] (h_cnt h + total ns)).
Proof.
  induction ns as [|n ns IH]; intros h Hp; cbn [halton_many total fold_right].
  - rewrite Nat.add_0_r, <- Hp. destruct h; reflexivity.
  - fold (total ns). unfold halton_samples. rewrite Hp. cbn [mapM bind zip_rows]. rewrite IH by reflexivity. cbn [bind h_cnt app]. rewrite Nat.add_assoc. reflexivity.
Qed.
Lemma halton_samples_dim0 fuel n h : h_primes h = [] -> halton_samples fuel n h = Ok ([], mkH [] (h_cnt h + n)).
Proof. intros Hp. unfold halton_samples. rewrite Hp. reflexivity. Qed.

Lemma halton_init_Ok fuel dim h : halton_init fuel dim = Ok h -> length (h_primes h) = dim /\ first_odd_primes 3 (h_primes h) /\ h_cnt h = 1.
Proof.
  unfold halton_init. intros H. apply bind_Ok in H. destruct H as (ps & E & H). injection H as <-. cbn [h_primes h_cnt].
  apply take_primes_Ok in E; [|apply odd3|lia]. tauto.
Qed.
Lemma fop_ge2 ps : first_odd_primes 3 ps -> Forall (fun p => 2 <= p) ps.
Proof. intros (_ & H & _). eapply Forall_impl; [|exact H]. cbn. intros a [_ ?]. lia. Qed.

Lemma halton_chunks fuel dim h ns : halton_init fuel dim = Ok h -> total ns <= fuel ->
  halton_many fuel ns h = halton_samples fuel (total ns) h.
Proof.
  intros Hi Hf. apply halton_init_Ok in Hi. destruct Hi as (Hl & Hp & Hc). destruct (h_primes h) eqn:E.
  - rewrite halton_many_dim0, halton_samples_dim0; auto.
  - apply fop_ge2 in Hp. rewrite halton_many_val, halton_samples_val; rewrite ?E, ?Hc; auto; try discriminate; lia.
Qed.
Lemma halton_rows fuel dim h n : halton_init fuel dim = Ok h -> 1 <= dim -> n <= fuel -> exists rows h',
  halton_samples fuel n h = Ok (rows, h') /\ length rows = n /\
  forall i row, nth_error rows i = Some row -> Forall2 (fun p x => exists f, vdc f (Z.of_nat (i + 1)) (Z.of_nat p) = Ok x) (h_primes h) row.
Proof.
  intros Hi Hd Hf. apply halton_init_Ok in Hi. destruct Hi as (Hl & Hp & Hc). apply fop_ge2 in Hp.
  assert (h_primes h <> []) by (intros E; rewrite E in Hl; cbn in Hl; lia).
  eexists _, _. rewrite halton_samples_val; rewrite ?Hc; auto; [|lia]. split; [reflexivity|]. split; [rewrite map_length, seq_length; auto|].
  intros i row Hrow. rewrite nth_error_map in Hrow. destruct (nth_error (seq 1 n) i) as [j|] eqn:E; [|discriminate]. injection Hrow as <-.
  assert (Hi : i < n) by (rewrite <- (seq_length n 1); apply nth_error_Some; congruence).
  apply (nth_error_nth _ _ 0) in E. rewrite seq_nth in E by auto. subst j. replace (1 + i) with (i + 1) by lia. unfold halton_row.
  clear - Hp. induction Hp as [|p ps Hp2 Hps IH]; cbn [map]; constructor.
  - exists (i + 1). apply vdc_value; [lia| |lia]. split; [lia|]. pose proof (lt_pow (Z.of_nat p) ltac:(lia) (Z.of_nat (i + 1)) ltac:(lia)) as L. rewrite Nat2Z.id in L. auto.
  - exact IH.
Qed.
Lemma halton_init_fuel dim : exists F h, forall fuel, F <= fuel -> halton_init fuel dim = Ok h.
Proof.
  destruct (take_primes_fuel dim 3 odd3 (Nat.le_refl 3)) as (F & ps & E). exists F, (mkH ps 1). intros fuel Hf. unfold halton_init. rewrite E by auto. reflexivity.
Qed.

(** ** sample_SO3 *)
Local Open Scope R_scope.
Lemma quat_unit r1 r2 r3 : 0 <= r1 <= 1 -> qnorm2 (quat_of r1 r2 r3) = 1.
Proof.
  intros H. unfold qnorm2, quat_of. cbn [qw qx qy qz].
  set (s := sin (2 * PI * r2)). set (c := cos (2 * PI * r2)). set (s' := sin (2 * PI * r3)). set (c' := cos (2 * PI * r3)).
  assert (E : s * s + c * c = 1) by (unfold s, c; rewrite Rplus_comm; apply sc1). assert (E' : s' * s' + c' * c' = 1) by (unfold s', c'; rewrite Rplus_comm; apply sc1).
  replace (sqrt (1 - r1) * s * (sqrt (1 - r1) * s) + sqrt (1 - r1) * c * (sqrt (1 - r1) * c) + sqrt r1 * s' * (sqrt r1 * s') + sqrt r1 * c' * (sqrt r1 * c'))
    with (sqrt (1 - r1) * sqrt (1 - r1) * (s * s + c * c) + sqrt r1 * sqrt r1 * (s' * s' + c' * c')) by ring.
  rewrite E, E', !sqrt_sqrt by lra. ring.
Qed.

Lemma unit_rotation q : qnorm2 q = 1 -> rotation (unit_rot q).
Proof.
  intros H. destruct q as [w x y z]. unfold qnorm2 in H. cbn [qw qx qy qz] in H.
  set (N := w * w + x * x + y * y + z * z) in H.
  split; unfold unit_rot, mtr, mmul, mid, mdet; cbn [qw qx qy qz m00 m01 m02 m10 m11 m12 m20 m21 m22].
  - f_equal; first [replace 1 with (N * N) by (rewrite H; ring); unfold N; ring | ring].
  - replace 1 with (N * N * N) by (rewrite H; ring); unfold N; ring.
Qed.
Lemma qnormalise_unit q : qnorm2 q <> 0 -> qnorm2 (qnormalise q) = 1.
Proof.
  intros H. assert (P : 0 <= qnorm2 q) by (unfold qnorm2; nra). unfold qnormalise. destruct (Req_EM_T (sqrt (qnorm2 q)) 0) as [E|E].
  - exfalso. apply sqrt_eq_0 in E; auto.
  - set (n := sqrt (qnorm2 q)) in *. assert (En : n * n = qnorm2 q) by (apply sqrt_sqrt; auto). unfold qnorm2 at 1. cbn [qw qx qy qz].
    replace (qw q / n * (qw q / n) + qx q / n * (qx q / n) + qy q / n * (qy q / n) + qz q / n * (qz q / n)) with (qnorm2 q / (n * n)) by (unfold qnorm2; field; auto).
    rewrite En. field. auto.
Qed.
Lemma qrot_rotation q : qnorm2 q <> 0 -> rotation (qrot q).
Proof. intros H. apply unit_rotation, qnormalise_unit, H. Qed.
Lemma qtransform_rigid q : qnorm2 q <> 0 -> rigid (qtransform q).
Proof. intros H. split; cbn; auto. apply qrot_rotation, H. Qed.

(** a row as produced by both methods *)
Definition unit_row (r : list R) : Prop := exists r1 r2 r3, r = [r1; r2; r3] /\ 0 <= r1 <= 1.
Lemma quats_of_rows rows : Forall unit_row rows -> exists qs,
  mapM (fun r => match r with [r1; r2; r3] => Ok (quat_of r1 r2 r3) | _ => Raise ValueError end) rows = Ok qs /\
  length qs = length rows /\ Forall (fun q => qnorm2 q = 1) qs.
Proof.
  induction 1 as [|r rows (r1 & r2 & r3 & -> & Hr) _ (qs & E & Hl & Hq)]; [exists []; auto|].
  exists (quat_of r1 r2 r3 :: qs). cbn [mapM bind]. rewrite E. split; [reflexivity|]. split; [cbn; auto|]. constructor; auto. apply quat_unit; auto.
Qed.
Definition so3_good (n : nat) (rep : string) (ypr : quat -> vec3) (v : so3) : Prop := exists qs,
  length qs = n /\ Forall (fun q => qnorm2 q = 1) qs /\
  match v with
  | SQuat l => rep = "quat"%string /\ l = qs
  | STf l => rep = "transform"%string /\ l = map qtransform qs /\ Forall rigid l
  | SRpy l => rep = "rpy"%string /\ l = map ypr qs
  | SNone => rep <> "quat"%string /\ rep <> "transform"%string /\ rep <> "rpy"%string
  end.
Lemma so3_finish ypr rows rep : Forall unit_row rows -> exists v,
  (qs <- mapM (fun r => match r with [r1; r2; r3] => Ok (quat_of r1 r2 r3) | _ => Raise ValueError end) rows ;;
   if String.eqb rep "quat" then Ok (SQuat qs)
   else if String.eqb rep "transform" then Ok (STf (map qtransform qs))
   else if String.eqb rep "rpy" then Ok (SRpy (map ypr qs))
   else Ok SNone) = Ok v /\ so3_good (length rows) rep ypr v.
Proof.
  intros H. destruct (quats_of_rows rows H) as (qs & E & Hl & Hq). rewrite E. cbn [bind].
  destruct (String.eqb_spec rep "quat") as [E1|E1]; [eexists; split; [reflexivity|exists qs; auto]|].
  destruct (String.eqb_spec rep "transform") as [E2|E2].
  - eexists; split; [reflexivity|exists qs]. split; [auto|]. split; [auto|]. split; [auto|]. split; [auto|].
    apply Forall_map. eapply Forall_impl; [|exact Hq]. cbn. intros q Hq1. apply qtransform_rigid. lra.
  - destruct (String.eqb_spec rep "rpy") as [E3|E3]; (eexists; split; [reflexivity|exists qs; auto 6]).
Qed.
Lemma so3_random ypr fuel rnd n rep : (n <= length rnd)%nat -> Forall unit_row rnd ->
  exists v, sample_SO3 ypr fuel rnd n rep "random" = Ok v /\ so3_good n rep ypr v.
Proof.
  intros L H. unfold sample_SO3. cbn [String.eqb Ascii.eqb Bool.eqb bind]. destruct (Nat.ltb_spec (length rnd) n); [lia|]. cbn [bind].
  pose proof (so3_finish ypr (firstn n rnd) rep) as F. rewrite firstn_length_le in F by auto. apply F. rewrite Forall_forall in *. intros r I. apply H. rewrite <- (firstn_skipn n rnd). apply in_or_app. auto.
Qed.
Lemma so3_halton ypr rnd n rep : exists F, forall fuel, (F <= fuel)%nat ->
  exists v, sample_SO3 ypr fuel rnd n rep "halton" = Ok v /\ so3_good n rep ypr v.
Proof.
  destruct (halton_init_fuel 3) as (F & h & E). exists (Nat.max F n). intros fuel Hf.
  unfold sample_SO3. cbn [String.eqb Ascii.eqb Bool.eqb bind].
  pose proof (E fuel ltac:(lia)) as Ei. rewrite Ei. cbn [bind].
  destruct (halton_rows fuel 3 h n Ei ltac:(lia) ltac:(lia)) as (rows & h' & Er & Hl & Hr). rewrite Er. cbn [bind].
  apply halton_init_Ok in Ei. destruct Ei as (L3 & Hp & _). apply fop_ge2 in Hp.
  rewrite <- Hl. apply so3_finish. apply Forall_forall. intros row Hin. apply In_nth_error in Hin. destruct Hin as (i & Hi). apply Hr in Hi.
  destruct (h_primes h) as [|p1 [|p2 [|p3 [|]]]]; try discriminate L3.
  inversion Hi as [|? r1 ? ? H1 T1]; subst. inversion T1 as [|? r2 ? ? H2 T2]; subst. inversion T2 as [|? r3 ? ? H3 T3]; subst. inversion T3; subst.
  exists r1, r2, r3. split; auto. destruct H1 as (f & H1). apply Forall_inv in Hp. pose proof (vdc_range (Z.of_nat p1) ltac:(lia) (Z.of_nat (i + 1)) f r1 ltac:(lia) H1). lra.
Qed.
Lemma so3_unknown ypr fuel rnd n rep method : method <> "random"%string -> method <> "halton"%string -> sample_SO3 ypr fuel rnd n rep method = Raise ValueError.
Proof. intros H1 H2. unfold sample_SO3. apply String.eqb_neq in H1, H2. rewrite H1, H2. reflexivity. Qed.
