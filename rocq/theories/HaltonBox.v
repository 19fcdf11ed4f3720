(** * Proofs about HaltonSampler: the points fill boxes evenly, in every dimension. *)
From Coq Require Import String Reals Lra Lia List Bool Arith ZArith Znumtheory Zpow_facts Sorted.
From Verif Require Import PyBase Mat Util UtilProofs HaltonProofs.
Import ListNotations.
Local Open Scope R_scope.

(** ** the cell of a van der Corput value depends on the index modulo b^k *)
Lemma cell_residue b : (2 <= b)%Z -> forall k i, (0 <= i < b ^ Z.of_nat k)%Z ->
  exists r, (0 <= r < b ^ Z.of_nat k)%Z /\ forall L n, (k <= L)%nat -> (0 <= n)%Z -> (in_cell b k i (mirrored b L n) <-> (n mod b ^ Z.of_nat k = r)%Z).
Proof.
  intros Hb. induction k as [|k IH]; intros i Hi.
  - exists 0%Z. cbn [Z.of_nat Z.pow] in *. split; [lia|]. intros L n _ _. rewrite Z.mod_1_r. split; auto. intros _. assert (i = 0)%Z by lia. subst i.
    pose proof (mirrored_lt1 b Hb L n). unfold in_cell. cbn [pow]. lra.
  - pose proof (pow_pos b Hb k) as P. assert (EP : (b ^ Z.of_nat (S k) = b * b ^ Z.of_nat k)%Z) by (rewrite Nat2Z.inj_succ, Z.pow_succ_r; lia).
    set (q := (i / b ^ Z.of_nat k)%Z). set (c := (i mod b ^ Z.of_nat k)%Z).
    assert (Hc : (0 <= c < b ^ Z.of_nat k)%Z) by (apply Z.mod_pos_bound; auto).
    assert (Hq : (0 <= q < b)%Z) by (split; [apply Z.div_pos; lia|apply Z.div_lt_upper_bound; [auto|rewrite EP in Hi; lia]]).
    destruct (IH c Hc) as (r & Hr & H). exists (q + b * r)%Z. split; [rewrite EP; nia|]. intros L n HL Hn. destruct L as [|L]; [lia|].
    rewrite mirrored_S by auto. rewrite (in_cell_S b Hb k i (n mod b) (mirrored b L (n / b)) (Z.mod_pos_bound n b ltac:(lia)) (proj1 Hi) (mirrored_lt1 b Hb L (n / b))). fold q c.
    rewrite (H L (n / b)%Z) by (try lia; apply Z.div_pos; lia). rewrite EP, Z.rem_mul_r by lia. split.
    + intros [-> ->]. reflexivity.
    + intros E. pose proof (Z.mod_pos_bound n b ltac:(lia)) as B1. pose proof (Z.mod_pos_bound (n / b) (b ^ Z.of_nat k) P) as B2.
      set (u := (n mod b)%Z) in *. set (v := ((n / b) mod b ^ Z.of_nat k)%Z) in *. clearbody u v. clear - E B1 Hq.
      assert (v = r); [|subst v; lia]. destruct (Z.lt_trichotomy v r) as [G|[G|G]]; auto; exfalso.
      * assert (b * (v + 1) <= b * r)%Z by (apply Z.mul_le_mono_nonneg_l; lia). lia.
      * assert (b * (r + 1) <= b * v)%Z by (apply Z.mul_le_mono_nonneg_l; lia). lia.
Qed.
Lemma vdc_residue b : (2 <= b)%Z -> forall k i, (0 <= i < b ^ Z.of_nat k)%Z ->
  exists r, (0 <= r < b ^ Z.of_nat k)%Z /\ forall n, (in_cell b k i (mirrored b n (Z.of_nat n)) <-> (Z.of_nat n mod b ^ Z.of_nat k = r)%Z).
Proof.
  intros Hb k i Hi. destruct (cell_residue b Hb k i Hi) as (r & Hr & H). exists r. split; auto. intros n.
  rewrite <- (H (Nat.max k n) (Z.of_nat n)) by lia. rewrite (mirrored_stable b Hb n (Nat.max k n)); [reflexivity| |].
  - split; [lia|]. pose proof (lt_pow b Hb (Z.of_nat n) ltac:(lia)) as L. rewrite Nat2Z.id in L. exact L.
  - split; [lia|]. pose proof (lt_pow b Hb (Z.of_nat n) ltac:(lia)) as L. rewrite Nat2Z.id in L. eapply Z.lt_le_trans; [exact L|]. apply Z.pow_le_mono_r; lia.
Qed.

(** ** Chinese remainders *)
Lemma mod_iff A a n : (0 <= a < A)%Z -> (n mod A = a)%Z <-> (A | n - a)%Z.
Proof.
  intros H. split.
  - intros E. exists (n / A)%Z. pose proof (Z.div_mod n A ltac:(lia)). lia.
  - intros [k E]. replace n with (a + k * A)%Z by lia. rewrite Z.mod_add by lia. apply Z.mod_small. auto.
Qed.
Lemma crt2 A B a b : rel_prime A B -> (0 <= a < A)%Z -> (0 <= b < B)%Z ->
  exists r, (0 <= r < A * B)%Z /\ forall n, (n mod A = a /\ n mod B = b <-> n mod (A * B) = r)%Z.
Proof.
  intros RP Ha Hb. destruct (rel_prime_bezout _ _ RP) as [u v E].
  set (x := (a * (v * B) + b * (u * A))%Z). assert (PAB : (0 < A * B)%Z) by nia.
  exists (x mod (A * B))%Z. split; [apply Z.mod_pos_bound; auto|]. intros n.
  pose proof (Z.mod_pos_bound x (A * B) PAB) as Br. rewrite (mod_iff A a n), (mod_iff B b n), (mod_iff (A * B) _ n) by auto.
  assert (X : exists k, (x mod (A * B) = x + k * (A * B))%Z) by (exists (- (x / (A * B)))%Z; pose proof (Z.div_mod x (A * B) ltac:(lia)); lia).
  destruct X as [k ->].
  assert (XA : (x - a = A * (b * u - a * u))%Z) by (unfold x; replace (a * (v * B))%Z with (a * (1 - u * A))%Z by (rewrite <- E; ring); ring).
  assert (XB : (x - b = B * (a * v - b * v))%Z) by (unfold x; replace (b * (u * A))%Z with (b * (1 - v * B))%Z by (rewrite <- E; ring); ring).
  split.
  - intros [[c1 D1] [c2 D2]].
    assert (DA : (n - x = A * (c1 - (b * u - a * u)))%Z) by lia. assert (DB : (B | n - x)%Z) by (exists (c2 - (a * v - b * v))%Z; lia).
    rewrite DA in DB. apply Gauss in DB; [|apply rel_prime_sym; auto]. destruct DB as [d Ed]. exists (d - k)%Z. rewrite Ed in DA. lia.
  - intros [d Ed]. split; [exists (d * B + k * B + (b * u - a * u))%Z|exists (d * A + k * A + (a * v - b * v))%Z]; lia.
Qed.
(** n leaves the remainder of each entry *)
Definition leaves (n : Z) (Mr : Z * Z) : Prop := (n mod fst Mr = snd Mr)%Z.
Definition product (l : list Z) : Z := fold_right Z.mul 1%Z l.
Lemma rel_prime_product A l : Forall (rel_prime A) l -> rel_prime A (product l).
Proof. induction 1 as [|B l H _ IH]; cbn [product fold_right]; [apply rel_prime_sym, rel_prime_1|apply rel_prime_mult; auto]. Qed.
Lemma crt (l : list (Z * Z)) : ForallOrdPairs rel_prime (map fst l) -> Forall (fun Mr => 0 <= snd Mr < fst Mr)%Z l ->
  exists r, (0 <= r < product (map fst l))%Z /\ forall n, (Forall (leaves n) l <-> (n mod product (map fst l) = r)%Z).
Proof.
  induction l as [|[M a] l IH]; cbn [map fst product fold_right]; intros C B.
  - exists 0%Z. split; [lia|]. intros n. rewrite Z.mod_1_r. split; auto.
  - inversion C as [|? ? C1 C2]; subst. inversion B as [|? ? B1 B2]; subst. cbn [fst snd] in B1. destruct (IH C2 B2) as (s & Hs & H).
    destruct (crt2 M (product (map fst l)) a s) as (r & Hr & E); auto; [apply rel_prime_product; auto|]. exists r. split; auto. intros n. fold (product (map fst l)). rewrite <- E, <- H. split.
    + intros F. inversion F; subst. auto.
    + intros [F1 F2]. constructor; auto.
Qed.
Lemma one_in_block P r s : (0 <= r < P)%Z -> exists! n, (s <= n < s + P)%Z /\ (n mod P = r)%Z.
Proof.
  intros H. pose proof (Z.mod_pos_bound (r - s) P ltac:(lia)) as B. pose proof (Z.div_mod (r - s) P ltac:(lia)) as D.
  exists (s + (r - s) mod P)%Z. split.
  - split; [lia|]. replace (s + (r - s) mod P)%Z with (r + - ((r - s) / P) * P)%Z by lia. rewrite Z.mod_add by lia. apply Z.mod_small. auto.
  - intros n [Hn E]. pose proof (Z.div_mod n P ltac:(lia)) as Dn. rewrite E in Dn.
    replace (r - s)%Z with (n - s + - (n / P) * P)%Z by lia. rewrite Z.mod_add by lia. rewrite (Z.mod_small (n - s) P) by lia. lia.
Qed.

(** ** boxes *)
(** the box of cell i of p^k equal cells in every direction *)
Definition cell : Type := nat * Z.
Definition cell_ok (p : nat) (c : cell) : Prop := (0 <= snd c < Z.of_nat p ^ Z.of_nat (fst c))%Z.
Definition in_row_box (primes : list nat) (cells : list cell) (row : list R) : Prop :=
  Forall2 (fun pc x => IZR (snd (snd pc)) / INR (fst pc) ^ fst (snd pc) <= x < (IZR (snd (snd pc)) + 1) / INR (fst pc) ^ fst (snd pc)) (combine primes cells) row.
(** the number of boxes of that size *)
Fixpoint boxes (primes : list nat) (cells : list cell) : nat :=
  match primes, cells with p :: ps, c :: cs => p ^ fst c * boxes ps cs | _, _ => 1 end.

Definition moduli (primes : list nat) (cells : list cell) : list Z := map (fun pc => (Z.of_nat (fst pc) ^ Z.of_nat (fst (snd pc)))%Z) (combine primes cells).
Lemma boxes_product : forall primes cells, Z.of_nat (boxes primes cells) = product (moduli primes cells).
Proof. induction primes as [|p ps IH]; intros [|c cs]; try reflexivity. cbn [boxes]. unfold moduli in *. cbn [combine map product fold_right fst snd]. rewrite Nat2Z.inj_mul, Nat2Z.inj_pow, IH. reflexivity. Qed.
Lemma row_residues : forall primes cells, Forall (fun p => 2 <= p)%nat primes -> Forall2 cell_ok primes cells ->
  exists l, map fst l = moduli primes cells /\ Forall (fun Mr => 0 <= snd Mr < fst Mr)%Z l /\
    forall n, in_row_box primes cells (halton_row primes n) <-> Forall (leaves (Z.of_nat n)) l.
Proof.
  intros primes cells H2 H. induction H as [|p [k i] ps cs Hc _ IH].
  - exists []. split; auto. split; auto. intros n. cbn. split; intros; constructor.
  - inversion H2 as [|? ? P2 H2']; subst. destruct (IH H2') as (l & E & B & F). unfold cell_ok in Hc. cbn [fst snd] in Hc.
    destruct (vdc_residue (Z.of_nat p) ltac:(lia) k i Hc) as (r & Hr & V). exists ((Z.of_nat p ^ Z.of_nat k, r)%Z :: l). split; [|split].
    + unfold moduli in *. cbn [combine map fst snd]. rewrite E. reflexivity.
    + constructor; auto.
    + intros n. specialize (V n). specialize (F n). unfold in_row_box, halton_row in *. cbn [combine map]. split.
      * intros A. inversion A as [|? ? ? ? A1 A2]; subst. constructor; [|apply F; auto]. unfold leaves. cbn [fst snd] in *. apply V. unfold in_cell. rewrite <- INR_IZR_INZ. exact A1.
      * intros A. inversion A as [|? ? A1 A2]; subst. constructor; [|apply F; auto]. unfold leaves in A1. cbn [fst snd] in *. apply V in A1. unfold in_cell in A1. rewrite <- INR_IZR_INZ in A1. exact A1.
Qed.
Lemma coprime_moduli : forall primes cells, StronglySorted lt primes -> Forall Prime primes -> ForallOrdPairs rel_prime (moduli primes cells).
Proof.
  induction primes as [|p ps IH]; intros [|c cs] S P; try constructor.
  - inversion S as [|? ? S1 S2]; subst. inversion P as [|? ? P1 P2]; subst. fold (moduli ps cs). unfold moduli. clear IH S S1 P.
    revert cs. induction S2 as [|q qs L _ IH]; intros [|d cs]; cbn [combine map]; try constructor.
    + cbn [fst snd]. apply rel_prime_Zpower; [lia|lia|]. inversion P2 as [|? ? Q1 Q2]; subst. apply rel_prime_le_prime; auto. destruct P1 as [P1 _]. lia.
    + inversion P2; subst. apply IH; auto.
  - inversion S; subst. inversion P; subst. apply IH; auto.
Qed.
Lemma halton_block primes cells s : first_odd_primes 3 primes -> Forall2 cell_ok primes cells ->
  exists! n, (s <= n < s + boxes primes cells)%nat /\ in_row_box primes cells (halton_row primes n).
Proof.
  intros (S & F & _) C. assert (F1 : Forall Prime primes) by (eapply Forall_impl; [|exact F]; intros p [[X _] _]; exact X).
  assert (F2 : Forall (fun p => 2 <= p)%nat primes) by (eapply Forall_impl; [|exact F]; cbn; intros p [_ X]; lia).
  destruct (row_residues primes cells F2 C) as (l & E & B & H). pose proof (coprime_moduli primes cells S F1) as Q. rewrite <- E in Q.
  destruct (crt l Q B) as (r & Hr & K). rewrite E, <- boxes_product in *. destruct (one_in_block _ r (Z.of_nat s) Hr) as (n & [N1 N2] & U).
  exists (Z.to_nat n). split.
  - split; [lia|]. apply H, K. rewrite Z2Nat.id by lia. exact N2.
  - intros m [M1 M2]. apply H, K in M2. rewrite (U (Z.of_nat m)) by (split; [lia|exact M2]). apply Nat2Z.id.
Qed.
Lemma halton_even fuel dim h0 m rows0 h n rows h' cells s : halton_init fuel dim = Ok h0 -> (1 <= dim)%nat -> (m + n <= fuel)%nat ->
  halton_samples fuel m h0 = Ok (rows0, h) -> halton_samples fuel n h = Ok (rows, h') -> Forall2 cell_ok (h_primes h0) cells -> (s + boxes (h_primes h0) cells <= n)%nat ->
  exists! i, (s <= i < s + boxes (h_primes h0) cells)%nat /\ exists row, nth_error rows i = Some row /\ in_row_box (h_primes h0) cells row.
Proof.
  intros Hi Hd Hf E0 E1 C L. apply halton_init_Ok in Hi. destruct Hi as (Hl & Hp & Hc). pose proof (fop_ge2 _ Hp) as P2.
  assert (NE : h_primes h0 <> []) by (intros E; rewrite E in Hl; cbn in Hl; lia).
  rewrite halton_samples_val in E0 by (auto; lia). injection E0 as _ <-. rewrite halton_samples_val in E1 by (cbn [h_primes h_cnt]; auto; lia). cbn [h_primes h_cnt] in E1. injection E1 as <- _.
  assert (N : forall i, (i < n)%nat -> nth_error (map (halton_row (h_primes h0)) (seq (h_cnt h0 + m) n)) i = Some (halton_row (h_primes h0) (h_cnt h0 + m + i))).
  { intros i Hin. rewrite nth_error_map. rewrite (nth_error_nth' _ 0%nat) by (rewrite seq_length; auto). rewrite seq_nth by auto. reflexivity. }
  destruct (halton_block (h_primes h0) cells (h_cnt h0 + m + s) Hp C) as (j & [J1 J2] & U).
  exists (j - (h_cnt h0 + m))%nat. split.
  - split; [lia|]. eexists. rewrite N by lia. split; [reflexivity|]. replace (h_cnt h0 + m + (j - (h_cnt h0 + m)))%nat with j by lia. exact J2.
  - intros i (I1 & row & I2 & I3). rewrite N in I2 by lia. injection I2 as <-. rewrite (U (h_cnt h0 + m + i)%nat); [lia|]. split; [lia|auto].
Qed.
