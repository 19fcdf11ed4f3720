(** * Float costs stay within rounding of the exact joint motion. *)
From Coq Require Import String ZArith Reals Lra Lia List Arith.
From Flocq Require Import Core Plus_error Relative.
From Verif Require Import PyBase Cost SpecPath CostFloat GraphCommon CppGraph CppGraphProofs CppSearch CppHeap CppMain CppExamples Planning PlanningProofs FloatCost.
Import ListNotations.
Local Open Scope R_scope.

Lemma u32_pos : 0 < u32. Proof. apply bpow_gt_0. Qed.
Lemma eta32_pos : 0 < eta32. Proof. apply bpow_gt_0. Qed.
Lemma u32_le : u32 <= / 16777216.
Proof. unfold u32. change (bpow radix2 (-24)) with (/ IZR 16777216). lra. Qed.
Lemma half_bpow e : / 2 * bpow radix2 e = bpow radix2 (e - 1).
Proof. unfold Zminus. rewrite bpow_plus. change (bpow radix2 (-(1))) with (/ 2). ring. Qed.

Lemma plus_rel emin prec x y : Prec_gt_0 prec -> (24 <= prec)%Z ->
  generic_format radix2 (FLT_exp emin prec) x -> generic_format radix2 (FLT_exp emin prec) y ->
  exists e, Rabs e <= u32 /\ rnd emin prec (x + y) = (x + y) * (1 + e).
Proof.
  intros Hp Hle Hx Hy. destruct (FLT_plus_error_N_ex radix2 emin prec (fun z => negb (Z.even z)) x y Hx Hy) as (e & B & E).
  exists e. split; [|exact E]. eapply Rle_trans; [exact B|]. unfold u_ro. rewrite half_bpow.
  set (v := bpow radix2 (- prec + 1 - 1)). assert (0 < v) by apply bpow_gt_0.
  apply Rle_trans with v; [|apply bpow_le; lia].
  apply Rmult_le_reg_r with (1 + v); [lra|]. unfold Rdiv. rewrite Rmult_assoc, Rinv_l, Rmult_1_r by lra.
  assert (0 < v * v) by (apply Rmult_lt_0_compat; auto). lra.
Qed.
Lemma mult_rel x : x = 0 \/ bpow radix2 (-1022) <= Rabs x -> exists e, Rabs e <= u32 /\ b64 x = x * (1 + e).
Proof.
  intros [->|H].
  - exists 0. split; [rewrite Rabs_R0; left; apply u32_pos|]. unfold b64, rnd. rewrite round_0; [ring|typeclasses eauto].
  - destruct (relative_error_N_FLT_ex radix2 (-1074) 53 ltac:(lia) (fun z => negb (Z.even z)) x H) as (e & B & E).
    exists e. split; [|exact E]. eapply Rle_trans; [exact B|]. rewrite half_bpow. apply bpow_le. lia.
Qed.
Lemma b32_err x : exists e h, Rabs e <= u32 /\ Rabs h <= eta32 /\ b32 x = x * (1 + e) + h.
Proof.
  destruct (error_N_FLT radix2 (-149) 24 ltac:(lia) (fun z => negb (Z.even z)) x) as (e & h & E1 & E2 & _ & E).
  exists e, h. rewrite half_bpow in E1, E2. split; [exact E1|]. split; [exact E2|exact E].
Qed.
Lemma p24 : Prec_gt_0 24. Proof. reflexivity. Qed.
Lemma p53 : Prec_gt_0 53. Proof. reflexivity. Qed.
Lemma is32_b32 x : is32 (b32 x).
Proof. assert (V : Valid_exp (FLT_exp (-149) 24)) by (apply FLT_exp_valid; exact p24). apply generic_format_round; auto. apply valid_rnd_N. Qed.
Lemma is32_0 : is32 0. Proof. apply generic_format_0. Qed.
Lemma is32_opp x : is32 x -> is32 (- x). Proof. apply generic_format_opp. Qed.
Lemma is32_id x : is32 x -> b32 x = x.
Proof. intros H. apply round_generic; auto. apply valid_rnd_N. Qed.
(** a float is a double *)
Lemma is32_64 x : is32 x -> generic_format radix2 (FLT_exp (-1074) 53) x.
Proof.
  intros H. apply generic_inclusion_mag with (FLT_exp (-149) 24); [|exact H]. intros _. unfold FLT_exp. lia.
Qed.
Lemma is64_b64 x : generic_format radix2 (FLT_exp (-1074) 53) (b64 x).
Proof. assert (V : Valid_exp (FLT_exp (-1074) 53)) by (apply FLT_exp_valid; exact p53). apply generic_format_round; auto. apply valid_rnd_N. Qed.
(** a float is zero or at least 2^-149 *)
Lemma is32_min x : is32 x -> x = 0 \/ bpow radix2 (-149) <= Rabs x.
Proof.
  intros H. destruct (Req_dec x 0) as [->|N]; [auto|right]. apply FLT_format_generic in H; [|exact p24].
  destruct H as [[m e] -> _ He]. cbn [Fnum Fexp] in *. unfold F2R in *. cbn [Fnum Fexp] in *.
  rewrite Rabs_mult, (Rabs_pos_eq (bpow radix2 e)) by apply bpow_ge_0.
  assert (Hm : m <> 0%Z). { intros ->. apply N. ring. }
  rewrite <- (Rmult_1_l (bpow radix2 (-149))). apply Rmult_le_compat; [lra|apply bpow_ge_0| |apply bpow_le; exact He].
  rewrite <- abs_IZR. apply (IZR_le 1). lia.
Qed.

(** ** one term *)
Lemma between k x v e : 0 <= v -> Rabs e <= u32 -> (1 - u32) ^ k * v <= x <= (1 + u32) ^ k * v ->
  (1 - u32) ^ S k * v <= x * (1 + e) <= (1 + u32) ^ S k * v.
Proof.
  intros Hv He [L U]. apply Rabs_le_inv in He. pose proof u32_pos. pose proof u32_le.
  assert (0 <= (1 - u32) ^ k * v) by (apply Rmult_le_pos; auto; apply pow_le; lra). cbn [pow]. split.
  - replace ((1 - u32) * (1 - u32) ^ k * v) with (((1 - u32) ^ k * v) * (1 - u32)) by ring. apply Rmult_le_compat; lra.
  - replace ((1 + u32) * (1 + u32) ^ k * v) with (((1 + u32) ^ k * v) * (1 + u32)) by ring. apply Rmult_le_compat; lra.
Qed.
Lemma term_near w a b : 0 <= w -> is32 w -> is32 a -> is32 b ->
  let d := b32 (a - b) in let v := w * ((a - b) * (a - b)) in
  (1 - u32) ^ 4 * v <= b64 (w * b64 (d * d)) <= (1 + u32) ^ 4 * v.
Proof.
  intros Hw0 Hw Ha Hb d v. pose proof u32_pos. pose proof u32_le.
  destruct (plus_rel (-149) 24 a (- b) p24 ltac:(lia) Ha (is32_opp _ Hb)) as (e1 & B1 & E1).
  fold (b32 (a + - b)) in E1. change (a + - b) with (a - b) in E1. fold d in E1.
  assert (Hd : is32 d) by apply is32_b32.
  assert (D : d * d = 0 \/ bpow radix2 (-298) <= d * d).
  { destruct (is32_min d Hd) as [->|M]; [left; ring|right]. change (-298)%Z with (-149 + -149)%Z. rewrite bpow_plus.
    replace (d * d) with (Rabs d * Rabs d) by (rewrite <- Rabs_mult; apply Rabs_pos_eq; apply Rle_0_sqr).
    apply Rmult_le_compat; auto; apply bpow_ge_0. }
  pose proof (Rle_0_sqr d) as Dp. unfold Rsqr in Dp.
  destruct (mult_rel (d * d)) as (e2 & B2 & E2).
  { destruct D as [D|D]; [left; exact D|right]. rewrite Rabs_pos_eq by exact Dp. eapply Rle_trans; [|exact D]. apply bpow_le. lia. }
  assert (S0 : d * d * (1 / 2) <= b64 (d * d)). { rewrite E2. apply Rabs_le_inv in B2. apply Rmult_le_compat_l; lra. }
  destruct (mult_rel (w * b64 (d * d))) as (e3 & B3 & E3).
  { destruct (is32_min w Hw) as [->|Mw]; [left; ring|]. destruct D as [D|D]; [left; rewrite E2, D; ring|right].
    rewrite Rabs_pos_eq in Mw by exact Hw0. rewrite Rabs_pos_eq by (apply Rmult_le_pos; [exact Hw0|lra]).
    apply Rle_trans with (bpow radix2 (-149) * bpow radix2 (-299)); [rewrite <- bpow_plus; apply bpow_le; lia|].
    apply Rmult_le_compat; auto; try apply bpow_ge_0. eapply Rle_trans; [|exact S0]. eapply Rle_trans; [|apply Rmult_le_compat_r; [lra|exact D]].
    change (-299)%Z with (-298 - 1)%Z. rewrite <- half_bpow. lra. }
  assert (Hs : 0 <= (a - b) * (a - b)) by apply Rle_0_sqr. assert (Hv : 0 <= v) by (apply Rmult_le_pos; auto).
  assert (N0 : (1 - u32) ^ 0 * v <= v <= (1 + u32) ^ 0 * v) by (cbn [pow]; lra).
  apply (between 0 v v e1 Hv B1) in N0. apply (between 1 _ v e1 Hv B1) in N0. apply (between 2 _ v e2 Hv B2) in N0. apply (between 3 _ v e3 Hv B3) in N0.
  rewrite E3, E2, E1. replace (w * ((a - b) * (1 + e1) * ((a - b) * (1 + e1)) * (1 + e2)) * (1 + e3)) with (v * (1 + e1) * (1 + e1) * (1 + e2) * (1 + e3)) by (unfold v; ring). exact N0.
Qed.

(** ** accumulation *)
Lemma pow_up k j : (k <= j)%nat -> (1 + u32) ^ k <= (1 + u32) ^ j.
Proof. intros H. apply Rle_pow; auto. pose proof u32_pos. lra. Qed.
Lemma pow_dn k j : (k <= j)%nat -> (1 - u32) ^ j <= (1 - u32) ^ k.
Proof.
  pose proof u32_pos. pose proof u32_le. induction 1 as [|j _ IH]; [lra|]. cbn [pow]. eapply Rle_trans; [|exact IH].
  rewrite <- (Rmult_1_l ((1 - u32) ^ j)) at 2. apply Rmult_le_compat_r; [apply pow_le; lra|lra].
Qed.
Lemma meta_pos m : 0 <= INR m * eta32. Proof. apply Rmult_le_pos; [apply pos_INR|left; apply eta32_pos]. Qed.
Lemma within_mono k j m m' v x : 0 <= v -> (k <= j)%nat -> (m <= m')%nat -> within k m v x -> within j m' v x.
Proof.
  intros Hv Hk Hm [L U]. assert (M : INR m * eta32 <= INR m' * eta32). { apply Rmult_le_compat_r; [left; apply eta32_pos|apply le_INR; exact Hm]. }
  pose proof (Rmult_le_compat_r v _ _ Hv (pow_dn k j Hk)). pose proof (meta_pos m). split; [lra|].
  eapply Rle_trans; [exact U|]. pose proof u32_pos. apply Rmult_le_compat; try lra; [apply pow_le; lra|apply pow_up; exact Hk].
Qed.
Definition onear (k m : nat) (v : R) (c : option R) : Prop :=
  match c with
  | Some x => 0 <= x /\ is32 x /\ x < max32 /\ within k m v x
  | None => max32 <= (1 + u32) ^ k * (v + INR m * eta32)
  end.
Lemma hi_mono k j m m' v v' : 0 <= v <= v' -> (k <= j)%nat -> (m <= m')%nat ->
  (1 + u32) ^ k * (v + INR m * eta32) <= (1 + u32) ^ j * (v' + INR m' * eta32).
Proof.
  intros Hv Hk Hm. assert (M : INR m * eta32 <= INR m' * eta32). { apply Rmult_le_compat_r; [left; apply eta32_pos|apply le_INR; exact Hm]. }
  pose proof (meta_pos m). pose proof u32_pos. apply Rmult_le_compat; try lra; [apply pow_le; lra|apply pow_up; exact Hk].
Qed.
Lemma onear_mono k j m m' v c : 0 <= v -> (k <= j)%nat -> (m <= m')%nat -> onear k m v c -> onear j m' v c.
Proof.
  intros Hv Hk Hm. destruct c as [x|]; cbn.
  - intros (A & B & C & D). repeat (split; auto). all: eapply within_mono; eauto.
  - intros H. eapply Rle_trans; [exact H|]. apply hi_mono; auto. lra.
Qed.
Lemma within_add k m m' v v' x x' : within k m v x -> within k m' v' x' -> within k (m + m') (v + v') (x + x').
Proof. intros [L U] [L' U']. unfold within. rewrite plus_INR. split; lra. Qed.
Lemma within_rel k m v x e : 0 <= v -> 0 <= x -> Rabs e <= u32 -> within k m v x -> within (S k) m v (x * (1 + e)).
Proof.
  intros Hv Hx He [L U]. apply Rabs_le_inv in He. pose proof u32_pos. pose proof u32_le. pose proof (meta_pos m). unfold within. cbn [pow]. split.
  - apply Rle_trans with (x * (1 - u32)); [|apply Rmult_le_compat_l; lra].
    apply Rle_trans with (((1 - u32) ^ k * v - INR m * eta32) * (1 - u32)); [|apply Rmult_le_compat_r; lra].
    assert (0 <= INR m * eta32 * u32) by (apply Rmult_le_pos; lra). lra.
  - apply Rle_trans with (x * (1 + u32)); [apply Rmult_le_compat_l; lra|].
    apply Rle_trans with ((1 + u32) ^ k * (v + INR m * eta32) * (1 + u32)); [apply Rmult_le_compat_r; lra|]. lra.
Qed.
Lemma within_abs k m v x h : 0 <= v -> Rabs h <= eta32 -> within k m v x -> within k (S m) v (x + h).
Proof.
  intros Hv Hh [L U]. apply Rabs_le_inv in Hh. pose proof eta32_pos. unfold within. rewrite S_INR. split; [lra|].
  assert (P : 1 <= (1 + u32) ^ k). { apply pow_R1_Rle. pose proof u32_pos. lra. }
  pose proof (Rmult_le_compat_r eta32 _ _ ltac:(lra) P). lra.
Qed.
Lemma fin32_near k m v x : 0 <= v -> 0 <= x -> is32 x -> within k m v x -> onear k m v (fin32 x).
Proof.
  intros Hv H0 H1 H2. unfold fin32. destruct (rltb x max32) eqn:E; cbn [onear].
  - apply rltb_true in E. auto.
  - apply rltb_false in E. destruct H2 as [_ U]. lra.
Qed.
Lemma rel_pos x e : 0 <= x -> Rabs e <= u32 -> 0 <= x * (1 + e).
Proof. intros Hx He. apply Rabs_le_inv in He. pose proof u32_le. apply Rmult_le_pos; lra. Qed.
Lemma b32_pos x : 0 <= x -> 0 <= b32 x.
Proof. intros H. assert (V : Valid_exp (FLT_exp (-149) 24)) by (apply FLT_exp_valid; exact p24). rewrite <- (is32_id 0 is32_0). apply rnd_mono; auto; exact p24. Qed.

Definition small (x : R) : Prop := is32 x /\ Rabs x <= bpow radix2 126.
Lemma small_diff a b : small a -> small b -> rltb (Rabs (b32 (a - b))) max32 = true.
Proof.
  intros [Ha Ba] [Hb Bb]. apply rltb_true.
  destruct (plus_rel (-149) 24 a (- b) p24 ltac:(lia) Ha (is32_opp _ Hb)) as (e1 & B1 & E1). unfold b32, Rminus. rewrite E1, Rabs_mult.
  pose proof (Rabs_triang a (- b)) as T. rewrite Rabs_Ropp in T. pose proof u32_le.
  assert (X : Rabs (1 + e1) <= 3 / 2). { eapply Rle_trans; [apply Rabs_triang|]. rewrite Rabs_R1. lra. }
  assert (P : 0 < bpow radix2 126) by apply bpow_gt_0.
  apply Rle_lt_trans with ((bpow radix2 126 + bpow radix2 126) * (3 / 2)).
  - apply Rmult_le_compat; try apply Rabs_pos; lra.
  - unfold max32. change 128%Z with (2 + 126)%Z. rewrite bpow_plus. change (bpow radix2 2) with 4. lra.
Qed.

Lemma fsq_near k m v acc w a b : (4 <= k)%nat -> 0 <= v -> 0 <= w -> is32 w -> small a -> small b ->
  onear k m v acc -> onear (k + 2) (m + 1) (v + w * ((a - b) * (a - b))) (fsq32 acc w a b).
Proof.
  intros Hk Hv Hw Fw Sa Sb H. set (z := w * ((a - b) * (a - b))).
  assert (Hz : 0 <= z). { apply Rmult_le_pos; auto. apply Rle_0_sqr. }
  destruct acc as [c|]; cbn [onear] in H.
  2: { cbn [fsq32 onear]. eapply Rle_trans; [exact H|]. apply hi_mono; [lra|lia|lia]. }
  destruct H as (H0 & H1 & H2 & H3). unfold fsq32. rewrite (small_diff a b Sa Sb).
  destruct Sa as [Fa _], Sb as [Fb _]. pose proof (term_near w a b Hw Fw Fa Fb) as T. cbv zeta in T. fold z in T.
  set (t := b64 (w * b64 (b32 (a - b) * b32 (a - b)))) in *. cbv zeta.
  assert (Ft : generic_format radix2 (FLT_exp (-1074) 53) t) by apply is64_b64.
  assert (Ht : 0 <= t). { eapply Rle_trans; [|apply T]. apply Rmult_le_pos; auto. apply pow_le. pose proof u32_le. lra. }
  assert (Wt : within k 0 z t). { apply within_mono with 4%nat 0%nat; auto. unfold within. cbn [INR]. rewrite !Rmult_0_l, Rminus_0_r, Rplus_0_r. exact T. }
  destruct (plus_rel (-1074) 53 c t p53 ltac:(lia) (is32_64 c H1) Ft) as (e & Be & Ee). fold (b64 (c + t)) in Ee.
  assert (W1 : within (S k) (m + 0) (v + z) (b64 (c + t))). { rewrite Ee. apply within_rel; auto; try lra. apply within_add; auto. }
  assert (P1 : 0 <= b64 (c + t)). { rewrite Ee. apply rel_pos; auto. lra. }
  destruct (b32_err (b64 (c + t))) as (e' & h & Be' & Bh & Eb).
  replace (k + 2)%nat with (S (S k)) by lia. replace (m + 1)%nat with (S (m + 0)) by lia.
  apply fin32_near; [lra|apply b32_pos; exact P1|apply is32_b32|]. rewrite Eb. apply within_abs; auto; [lra|]. apply within_rel; auto. lra.
Qed.
Lemma fladd_near k m m' v v' c c' : 0 <= v -> 0 <= v' -> onear k m v c -> onear k m' v' c' ->
  onear (S k) (m + m') (v + v') (cadd (c : Float32Cost) (c' : Float32Cost)).
Proof.
  intros Hv Hv' H H'. destruct c as [x|], c' as [x'|]; cbn [cadd Float32Cost RoundedCost fladd].
  - destruct H as (H0 & H1 & _ & H3), H' as (G0 & G1 & _ & G3). fold (b32 (x + x')). fold max32. change (onear (S k) (m + m') (v + v') (fin32 (b32 (x + x')))).
    destruct (plus_rel (-149) 24 x x' p24 ltac:(lia) H1 G1) as (e & Be & Ee). fold (b32 (x + x')) in Ee.
    apply fin32_near; [lra|rewrite Ee; apply rel_pos; auto; lra|apply is32_b32|]. rewrite Ee. apply within_rel; auto; try lra. apply within_add; auto.
  - cbn [onear] in H' |- *. eapply Rle_trans; [exact H'|]. apply hi_mono; [lra|lia|lia].
  - cbn [onear] in H |- *. eapply Rle_trans; [exact H|]. apply hi_mono; [lra|lia|lia].
  - cbn [onear] in H |- *. eapply Rle_trans; [exact H|]. apply hi_mono; [lra|lia|lia].
Qed.
Lemma sqdist_pos w : Forall (fun x => 0 <= x) w -> forall a b, 0 <= sqdist w a b.
Proof.
  induction 1 as [|x w Hx _ IH]; intros [|y a] [|z b]; cbn [sqdist]; try lra. specialize (IH a b).
  assert (0 <= x * ((y - z) * (y - z))) by (apply Rmult_le_pos; auto; apply Rle_0_sqr). lra.
Qed.
Definition weights_ok (w : list R) : Prop := Forall (fun x => 0 <= x /\ is32 x) w.
Lemma weights_pos w : weights_ok w -> Forall (fun x => 0 <= x) w.
Proof. apply Forall_impl. tauto. Qed.
Lemma wsq_near w : weights_ok w -> forall a b k m v acc, Forall small a -> Forall small b -> (4 <= k)%nat -> 0 <= v -> onear k m v acc ->
  onear (k + 2 * length w) (m + length w) (v + sqdist w a b) (wsq (K := Float32Cost) fsq32 acc w a b).
Proof.
  induction 1 as [|wi w [H0 H1] Hw IH]; intros a b k m v acc Ha Hb Hk Hv H.
  - cbn [wsq sqdist length]. rewrite Rplus_0_r. eapply onear_mono; [| | |exact H]; auto; lia.
  - destruct a as [|x a], b as [|y b]; cbn [wsq sqdist]; try (rewrite Rplus_0_r; eapply onear_mono; [| | |exact H]; auto; lia).
    inversion Ha; inversion Hb; subst. pose proof (fsq_near k m v acc wi y x Hk Hv H0 H1 ltac:(auto) ltac:(auto) H) as N.
    assert (Z : 0 <= wi * ((y - x) * (y - x))) by (apply Rmult_le_pos; auto; apply Rle_0_sqr).
    assert (Z2 : 0 <= v + wi * ((y - x) * (y - x))) by lra. assert (K2 : (4 <= k + 2)%nat) by lia.
    pose proof (IH a b (k + 2)%nat (m + 1)%nat _ _ ltac:(auto) ltac:(auto) K2 Z2 N) as R.
    cbn [length]. replace (k + 2 * S (length w))%nat with (k + 2 + 2 * length w)%nat by lia. replace (m + S (length w))%nat with (m + 1 + length w)%nat by lia.
    replace (v + (wi * ((x - y) * (x - y)) + sqdist w a b)) with (v + wi * ((y - x) * (y - x)) + sqdist w a b) by ring. exact R.
Qed.
Lemma max32_pos : 0 < max32. Proof. apply bpow_gt_0. Qed.
Lemma zero_near k : onear k 0 0 (Some 0).
Proof. cbn. split; [lra|]. split; [apply is32_0|]. split; [apply max32_pos|]. unfold within. cbn [INR]. lra. Qed.
Lemma walk_near w : weights_ok w -> forall p x k m v acc, Forall small x -> Forall (Forall small) p -> (4 + 2 * length w <= k)%nat -> 0 <= v -> onear k m v acc ->
  onear (k + length p) (m + length w * length p) (v + motion w (x :: p)) (walk_cost_from (K := Float32Cost) (jcost fsq32 w) acc x p).
Proof.
  intros Hw. induction p as [|y p IH]; intros x k m v acc Hx Hp Hk Hv H.
  - cbn [walk_cost_from motion length]. rewrite Rplus_0_r. eapply onear_mono; [| | |exact H]; auto; lia.
  - inversion Hp; subst. cbn [walk_cost_from]. change (motion w (x :: y :: p)) with (sqdist w x y + motion w (y :: p)).
    pose proof (sqdist_pos w (weights_pos w Hw) x y) as Z.
    pose proof (wsq_near w Hw x y 4 0 0 (Some 0) ltac:(auto) ltac:(auto) ltac:(lia) ltac:(lra) (zero_near 4)) as C. rewrite Rplus_0_l in C.
    apply (onear_mono _ k _ (length w)) in C; auto.
    pose proof (fladd_near k m (length w) v (sqdist w x y) acc _ Hv Z H C) as N.
    apply (IH y) in N; auto; try lia; try lra. cbn [length]. replace (k + S (length p))%nat with (S k + length p)%nat by lia.
    replace (m + length w * S (length p))%nat with (m + length w + length w * length p)%nat by lia.
    replace (v + (sqdist w x y + motion w (y :: p))) with (v + sqdist w x y + motion w (y :: p)) by ring. exact N.
Qed.
Lemma path_near w p : weights_ok w -> Forall (Forall small) p -> p <> [] ->
  onear (ops (length w) (length p)) (unf (length w) (length p)) (motion w p) (walk_cost (K := Float32Cost) (jcost fsq32 w) p).
Proof.
  intros Hw Hp Hn. destruct p as [|x p]; [congruence|]. inversion Hp; subst. cbn [walk_cost].
  pose proof (walk_near w Hw p x (4 + 2 * length w) 0 0 (Some 0) ltac:(auto) ltac:(auto) ltac:(lia) ltac:(lra) (zero_near _)) as N.
  rewrite Rplus_0_l in N. unfold ops, unf. cbn [length]. replace (2 * length w + S (length p) + 3)%nat with (4 + 2 * length w + length p)%nat by lia.
  replace (length w * (S (length p) - 1))%nat with (0 + length w * length p)%nat by (rewrite Nat.sub_succ, Nat.sub_0_r; lia). exact N.
Qed.

(** ** The search *)
Lemma picks_all (P : list R -> Prop) : forall data js p, picks data js p -> Forall (Forall P) data -> Forall P p.
Proof.
  induction data as [|col data IH]; intros js p H HF; destruct js as [|j js], p as [|x p]; cbn [picks] in H; try contradiction; [constructor|].
  destruct H as [H1 H2]. inversion HF; subst. constructor; [|eauto]. apply nth_error_In in H1. rewrite Forall_forall in H3. auto.
Qed.
Lemma picks_len {D} : forall (data : list (list D)) js p, picks data js p -> length p = length data.
Proof.
  induction data as [|col data IH]; intros js p H; destruct js as [|j js], p as [|x p]; cbn [picks] in H; try contradiction; [reflexivity|].
  destruct H as [_ H2]. cbn [length]. f_equal. eauto.
Qed.
Lemma seen_len {F} (f : F -> F) t data : length (seen f t data) = length data.
Proof. destruct t; cbn [seen]; auto. apply map_length. Qed.
Lemma is32_1 : is32 1.
Proof. change 1 with (bpow radix2 0). apply generic_format_bpow. unfold FLT_exp. lia. Qed.
Lemma eff_ok n ow : (forall w, ow = Some w -> weights_ok w) -> weights_ok (eff_weights 1 n ow) /\ length (eff_weights 1 n ow) = n.
Proof.
  intros H. assert (X : weights_ok (repeat 1 n)). { apply Forall_forall. intros x Hx. apply repeat_spec in Hx. subst. split; [lra|apply is32_1]. }
  destruct ow as [w|]; cbn [eff_weights]; [|split; [exact X|apply repeat_length]].
  destruct (Nat.eqb (length w) n) eqn:E; [|split; [exact X|apply repeat_length]]. apply Nat.eqb_eq in E. auto.
Qed.

Section Search.
Context (pq : pqueue Float32Cost R) (t : dtype) (n : nat) (data : list (list (list R))) (ow : option (list R)).
Context (Hu : uniform n data) (Hne : data <> []) (Hcol : Forall (fun col => col <> []) data).
Context (Hs : Forall (Forall (Forall small)) (seen b32 t data)) (Hw : forall w, ow = Some w -> weights_ok w).
Notation w := (eff_weights 1 n ow).
Notation N := (length data).
Notation cand p := (exists js, picks (seen b32 t data) js p).
Notation hi p := ((1 + u32) ^ ops n N * (motion w p + INR (unf n N) * eta32)).

Lemma cand_near js p : picks (seen b32 t data) js p -> onear (ops n N) (unf n N) (motion w p) (walk_cost (K := Float32Cost) (jcost fsq32 w) p).
Proof.
  intros H. destruct (eff_ok n ow Hw) as [W L]. pose proof (picks_len _ _ _ H) as Lp. rewrite seen_len in Lp.
  rewrite <- Lp. rewrite <- L at 1 2. apply path_near; [exact W|eapply picks_all; eauto|]. destruct p; [destruct data; [congruence|discriminate]|discriminate].
Qed.
Lemma fin_hi js p : picks (seen b32 t data) js p -> hi p < max32 -> clt (walk_cost (K := Float32Cost) (jcost fsq32 w) p) cinf = true.
Proof.
  intros H B. pose proof (cand_near js p H) as X. destruct (walk_cost (K := Float32Cost) (jcost fsq32 w) p) as [x|]; [reflexivity|]. cbn [onear] in X. lra.
Qed.
Lemma bfs_near : (exists p, cand p /\ hi p < max32) ->
  exists p v, get_shortest_path 1 fsq32 pq b32 (arrays t n data) "bfs" ow = Ok (GspOk (K := Float32Cost) p (Some v)) /\ cand p /\
    within (ops n N) (unf n N) (motion w p) v /\
    forall p', cand p' -> (1 - u32) ^ ops n N * motion w p <= hi p' + INR (unf n N) * eta32.
Proof.
  intros (p0 & (js0 & H0) & B0). destruct (gsp_bfs_spec (K := Float32Cost) 1 fsq32 pq b32 t n data ow Hu Hne Hcol) as [[_ X]|(js & p & E & P & F & O)].
  - specialize (X js0 p0 H0). rewrite (fin_hi js0 p0 H0 B0) in X. discriminate.
  - pose proof (cand_near js p P) as C. destruct (walk_cost (K := Float32Cost) (jcost fsq32 w) p) as [v|] eqn:Ev; [|discriminate].
    destruct C as (C0 & C1 & C2 & C3). exists p, v. rewrite E. split; [reflexivity|]. split; [exists js; exact P|]. split; [exact C3|].
    intros p' (js' & P'). specialize (O js' p' P'). pose proof (cand_near js' p' P') as C'. destruct C3 as [C3 _].
    destruct (walk_cost (K := Float32Cost) (jcost fsq32 w) p') as [v'|] eqn:Ev'.
    + destruct C' as (_ & _ & _ & _ & C'). apply rltb_false in O. lra.
    + cbn [onear] in C'. lra.
Qed.
Lemma dij_near : pq_ok pq -> (forall p, cand p -> hi p < max32) ->
  exists p v, get_shortest_path 1 fsq32 pq b32 (arrays t n data) "dijkstra" ow = Ok (GspOk (K := Float32Cost) p (Some v)) /\ cand p /\
    within (ops n N) (unf n N) (motion w p) v.
Proof.
  intros Hpq B. destruct (gsp_dij_spec (K := Float32Cost) 1 fsq32 pq b32 t n data ow Hu Hne Hcol Hpq) as (js & p & E & P).
  - intros js p P. apply (fin_hi js p P). apply B. eauto.
  - pose proof (cand_near js p P) as C. destruct (walk_cost (K := Float32Cost) (jcost fsq32 w) p) as [v|] eqn:Ev.
    + destruct C as (C0 & C1 & C2 & C3). exists p, v. rewrite E. split; [reflexivity|]. split; [exists js; exact P|exact C3].
    + cbn [onear] in C. specialize (B p (ex_intro _ js P)). lra.
Qed.

(** ** numbers *)
Lemma bern k : 1 - INR k * u32 <= (1 - u32) ^ k.
Proof.
  pose proof u32_pos. pose proof u32_le. induction k as [|k IH]; [cbn [INR pow]; lra|]. rewrite S_INR. cbn [pow].
  apply Rle_trans with ((1 - u32) * (1 - INR k * u32)); [|apply Rmult_le_compat_l; lra]. pose proof (pos_INR k). assert (0 <= INR k * (u32 * u32)) by (apply Rmult_le_pos; [lra|apply Rmult_le_pos; lra]). lra.
Qed.
Lemma hi_lo k : (1 + u32) ^ k * (1 - u32) ^ k <= 1.
Proof.
  pose proof u32_pos. pose proof u32_le. rewrite <- Rpow_mult_distr. replace 1 with (1 ^ k) at 3 by apply pow1. apply pow_incr.
  assert (0 < u32 * u32) by (apply Rmult_lt_0_compat; auto). assert (u32 * u32 <= u32 * 1) by (apply Rmult_le_compat_l; lra). lra.
Qed.
Lemma ops_num : (n <= 10)%nat -> (N <= 1000)%nat -> 0.99993 <= (1 - u32) ^ ops n N /\ (1 + u32) ^ ops n N <= 1.000071.
Proof.
  intros H1 H2. assert (K : INR (ops n N) <= 1023). { change 1023 with (IZR (Z.of_nat 1023)). rewrite <- INR_IZR_INZ. apply le_INR. unfold ops. lia. }
  pose proof u32_pos. pose proof u32_le. pose proof (bern (ops n N)) as B. pose proof (hi_lo (ops n N)) as HL.
  assert (INR (ops n N) * u32 <= 1023 * / 16777216) by (apply Rmult_le_compat; try lra; apply pos_INR).
  assert (L : 0.99993 <= (1 - u32) ^ ops n N) by lra. split; [exact L|].
  assert (P : 0 <= (1 + u32) ^ ops n N) by (apply pow_le; lra). pose proof (Rmult_le_compat_l _ _ _ P L). lra.
Qed.
Lemma eta_num : (n <= 10)%nat -> (N <= 1000)%nat -> INR (unf n N) * eta32 <= 1 / 10 ^ 40.
Proof.
  intros H1 H2. assert (K : INR (unf n N) <= 10000).
  { unfold unf. rewrite mult_INR. apply Rle_trans with (10 * 1000); [|lra]. apply Rmult_le_compat; try apply pos_INR.
    - change 10 with (IZR (Z.of_nat 10)). rewrite <- INR_IZR_INZ. apply le_INR. lia.
    - change 1000 with (IZR (Z.of_nat 1000)). rewrite <- INR_IZR_INZ. apply le_INR. lia. }
  pose proof eta32_pos. apply Rle_trans with (10000 * eta32); [apply Rmult_le_compat_r; lra|]. unfold eta32.
  change (bpow radix2 (-150)) with (/ IZR 1427247692705959881058285969449495136382746624).
  rewrite (pow_IZR 10 40). change (10 ^ Z.of_nat 40)%Z with 10000000000000000000000000000000000000000%Z.
  apply Rmult_le_reg_r with (IZR 1427247692705959881058285969449495136382746624); [apply (IZR_lt 0); lia|].
  rewrite Rmult_assoc, Rinv_l, Rmult_1_r by (apply not_eq_sym, Rlt_not_eq, (IZR_lt 0); lia). apply Rmult_le_reg_l with (IZR 10000000000000000000000000000000000000000); [apply (IZR_lt 0); lia|].
  unfold Rdiv. rewrite Rmult_1_l, <- Rmult_assoc, Rinv_r, Rmult_1_l by (apply not_eq_sym, Rlt_not_eq, (IZR_lt 0); lia). rewrite <- mult_IZR. apply IZR_le. lia.
Qed.
Lemma bfs_practical : (n <= 10)%nat -> (N <= 1000)%nat -> (exists p, cand p /\ motion w p <= 10 ^ 38) ->
  exists p v, get_shortest_path 1 fsq32 pq b32 (arrays t n data) "bfs" ow = Ok (GspOk (K := Float32Cost) p (Some v)) /\ cand p /\
    Rabs (v - motion w p) <= 0.0001 * motion w p + 2 / 10 ^ 40 /\
    forall p', cand p' -> motion w p <= 1.0002 * motion w p' + 3 / 10 ^ 40.
Proof.
  intros H1 H2 (p0 & C0 & B0). destruct (ops_num H1 H2) as [L U]. pose proof (eta_num H1 H2) as Z. set (z := INR (unf n N) * eta32) in *.
  assert (Zp : 0 <= z) by apply meta_pos. set (q := 10 ^ 40) in *.
  assert (Eq : q = 100 * 10 ^ 38) by (unfold q; change 40%nat with (2 + 38)%nat; rewrite pow_add; cbn [pow Nat.add]; ring).
  assert (G : 1 <= 10 ^ 38) by (apply pow_R1_Rle; lra). assert (Q1 : 1 / q <= 1). { apply Rmult_le_reg_r with q; [lra|]. unfold Rdiv. rewrite Rmult_assoc, Rinv_l; lra. }
  destruct (eff_ok n ow Hw) as [W _]. pose proof (weights_pos _ W) as Wp.
  assert (MP : forall p, 0 <= motion w p). { intros p. induction p as [|x p IH]; [cbn; lra|]. destruct p as [|y p]; [cbn; lra|]. change (motion w (x :: y :: p)) with (sqdist w x y + motion w (y :: p)). pose proof (sqdist_pos w Wp x y). lra. }
  assert (UP : forall p, hi p <= 1.000071 * motion w p + 1.000071 * z). { intros p. fold z. pose proof (MP p). assert ((1 + u32) ^ ops n N * (motion w p + z) <= 1.000071 * (motion w p + z)) by (apply Rmult_le_compat_r; lra). lra. }
  assert (LO : forall p, 0.99993 * motion w p <= (1 - u32) ^ ops n N * motion w p). { intros p. apply Rmult_le_compat_r; [apply MP|exact L]. }
  destruct bfs_near as (p & v & E & C & A & O).
  - exists p0. split; [exact C0|]. eapply Rle_lt_trans; [apply UP|]. assert (M : 3 * 10 ^ 38 <= max32).
    { unfold max32. change (bpow radix2 128) with (IZR 340282366920938463463374607431768211456). rewrite (pow_IZR 10 38), <- mult_IZR. apply IZR_le. vm_compute. discriminate. }
    lra.
  - exists p, v. split; [exact E|]. split; [exact C|]. pose proof (UP p) as U1. fold z in U1. pose proof (LO p). pose proof (MP p). destruct A as [A1 A2]. fold z in A1, A2. split.
    + apply Rabs_le. split; lra.
    + intros p' C'. specialize (O p' C'). fold z in O. pose proof (UP p') as U2. fold z in U2. pose proof (MP p'). lra.
Qed.
End Search.

(** ** a concrete case *)
Lemma small_Z z : (Z.abs z < 2 ^ 24)%Z -> small (IZR z).
Proof.
  intros H. split.
  - apply generic_format_FLT. exists (Float radix2 z 0); [unfold F2R; cbn [Fnum Fexp]; change (bpow radix2 0) with 1; ring|exact H|cbn; lia].
  - rewrite <- abs_IZR. apply Rle_trans with (IZR (2 ^ 24)); [apply IZR_le; lia|]. change (IZR (2 ^ 24)) with (bpow radix2 24). apply bpow_le. lia.
Qed.
Definition case_data : list (list (list R)) := [[[0; 0]]; [[0; 0]; [2; 1]]; [[4; 0]]].
Lemma case_ok : uniform 2 case_data /\ Forall (Forall (Forall small)) (seen b32 F32 case_data) /\
  (exists js p, picks case_data js p /\ motion [1; 1] p = 10) /\ (exists js p, picks case_data js p /\ motion [1; 1] p = 16).
Proof.
  assert (S0 : small 0) by (apply small_Z; reflexivity). assert (S1 : small 1) by (apply small_Z; reflexivity).
  assert (S2 : small 2) by (apply small_Z; reflexivity). assert (S4 : small 4) by (apply small_Z; reflexivity).
  split; [repeat constructor|]. split; [cbn [seen case_data]; repeat (apply Forall_cons || apply Forall_nil); auto|]. split.
  - exists [0; 1; 0]%nat, [[0; 0]; [2; 1]; [4; 0]]. split; [cbn; auto|]. cbn [motion sqdist]. lra.
  - exists [0; 0; 0]%nat, [[0; 0]; [0; 0]; [4; 0]]. split; [cbn; auto|]. cbn [motion sqdist]. lra.
Qed.

(** ** The docstring's l1-norm against the squares of the code *)
Lemma wsq_exact : forall w a b acc, wsq (K := RCost) rsq (Some acc) w a b = Some (acc + sqdist w a b).
Proof.
  induction w as [|wi w IH]; intros [|x a] [|y b] acc; cbn [wsq sqdist]; try (f_equal; ring).
  unfold rsq at 2. cbn [xradd]. rewrite IH. f_equal. ring.
Qed.
Lemma walk_exact w : forall p x acc, walk_cost_from (K := RCost) (jcost rsq w) (Some acc) x p = Some (acc + motion w (x :: p)).
Proof.
  induction p as [|y p IH]; intros x acc; [cbn [walk_cost_from motion]; f_equal; ring|]. cbn [walk_cost_from]. unfold jcost at 2. cbn [czero RCost].
  rewrite wsq_exact. cbn [cadd RCost xradd]. rewrite IH. change (motion w (x :: y :: p)) with (sqdist w x y + motion w (y :: p)). f_equal. ring.
Qed.
Lemma exact_cost w p : walk_cost (K := RCost) (jcost rsq w) p = Some (motion w p).
Proof. destruct p as [|x p]; [reflexivity|]. cbn [walk_cost]. change (@czero RCost) with (Some 0). rewrite walk_exact. f_equal. ring. Qed.

Lemma cs s S k x X n : 0 <= s -> 0 <= x -> 0 <= k -> 0 <= n -> 0 <= S -> 0 <= X -> s * s <= k * S -> x * x <= n * X ->
  (s + x) * (s + x) <= (k + n) * (S + X).
Proof.
  intros Hs Hx Hk Hn HS HX H1 H2. assert (A : 2 * (s * x) <= n * S + k * X).
  { assert (0 <= n * S) by (apply Rmult_le_pos; auto). assert (0 <= k * X) by (apply Rmult_le_pos; auto). assert (0 <= s * x) by (apply Rmult_le_pos; auto).
    apply Rsqr_incr_0; [|lra|lra]. unfold Rsqr. assert (P : s * s * (x * x) <= k * S * (n * X)) by (apply Rmult_le_compat; auto; apply Rle_0_sqr).
    pose proof (Rle_0_sqr (n * S - k * X)) as Q. unfold Rsqr in Q. lra. }
  lra.
Qed.
Lemma l1_pos : forall a b, 0 <= l1dist a b.
Proof. induction a as [|x a IH]; intros [|y b]; cbn [l1dist]; try lra. pose proof (Rabs_pos (x - y)). specialize (IH b). lra. Qed.
Lemma abs_sq x : Rabs x * Rabs x = x * x.
Proof. rewrite <- Rabs_mult. apply Rabs_pos_eq. apply Rle_0_sqr. Qed.
Lemma row_cs n : forall a b, length a = n -> length b = n ->
  l1dist a b * l1dist a b <= INR n * sqdist (repeat 1 n) a b /\ 0 <= sqdist (repeat 1 n) a b <= l1dist a b * l1dist a b.
Proof.
  induction n as [|n IH]; intros [|x a] [|y b] La Lb; try discriminate; cbn [repeat sqdist l1dist INR]; [lra|].
  injection La as La. injection Lb as Lb. destruct (IH a b La Lb) as (A & B & C). pose proof (l1_pos a b) as P. pose proof (Rabs_pos (x - y)) as Q. pose proof (pos_INR n) as I.
  pose proof (abs_sq (x - y)) as E. pose proof (Rle_0_sqr (x - y)) as Sq. unfold Rsqr in Sq.
  change (match n with O => 1 | S _ => INR n + 1 end) with (INR (S n)). rewrite S_INR.
  pose proof (cs (l1dist a b) (sqdist (repeat 1 n) a b) (INR n) (Rabs (x - y)) ((x - y) * (x - y)) 1 P Q I ltac:(lra) B Sq A ltac:(lra)) as G.
  assert (X : 0 <= l1dist a b * Rabs (x - y)) by (apply Rmult_le_pos; auto). split; [|split]; lra.
Qed.
Lemma travel_pos p : 0 <= travel p.
Proof. induction p as [|x p IH]; [cbn; lra|]. destruct p as [|y p]; [cbn; lra|]. change (travel (x :: y :: p)) with (l1dist x y + travel (y :: p)). pose proof (l1_pos x y). lra. Qed.
Lemma path_cs n : forall p, Forall (fun x => length x = n) p ->
  travel p * travel p <= INR (unf n (length p)) * motion (repeat 1 n) p /\ 0 <= motion (repeat 1 n) p <= travel p * travel p.
Proof.
  induction p as [|x p IH]; intros H; [cbn [travel motion]; lra|]. destruct p as [|y p]; [cbn [travel motion]; lra|].
  inversion H as [|? ? Hx Hp]; subst. inversion Hp as [|? ? Hy _]; subst. destruct (IH Hp) as (A & B & C). set (n := length x) in *.
  change (travel (x :: y :: p)) with (l1dist x y + travel (y :: p)). change (motion (repeat 1 n) (x :: y :: p)) with (sqdist (repeat 1 n) x y + motion (repeat 1 n) (y :: p)).
  destruct (row_cs n x y eq_refl Hy) as (D & E & F). pose proof (travel_pos (y :: p)) as P. pose proof (l1_pos x y) as Q.
  assert (U : INR (unf n (length (x :: y :: p))) = INR n + INR (unf n (length (y :: p)))). { unfold unf. cbn [length]. rewrite !Nat.sub_succ, !Nat.sub_0_r, <- plus_INR. f_equal. lia. }
  rewrite U. pose proof (pos_INR n). pose proof (pos_INR (unf n (length (y :: p)))).
  pose proof (cs (l1dist x y) (sqdist (repeat 1 n) x y) (INR n) (travel (y :: p)) (motion (repeat 1 n) (y :: p)) (INR (unf n (length (y :: p)))) Q P ltac:(auto) ltac:(auto) E B D A) as G.
  assert (X : 0 <= l1dist x y * travel (y :: p)) by (apply Rmult_le_pos; auto). split; [exact G|split; lra].
Qed.
Lemma picks_lens n : forall data js p, picks data js p -> uniform n data -> Forall (fun x : list R => length x = n) p.
Proof. intros data js p H U. eapply (picks_all (fun x => length x = n)); eauto. Qed.
Lemma exact_search pq n data : uniform n data -> data <> [] -> Forall (fun col => col <> []) data ->
  exists js p, get_shortest_path (K := RCost) 1 rsq pq (fun x => x) (arrays F32 n data) "bfs" None = Ok (GspOk (K := RCost) p (Some (motion (repeat 1 n) p))) /\
    picks data js p /\
    forall js' p', picks data js' p' -> motion (repeat 1 n) p <= motion (repeat 1 n) p' /\ travel p * travel p <= INR (unf n (length data)) * (travel p' * travel p').
Proof.
  intros Hu Hn Hc. assert (A : exists js p, picks data js p). { clear Hu Hn. induction Hc as [|col data Hx _ (js & p & IH)]; [exists [], []; exact Logic.I|]. destruct col as [|x col]; [congruence|]. exists (0%nat :: js), (x :: p). split; [reflexivity|exact IH]. }
  destruct (gsp_bfs_spec (K := RCost) 1 rsq pq (fun x => x) F32 n data None Hu Hn Hc) as [[_ X]|(js & p & E & P & _ & O)].
  - destruct A as (js & p & A). specialize (X js p A). rewrite exact_cost in X. discriminate.
  - exists js, p. cbn [eff_weights] in *. rewrite E, exact_cost. split; [reflexivity|]. split; [exact P|]. intros js' p' P'. specialize (O js' p' P'). rewrite !exact_cost in O.
    unfold cle in O. cbn [clt RCost xrlt] in O. apply rltb_false in O. split; [exact O|]. destruct (path_cs n p (picks_lens _ _ _ _ P Hu)) as [G _]. destruct (path_cs n p' (picks_lens _ _ _ _ P' Hu)) as (_ & _ & G').
    rewrite (picks_len _ _ _ P) in G. eapply Rle_trans; [exact G|]. apply Rmult_le_compat_l; [apply pos_INR|lra].
Qed.
(** the docstring is wrong *)
Lemma l1_refuted : forall pq,  exists p, get_shortest_path (K := RCost) 1 rsq pq (fun x => x) (arrays F32 2 case_data) "bfs" None = Ok (GspOk (K := RCost) p (Some 10)) /\ travel p = 6 /\
  exists js' p', picks case_data js' p' /\ travel p' = 4.
Proof.
  intros pq. destruct (exact_search pq 2 case_data) as (js & p & E & P & O); [apply case_ok|discriminate|repeat constructor; discriminate|].
  destruct (proj1 (proj2 (proj2 case_ok))) as (js1 & p1 & P1 & M1). destruct (O js1 p1 P1) as [B _]. cbn [repeat] in *. rewrite M1 in B.
  assert (C : p = [[0; 0]; [0; 0]; [4; 0]] \/ p = [[0; 0]; [2; 1]; [4; 0]]).
  { unfold case_data in P. destruct js as [|j1 [|j2 [|j3 [|]]]]; destruct p as [|x [|y [|z [|]]]]; cbn [picks] in P; try tauto. destruct P as (A1 & A2 & A3 & _).
    destruct j1 as [|j1]; [|destruct j1; discriminate]. destruct j3 as [|j3]; [|destruct j3; discriminate]. cbn [nth_error] in A1, A3. injection A1 as <-. injection A3 as <-.
    destruct j2 as [|[|j2]]; cbn [nth_error] in A2; [| |destruct j2; discriminate]; injection A2 as <-; auto. }
  destruct C as [C|C]; subst p.
  - exfalso. revert B. cbn [motion sqdist]. lra.
  - exists [[0; 0]; [2; 1]; [4; 0]]. rewrite E. split; [do 2 f_equal; f_equal; cbn [motion sqdist]; lra|]. split.
    + cbn [travel l1dist]. replace (0 - 2) with (- (2)) by ring. replace (0 - 1) with (- (1)) by ring. replace (2 - 4) with (- (2)) by ring. rewrite !Rabs_Ropp, !Rminus_0_r, !Rabs_pos_eq by lra. lra.
    + exists [0; 0; 0]%nat, [[0; 0]; [0; 0]; [4; 0]]. split; [cbn; auto|]. cbn [travel l1dist]. replace (0 - 4) with (- (4)) by ring. rewrite !Rminus_0_r, Rabs_Ropp, Rabs_R0, Rabs_pos_eq by lra. lra.
Qed.
