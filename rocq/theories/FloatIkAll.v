(** * Kuka.ik in floating point: a row near every regular solution. *)
From Coq Require Import Reals Lra Lia Psatz List Bool Arith ZArith.
From Verif Require Import PyBase Mat Util UtilProofs Geometry GeometryProofs Robot RobotProofs RobotForms Ik IkProofs KukaProofs PumaProofs Motion FloatFk FloatFkProofs FloatIk FloatIkProofs FloatIkArm FloatIkWrist FloatIkKuka.
Import ListNotations.
Local Open Scope R_scope.

(** sines and cosines within e *)
Definition anear (e a b : R) : Prop := Rabs (cos a - cos b) <= e /\ Rabs (sin a - sin b) <= e.
Lemma anear_le e e' a b : e <= e' -> anear e a b -> anear e' a b. Proof. intros H [H1 H2]. split; lra. Qed.
Lemma anear_shift d e t t' s : Rabs (t' - t) <= d -> anear e t s -> anear (d + e) t' s.
Proof. intros H [H1 H2]. destruct (trig_shift t t' d e H s H1 H2). split; auto. Qed.
Lemma sine_near c s c' s' d : c ^ 2 + s ^ 2 = 1 -> c' ^ 2 + s' ^ 2 = 1 -> Rabs (c' - c) <= d -> 0 <= s * s' -> Rabs s * Rabs (s' - s) <= 2 * d.
Proof.
  intros H H' D P. assert (C : Rabs c <= 1) by (apply Rabs_le; nra). assert (C' : Rabs c' <= 1) by (apply Rabs_le; nra).
  assert (Q : Rabs (c' - c) * Rabs (c' + c) <= d * 2) by (apply Rmult_le_compat; auto using Rabs_pos; eapply Rle_trans; [apply Rabs_triang|lra]).
  rewrite <- Rabs_mult in Q. assert (E : Rabs (s' - s) * Rabs (s' + s) = Rabs ((c' - c) * (c' + c))).
  { rewrite <- Rabs_mult. replace ((s' - s) * (s' + s)) with (- ((c' - c) * (c' + c))) by nra. apply Rabs_Ropp. }
  assert (G : Rabs s <= Rabs (s' + s)). { unfold Rabs. destruct (Rcase_abs s), (Rcase_abs (s' + s)); nra. }
  pose proof (Rabs_pos (s' - s)). apply Rle_trans with (Rabs (s' - s) * Rabs (s' + s)); [rewrite Rmult_comm; apply Rmult_le_compat_l; auto|lra].
Qed.
Lemma anear_add e f a b a' b' : anear e a' a -> anear f b' b -> anear (2 * (e + f)) (a' + b') (a + b).
Proof.
  intros [A1 A2] [B1 B2]. destruct (abs_1 a), (abs_1 b), (abs_1 a'), (abs_1 b'). unfold anear. rewrite !cos_plus, !sin_plus.
  assert (P1 := prod_near (cos a) (cos b) (cos a') (cos b') e f ltac:(auto) ltac:(auto) A1 B1). assert (P2 := prod_near (sin a) (sin b) (sin a') (sin b') e f ltac:(auto) ltac:(auto) A2 B2).
  assert (P3 := prod_near (sin a) (cos b) (sin a') (cos b') e f ltac:(auto) ltac:(auto) A2 B1). assert (P4 := prod_near (cos a) (sin b) (cos a') (sin b') e f ltac:(auto) ltac:(auto) A1 B2).
  apply Rabs_le_inv in P1. apply Rabs_le_inv in P2. apply Rabs_le_inv in P3. apply Rabs_le_inv in P4. split; apply Rabs_le; lra.
Qed.
Lemma div_of s x d : 0 < s -> s * x <= d -> x <= d / s.
Proof. intros Hs H. apply Rmult_le_reg_l with s; auto. replace (s * (d / s)) with d by (field; lra). exact H. Qed.
Lemma div_mono s m d : 0 <= d -> 0 < m <= s -> d / s <= d / m.
Proof. intros Hd Hm. unfold Rdiv. apply Rmult_le_compat_l; auto. apply Rinv_le_contravar; lra. Qed.
Lemma inv_ge1 m : 0 < m <= 1 -> 1 <= / m.
Proof. intros H. rewrite <- Rinv_1. apply Rinv_le_contravar; lra. Qed.

Section All.
Context (A : arith_ik) (u eta g h : R) (OK : ik_ok A u eta g h).
Context (Hu : 0 < u <= 1e-13) (He : 0 <= eta <= u ^ 2) (Hg : 0 <= g <= 8 * u) (Hh : 0 <= h <= u).
Local Notation rn := (rnd (ar A)).

(** ** One row of the arm *)
Context (m1 m3 w m5 : R) (M1 : 0.01 <= m1 <= 1) (M3 : 0.01 <= m3 <= 1) (W : 0.01 <= w <= 1) (M5 : 0.01 <= m5 <= 1).
Definition arm_at (q1 q2 ph : R) : Prop := m1 <= Rabs (0.18 + reach_r 0.6 0.62 q2 ph) /\ m3 <= Rabs (sin ph) /\ w <= reach_r 0.6 0.62 q2 ph ^ 2 + reach_z 0.6 0.62 q2 ph ^ 2.
Lemma reach_le q2 ph : Rabs (reach_r 0.6 0.62 q2 ph) <= 1.22 /\ Rabs (reach_z 0.6 0.62 q2 ph) <= 1.22.
Proof.
  unfold reach_r, reach_z. destruct (abs_1 q2) as [c s], (abs_1 (q2 + ph)) as [c' s']. apply Rabs_le_inv in c. apply Rabs_le_inv in s. apply Rabs_le_inv in c'. apply Rabs_le_inv in s'. split; apply Rabs_le; lra.
Qed.
Lemma elbow_fine r z r' z' d : Rabs r <= 2 -> Rabs z <= 2 -> Rabs (r' - r) <= 2 * d -> Rabs (z' - z) <= d -> d <= 1e-7 -> Rabs (elbow_cos 0.6 0.62 r' z' - elbow_cos 0.6 0.62 r z) <= 17 * d.
Proof.
  intros Br Bz Hr Hz Hd. unfold elbow_cos.
  assert (K : forall x x' d, Rabs x <= 2 -> Rabs (x' - x) <= d -> d <= 1e-3 -> Rabs (x' ^ 2 - x ^ 2) <= 4.1 * d).
  { intros x x' d' Bx Hx Hd'. replace (x' ^ 2 - x ^ 2) with ((x' - x) * (x' - x + 2 * x)) by ring. rewrite (Rmult_comm 4.1). apply abs_mul_le; auto.
    apply Rabs_le. apply Rabs_le_inv in Bx. apply Rabs_le_inv in Hx. lra. }
  pose proof (K r r' _ Br Hr ltac:(lra)) as K1. pose proof (K z z' _ Bz Hz ltac:(lra)) as K2. apply Rabs_le_inv in K1. apply Rabs_le_inv in K2. apply Rabs_le. lra.
Qed.
(** the elbow of a reached point *)
Lemma elbow_at q1 q2 ph p k d : 0 <= d <= 1.9e5 * u -> (k = 1 \/ k = -1) -> let l := 0.18 + reach_r 0.6 0.62 q2 ph in l = k * Rabs l -> vnear d (arm_pos 0.18 0.6 0.62 q1 q2 ph) p ->
  Rabs (k * lxy p - l) <= 2 * d /\ Rabs (elbow_cos 0.6 0.62 (k * lxy p - 0.18) (vz p) - cos ph) <= 17 * d.
Proof.
  intros Hd Hk l Hl NV. assert (K1 : Rabs k = 1) by (destruct Hk as [-> | ->]; unfold Rabs; destruct (Rcase_abs _); lra).
  destruct (arm_pos_lxy 0.18 0.6 0.62 ltac:(lra) q1 q2 ph) as [HL HC]. cbv zeta in HL, HC. fold l in HL, HC.
  assert (EL : lxy (arm_pos 0.18 0.6 0.62 q1 q2 ph) = Rabs l). { pose proof (sqrt_pos (vx (arm_pos 0.18 0.6 0.62 q1 q2 ph) ^ 2 + vy (arm_pos 0.18 0.6 0.62 q1 q2 ph) ^ 2)) as P. fold (lxy (arm_pos 0.18 0.6 0.62 q1 q2 ph)) in P. destruct HL as [-> | ->]; [rewrite abs_ge; lra|rewrite Rabs_Ropp, abs_ge; lra]. }
  pose proof (hyp_lip _ _ _ _ _ (proj1 NV) (proj1 (proj2 NV))) as LE. fold (lxy p) (lxy (arm_pos 0.18 0.6 0.62 q1 q2 ph)) in LE. rewrite EL in LE.
  assert (D : Rabs (k * lxy p - l) <= 2 * d) by (rewrite Hl; replace (k * lxy p - k * Rabs l) with (k * (lxy p - Rabs l)) by ring; rewrite Rabs_mult, K1; lra).
  split; auto. destruct (reach_le q2 ph) as [R1 R2]. replace (cos ph) with (elbow_cos 0.6 0.62 (reach_r 0.6 0.62 q2 ph) (reach_z 0.6 0.62 q2 ph)) by (apply elbow_cos_unique; [lra|apply reach_cos]).
  apply elbow_fine; try lra; [|apply NV]. replace (k * lxy p - 0.18 - reach_r 0.6 0.62 q2 ph) with (k * lxy p - l) by (unfold l; ring). lra.
Qed.
Lemma row_near q1 q2 ph p k d th f3 g1 g3 N' D' : 0 <= d <= 1.9e5 * u -> (k = 1 \/ k = -1) -> let l := 0.18 + reach_r 0.6 0.62 q2 ph in l = k * Rabs l -> vnear d (arm_pos 0.18 0.6 0.62 q1 q2 ph) p ->
  arm_at q1 q2 ph -> vx p = k * lxy p * cos th -> vy p = k * lxy p * sin th -> Rabs (g1 - th) <= 4 * u -> Rabs (g3 - f3) <= 4 * u -> 
  let r := k * lxy p - 0.18 in Rabs (cos f3 - elbow_cos 0.6 0.62 r (vz p)) <= 7000 * u -> 0 <= sin ph * sin f3 ->
  Rabs (N' - (vz p * (0.6 + 0.62 * cos f3) - r * (0.62 * sin f3))) <= 320 * u -> Rabs (D' - (r * (0.6 + 0.62 * cos f3) + vz p * (0.62 * sin f3))) <= 320 * u ->
  anear (5.71e5 * (u / m1)) g1 q1 /\ anear (2.6e7 * (u / (m3 * w))) (fatan2 A N' D') q2 /\ anear (6.6e6 * (u / m3)) g3 ph.
Proof.
  intros Hd Hk l Hl NV (A1 & A3 & AW) Hx Hy H1 H3 r Hc Hs HN HD. destruct (elbow_at q1 q2 ph p k d Hd Hk Hl NV) as [EL EC]. fold l r in EL, EC.
  assert (KK : k * k = 1) by (destruct Hk as [-> | ->]; ring). assert (K1 : Rabs k = 1) by (destruct Hk as [-> | ->]; unfold Rabs; destruct (Rcase_abs _); lra).
  assert (UM1 : u <= u / m1) by (unfold Rdiv; pose proof (inv_ge1 m1 ltac:(lra)); nra). assert (UM3 : u <= u / m3) by (unfold Rdiv; pose proof (inv_ge1 m3 ltac:(lra)); nra).
  assert (W0 : 0 < m3 * w) by (apply Rmult_lt_0_compat; lra). assert (UMW : u / m3 <= u / (m3 * w)).
  { unfold Rdiv. apply Rmult_le_compat_l; [lra|]. apply Rinv_le_contravar; auto. assert (m3 * w <= m3 * 1) by (apply Rmult_le_compat_l; lra). lra. }
  destruct NV as (NX & NY & NZ). unfold arm_pos in NX, NY, NZ. cbn [vx vy vz] in NX, NY, NZ. fold l in A1, NX, NY.
  assert (KA : forall a b, Rabs (a - b) <= d -> Rabs (k * a - k * b) <= d) by (intros a b Hab; replace (k * a - k * b) with (k * (a - b)) by ring; rewrite Rabs_mult, K1; lra).
  split.
  { assert (LL : sqrt ((k * vx p) ^ 2 + (k * vy p) ^ 2) = lxy p) by (unfold lxy; f_equal; transitivity ((k * k) * (vx p ^ 2 + vy p ^ 2)); [ring|rewrite KK; ring]).
    destruct (dir_near (k * (cos q1 * l)) (k * (sin q1 * l)) (k * vx p) (k * vy p) (Rabs l) q1 th d) as [D1 D2]; auto using Rabs_pos.
    - rewrite Hl at 1. transitivity (k * k * (Rabs l * cos q1)); [ring|rewrite KK; ring].
    - rewrite Hl at 1. transitivity (k * k * (Rabs l * sin q1)); [ring|rewrite KK; ring].
    - rewrite LL, Hx at 1. transitivity (k * k * (lxy p * cos th)); [ring|rewrite KK; ring].
    - rewrite LL, Hy at 1. transitivity (k * k * (lxy p * sin th)); [ring|rewrite KK; ring].
    - apply div_of in D1; [|lra]. apply div_of in D2; [|lra]. pose proof (div_mono (Rabs l) m1 (3 * d) ltac:(lra) ltac:(lra)) as DM.
      assert (DD : 3 * d / m1 <= 5.7e5 * (u / m1)) by (unfold Rdiv; rewrite <- Rmult_assoc; apply Rmult_le_compat_r; [apply Rlt_le, Rinv_0_lt_compat; lra|lra]).
      eapply anear_le; [|eapply (anear_shift (4 * u) (5.7e5 * (u / m1))); [exact H1|split; lra]]. lra. }
  assert (DC : Rabs (cos f3 - cos ph) <= 3.24e6 * u) by (eapply Rle_trans; [eapply abs3; [exact Hc|exact EC]|lra]).
  assert (DS : Rabs (sin f3 - sin ph) <= 6.48e6 * (u / m3)).
  { pose proof (sin2_cos2 ph) as T. unfold Rsqr in T. pose proof (sin2_cos2 f3) as T'. unfold Rsqr in T'. pose proof (sine_near (cos ph) (sin ph) (cos f3) (sin f3) (3.24e6 * u) ltac:(lra) ltac:(lra) DC Hs) as Z.
    apply div_of in Z; [|lra]. eapply Rle_trans; [exact Z|]. eapply Rle_trans; [apply (div_mono _ m3); lra|]. unfold Rdiv. lra. }
  split.
  - destruct (reach_AB 0.6 0.62 q2 ph) as [E1 E2]. cbv zeta in E1, E2. set (a := 0.6 + 0.62 * cos ph) in *. set (b := 0.62 * sin ph) in *. set (a' := 0.6 + 0.62 * cos f3) in *. set (b' := 0.62 * sin f3) in *.
    set (rr := reach_r 0.6 0.62 q2 ph) in *. set (zz := reach_z 0.6 0.62 q2 ph) in *. destruct (reach_le q2 ph) as [Br Bz]. fold rr zz in Br, Bz.
    assert (VV : rr ^ 2 + zz ^ 2 = a ^ 2 + b ^ 2). { pose proof (sin2_cos2 q2) as T. unfold Rsqr in T. rewrite E1, E2. transitivity ((a ^ 2 + b ^ 2) * (sin q2 * sin q2 + cos q2 * cos q2)); [ring|rewrite T; ring]. }
    assert (Dr : Rabs (r - rr) <= 2 * d) by (replace (r - rr) with (k * lxy p - l) by (unfold r, l; fold rr; ring); exact EL).
    assert (Da : Rabs (a' - a) <= 0.62 * (3.24e6 * u)) by (unfold a, a'; replace (0.6 + 0.62 * cos f3 - (0.6 + 0.62 * cos ph)) with (0.62 * (cos f3 - cos ph)) by ring; apply abs_mul_le; auto; apply abs_const; lra).
    assert (Db : Rabs (b' - b) <= 0.62 * (6.48e6 * (u / m3))) by (unfold b, b'; replace (0.62 * sin f3 - 0.62 * sin ph) with (0.62 * (sin f3 - sin ph)) by ring; apply abs_mul_le; auto; apply abs_const; lra).
    assert (Ba : Rabs a <= 1.22) by (unfold a; destruct (abs_1 ph) as [c _]; apply Rabs_le_inv in c; apply Rabs_le; lra). assert (Bb : Rabs b <= 0.62) by (unfold b; destruct (abs_1 ph) as [_ c]; apply Rabs_le_inv in c; apply Rabs_le; lra).
    assert (Br' : Rabs r <= 1.23) by (pose proof (abs_tri _ _ _ Dr); lra). assert (Bz' : Rabs (vz p) <= 1.23) by (pose proof (abs_tri _ _ _ NZ); lra).
    assert (P : forall x x' y y' X Y e f, Rabs x' <= X -> Rabs y <= Y -> Rabs (x' - x) <= e -> Rabs (y' - y) <= f -> Rabs (x' * y' - x * y) <= X * f + Y * e).
    { intros x x' y y' X Y e f HX HY Hxx Hyy. replace (x' * y' - x * y) with (x' * (y' - y) + y * (x' - x)) by ring. eapply Rle_trans; [apply Rabs_triang|]. apply Rplus_le_compat; apply abs_mul_le; auto. }
    pose proof (P rr r a a' _ _ _ _ Br' Ba Dr Da) as P1. pose proof (P zz (vz p) b b' _ _ _ _ Bz' Bb NZ Db) as P2. pose proof (P zz (vz p) a a' _ _ _ _ Bz' Ba NZ Da) as P3. pose proof (P rr r b b' _ _ _ _ Br' Bb Dr Db) as P4.
    set (dd := 8.1e6 * (u / m3)).
    destruct (io_atan _ _ _ _ _ OK N' D') as (ps & I1 & I2 & I3).
    destruct (dir_near (rr * a + zz * b) (zz * a - rr * b) D' N' (rr ^ 2 + zz ^ 2) q2 ps dd) as [D1 D2]; auto.
    + rewrite VV. apply Rplus_le_le_0_compat; apply pow2_ge_0.
    + rewrite VV, E1, E2. ring.
    + rewrite VV, E1, E2. ring.
    + eapply Rle_trans; [eapply abs3; [exact HD|]|].
      { replace (r * a' + vz p * b' - (rr * a + zz * b)) with ((r * a' - rr * a) + (vz p * b' - zz * b)) by ring. eapply Rle_trans; [apply Rabs_triang|apply Rplus_le_compat; eassumption]. }
      unfold dd. lra.
    + eapply Rle_trans; [eapply abs3; [exact HN|]|].
      { replace (vz p * a' - r * b' - (zz * a - rr * b)) with ((vz p * a' - zz * a) + - (r * b' - rr * b)) by ring. eapply Rle_trans; [apply Rabs_triang|rewrite Rabs_Ropp; apply Rplus_le_compat; eassumption]. }
      unfold dd. lra.
    + apply div_of in D1; [|lra]. apply div_of in D2; [|lra]. pose proof (div_mono (rr ^ 2 + zz ^ 2) w (3 * dd) ltac:(unfold dd; lra) ltac:(lra)) as DM.
      assert (DD : 3 * dd / w = 2.43e7 * (u / (m3 * w))) by (unfold dd, Rdiv; rewrite Rinv_mult; lra).
      eapply anear_le; [|eapply (anear_shift (4 * u) (2.43e7 * (u / (m3 * w)))); [exact I3|split; lra]]. lra.
  - eapply anear_le; [|eapply (anear_shift (4 * u) (6.48e6 * (u / m3))); [exact H3|split; lra]]. lra.
Qed.
(** ** The rows of the arm *)
Context (a1 a2 a3 : R) (E1 : Rabs (a1 - 0.18) <= 2 * u) (E2 : Rabs (a2 - 0.6) <= 2 * u) (E3 : Rabs (a3 - 0.62) <= 2 * u).
Local Notation fnum := (fnum A a1 a2 a3).
Local Notation fden := (fden A a2 a3).
(** a regular elbow: both angles, the first with positive sine *)
Lemma farm2_q3_near x y z q1 th k c : (k = 1 \/ k = -1) -> Rabs x <= 4 -> Rabs y <= 4 -> Rabs z <= 4 -> Rabs (q1 - th) <= 4 * u ->
  let L := sqrt (x ^ 2 + y ^ 2) in x = k * L * cos th -> y = k * L * sin th ->
  let c3 := elbow_cos 0.6 0.62 (k * L - 0.18) z in Rabs (c3 - cos c) <= 1e-6 -> m3 <= Rabs (sin c) ->
  exists q3a q3b fa fb, farm2_q3 A (fnum x y z) fden a1 x y q1 = Ok (Some (q3a, q3b)) /\ cos fb = cos fa /\ sin fb = - sin fa /\ Rabs (q3a - fa) <= 4 * u /\ Rabs (q3b - fb) <= 4 * u /\
    Rabs (cos fa - c3) <= 7000 * u /\ 0 < sin fa.
Proof.
  intros Hk Bx By Bz Bq L Hx Hy c3 HC HS. assert (KK : k ^ 2 = 1) by (destruct Hk as [-> | ->]; ring).
  destruct (c3_e A u eta g h OK Hu He a1 a2 a3 E1 E2 E3 x y z q1 th k KK Bx By Bz Bq Hx Hy) as (cc & E & H). fold L c3 in H.
  assert (CC : Rabs (cos c) <= 1 - 4e-5).
  { pose proof (sin2_cos2 c) as T. unfold Rsqr in T. assert (S2 : 0.0001 <= sin c * sin c) by (assert (Z : 0.01 * 0.01 <= Rabs (sin c) * Rabs (sin c)) by (apply Rmult_le_compat; lra); rewrite <- Rabs_mult, abs_ge in Z by apply Rle_0_sqr; lra).
    assert (cos c * cos c <= 0.9999) by lra. clear - H0. apply Rabs_le. split; nra. }
  pose proof (abs_tri _ _ _ HC) as C3.
  unfold farm2_q3. change (rn (rn (fnum x y z - rn (rn (rn (2 * a1) * fsin (ar A) q1) * y)) - rn (rn (rn (2 * a1) * x) * fcos (ar A) q1))) with (ftop A a1 a2 a3 x y z q1).
  rewrite E. cbn [bind]. pose proof (felbow_e A u eta g h OK Hu He (rn cc) c3 (3500 * u) ltac:(lra) H) as F. destruct (felbow A (rn cc)) as [cv|] eqn:EF; [|lra].
  destruct (q3_e A u eta g h OK Hu He (rn cc) c3 (3500 * u) cv ltac:(lra) H EF) as (fa & fb & Q1 & Q2 & Q3 & Q4 & Q5).
  destruct Q5 as [[G1 G2]|[G1 G2]].
  - do 4 eexists. split; [reflexivity|]. split; [exact Q1|]. split; [exact Q2|]. split; [exact Q3|]. split; [exact Q4|]. split; lra.
  - exfalso. pose proof (abs_tri _ _ _ G1) as G3. pose proof (sin2_cos2 fa) as T. unfold Rsqr in T. assert (Rabs (sin fa) * Rabs (sin fa) <= u * u) by (apply Rmult_le_compat; auto using Rabs_pos). rewrite <- Rabs_mult, abs_ge in H0 by apply Rle_0_sqr.
    assert (Rabs (cos fa) * Rabs (cos fa) <= (1 - 3.7e-5) * 1) by (apply Rmult_le_compat; auto using Rabs_pos; lra). rewrite <- Rabs_mult, abs_ge in H1 by apply Rle_0_sqr.
    assert (UU : u * u <= 1e-13 * 1) by (apply Rmult_le_compat; lra). clear - T H0 H1 UU. lra.
Qed.
Lemma arm_all r T q1 q2 ph d : link_a r 0 = Ok a1 -> link_a r 1 = Ok a2 -> link_a r 2 = Ok a3 -> Rabs (vx (pos T)) <= 4 -> Rabs (vy (pos T)) <= 4 -> Rabs (vz (pos T)) <= 4 ->
  0 <= d <= 1.9e5 * u -> vnear d (arm_pos 0.18 0.6 0.62 q1 q2 ph) (pos T) -> arm_at q1 q2 ph ->
  exists qs g1 g2 g3, farm2_ik A r T = Ok (IkOk qs) /\ In [g1; g2; g3] qs /\ anear (5.71e5 * (u / m1)) g1 q1 /\ anear (2.6e7 * (u / (m3 * w))) g2 q2 /\ anear (6.6e6 * (u / m3)) g3 ph.
Proof.
  intros K1 K2 K3 Bx By Bz Hd NV AT.
  assert (Hk : exists k, (k = 1 \/ k = -1) /\ 0.18 + reach_r 0.6 0.62 q2 ph = k * Rabs (0.18 + reach_r 0.6 0.62 q2 ph)).
  { destruct (Rle_lt_dec 0 (0.18 + reach_r 0.6 0.62 q2 ph)); [exists 1; rewrite abs_ge by auto|exists (-1); rewrite Rabs_left by auto]; split; auto; ring. }
  destruct Hk as (k & Hk & Hl). destruct (elbow_at q1 q2 ph (pos T) k d Hd Hk Hl NV) as [_ EC].
  assert (EC6 : Rabs (elbow_cos 0.6 0.62 (k * lxy (pos T) - 0.18) (vz (pos T)) - cos ph) <= 1e-6) by lra.
  pose proof (fun th f3 g1 g3 N' D' => row_near q1 q2 ph (pos T) k d th f3 g1 g3 N' D' Hd Hk Hl NV AT) as RN. cbv zeta in RN. destruct AT as (_ & A3 & _).
  unfold lxy in *. set (x := vx (pos T)) in *. set (y := vy (pos T)) in *. set (z := vz (pos T)) in *. set (L := sqrt (x ^ 2 + y ^ 2)) in *.
  unfold farm2_ik. rewrite K1, K2, K3. cbn [bind]. fold x y z. change (rn (rn (rn (rn (rn (fsq A a1 - fsq A a2) - fsq A a3) + fsq A x) + fsq A y) + fsq A z)) with (fnum x y z). change (rn (rn (2 * a2) * a3)) with fden.
  destruct (io_atan _ _ _ _ _ OK y x) as (th & P1 & P2 & P3). destruct (io_atan _ _ _ _ _ OK (- y) (- x)) as (th' & N1 & N2 & N3).
  replace ((- x) ^ 2) with (x ^ 2) in * by ring. replace ((- y) ^ 2) with (y ^ 2) in * by ring. fold L in P1, P2, N1, N2.
  assert (PX : x = 1 * L * cos th) by lra. assert (PY : y = 1 * L * sin th) by lra. assert (NX : x = -1 * L * cos th') by lra. assert (NY : y = -1 * L * sin th') by lra.
  pose proof (hyp_e A u eta g h OK Hu He x y Bx By) as HL. fold L in HL. set (L' := fsqrt A (rn (fsq A x + fsq A y))) in *.
  assert (L0 : 0 <= L) by apply sqrt_pos.
  assert (LB : L <= 5.7). { apply hyp_le; [lra|]. apply abs_sq in Bx. apply abs_sq in By. rewrite abs_ge in Bx by apply pow2_ge_0. rewrite abs_ge in By by apply pow2_ge_0. lra. }
  assert (WP : Rabs (rn (L' - a1) - (L - 0.18)) <= 44 * u) by (apply (sub_e A u eta g h OK Hu He _ _ _ _ 32 2 5.7 0.18); try bb; apply abs_const; lra).
  assert (WN : Rabs (rn (L' + a1) - (L + 0.18)) <= 44 * u) by (apply (add_e A u eta g h OK Hu He _ _ _ _ 32 2 5.7 0.18); try bb; apply abs_const; lra).
  assert (BP : Rabs (L - 0.18) <= 6.2) by (apply Rabs_le; lra). assert (BN : Rabs (L + 0.18) <= 6.2) by (apply Rabs_le; lra).
  assert (TR : forall q3a q3b fa fb, cos fb = cos fa -> Rabs (q3a - fa) <= 4 * u -> Rabs (q3b - fb) <= 4 * u ->
    Rabs (rn (a3 * fsin (ar A) q3a) - 0.62 * sin fa) <= 12 * u /\ Rabs (rn (- a3 * fsin (ar A) q3a) - Ropp 0.62 * sin fa) <= 12 * u /\ Rabs (rn (a2 + rn (a3 * fcos (ar A) q3b)) - (0.6 + 0.62 * cos fa)) <= 19 * u /\
    Rabs (0.62 * sin fa) <= 0.62 /\ Rabs (Ropp 0.62 * sin fa) <= 0.62 /\ Rabs (0.6 + 0.62 * cos fa) <= 1.22).
  { intros q3a q3b fa fb CC HA HB. destruct (abs_1 fa) as [C1 S1].
    assert (Sn : Rabs (fsin (ar A) q3a - sin fa) <= 5 * u) by (replace 5 with (4 + 1) by lra; apply (sin_e A u eta g h OK); auto).
    assert (Cn : Rabs (fcos (ar A) q3b - cos fa) <= 5 * u) by (rewrite <- CC; replace 5 with (4 + 1) by lra; apply (cos_e A u eta g h OK); auto).
    assert (B1 : Rabs (0.62 * sin fa) <= 0.62) by (eapply Rle_trans; [apply (abs_mul_le _ _ 0.62 1); [apply abs_const; lra|auto]|lra]).
    assert (B2 : Rabs (0.62 * cos fa) <= 0.62) by (eapply Rle_trans; [apply (abs_mul_le _ _ 0.62 1); [apply abs_const; lra|auto]|lra]).
    assert (Q1 : Rabs (rn (a3 * fsin (ar A) q3a) - 0.62 * sin fa) <= 12 * u) by (apply (mul_e A u eta g h OK Hu He _ _ _ _ 2 5 0.62 1); try bb; apply abs_const; lra).
    assert (Q2 : Rabs (rn (- a3 * fsin (ar A) q3a) - Ropp 0.62 * sin fa) <= 12 * u).
    { apply (mul_e A u eta g h OK Hu He _ _ _ _ 2 5 0.62 1); try bb; [apply (opp_e u 0.62 a3 2); auto|rewrite Rabs_Ropp; apply abs_const; lra]. }
    assert (Q3 : Rabs (rn (a3 * fcos (ar A) q3b) - 0.62 * cos fa) <= 12 * u) by (apply (mul_e A u eta g h OK Hu He _ _ _ _ 2 5 0.62 1); try bb; apply abs_const; lra).
    split; [auto|]. split; [auto|]. split; [apply (add_e A u eta g h OK Hu He _ _ _ _ 2 12 0.6 0.62); try bb; apply abs_const; lra|]. split; [auto|]. split; [replace (Ropp 0.62 * sin fa) with (- (0.62 * sin fa)) by ring; rewrite Rabs_Ropp; auto|].
    apply Rabs_le_inv in B2. apply Rabs_le. lra. }
  assert (ANY : forall q k th, (k = 1 \/ k = -1) -> Rabs (q - th) <= 4 * u -> x = k * L * cos th -> y = k * L * sin th -> exists o, farm2_q3 A (fnum x y z) fden a1 x y q = Ok o).
  { intros q k' th0 Hk' Hq X1 X2. destruct (farm2_q3_e A u eta g h OK Hu He a1 a2 a3 E1 E2 E3 x y z q th0 k' ltac:(destruct Hk' as [-> | ->]; ring) Bx By Bz Hq X1 X2) as [[-> _]|(? & ? & ? & ? & ? & -> & _)]; eauto. }
  pose proof (num_e A u eta g h OK Hu He) as NE. pose proof (den_e A u eta g h OK Hu He) as DE.
  destruct Hk as [-> | ->].
  - destruct (farm2_q3_near x y z (fatan2 A y x) th 1 ph (or_introl eq_refl) Bx By Bz P3 PX PY EC6 A3) as (q3a & q3b & fa & fb & EQ & CC & SS & HA & HB & HC & SF). fold L in HC. rewrite EQ.
    destruct (ANY (fatan2 A (- y) (- x)) (-1) th' (or_intror eq_refl) N3 NX NY) as (o & ->). cbn [bind]. destruct (TR q3a q3b fa fb CC HA HB) as (T1 & T2 & T3 & T4 & T5 & T6).
    replace (1 * L - 0.18) with (L - 0.18) in * by ring. destruct (Rle_lt_dec 0 (sin ph)) as [SP|SN].
    + do 4 eexists. split; [reflexivity|]. split; [left; reflexivity|]. apply (RN th fa); auto.
      * apply Rmult_le_pos; lra.
      * replace (z * (0.6 + 0.62 * cos fa) - (L - 0.18) * (0.62 * sin fa)) with (Ropp 0.62 * sin fa * (L - 0.18) + z * (0.6 + 0.62 * cos fa)) by ring. apply NE; auto.
      * replace ((L - 0.18) * (0.6 + 0.62 * cos fa) + z * (0.62 * sin fa)) with (0.62 * sin fa * z + (L - 0.18) * (0.6 + 0.62 * cos fa)) by ring. apply DE; auto.
    + do 4 eexists. split; [reflexivity|]. split; [right; left; reflexivity|]. apply (RN th fb); auto; rewrite ?CC, ?SS; auto.
      * replace (sin ph * - sin fa) with (- sin ph * sin fa) by ring. apply Rmult_le_pos; lra.
      * replace (z * (0.6 + 0.62 * cos fa) - (L - 0.18) * (0.62 * - sin fa)) with (0.62 * sin fa * (L - 0.18) + z * (0.6 + 0.62 * cos fa)) by ring. apply NE; auto.
      * replace ((L - 0.18) * (0.6 + 0.62 * cos fa) + z * (0.62 * - sin fa)) with (Ropp 0.62 * sin fa * z + (L - 0.18) * (0.6 + 0.62 * cos fa)) by ring. apply DE; auto.
  - destruct (farm2_q3_near x y z (fatan2 A (- y) (- x)) th' (-1) ph (or_intror eq_refl) Bx By Bz N3 NX NY EC6 A3) as (q3a & q3b & fa & fb & EQ & CC & SS & HA & HB & HC & SF). fold L in HC. rewrite EQ.
    destruct (ANY (fatan2 A y x) 1 th (or_introl eq_refl) P3 PX PY) as (o & ->). cbn [bind]. destruct (TR q3a q3b fa fb CC HA HB) as (T1 & T2 & T3 & T4 & T5 & T6).
    replace (-1 * L - 0.18) with (- (L + 0.18)) in * by ring.
    set (ra := [fatan2 A (- y) (- x); fatan2 A (rn (rn (rn (a3 * fsin (ar A) q3a) * rn (L' + a1)) + rn (z * rn (a2 + rn (a3 * fcos (ar A) q3b))))) (rn (rn (rn (a3 * fsin (ar A) q3a) * z) - rn (rn (L' + a1) * rn (a2 + rn (a3 * fcos (ar A) q3b))))); q3a]).
    set (rb := [fatan2 A (- y) (- x); fatan2 A (rn (rn (rn (- a3 * fsin (ar A) q3a) * rn (L' + a1)) + rn (z * rn (a2 + rn (a3 * fcos (ar A) q3b))))) (rn (rn (rn (- a3 * fsin (ar A) q3a) * z) - rn (rn (L' + a1) * rn (a2 + rn (a3 * fcos (ar A) q3b))))); q3b]).
    match goal with |- exists qs g1 g2 g3, ?X = _ /\ _ => assert (G : exists l1, X = Ok (IkOk (l1 ++ [ra; rb]))) by (destruct o as [[? ?]|]; [eexists (_ :: _ :: []); reflexivity|exists []; reflexivity]) end.
    destruct G as (l1 & ->). unfold ra, rb. clear ra rb.
    destruct (Rle_lt_dec 0 (sin ph)) as [SP|SN].
    + do 4 eexists. split; [reflexivity|]. split; [apply in_or_app; right; left; reflexivity|]. apply (RN th' fa); auto.
      * apply Rmult_le_pos; lra.
      * replace (z * (0.6 + 0.62 * cos fa) - - (L + 0.18) * (0.62 * sin fa)) with (0.62 * sin fa * (L + 0.18) + z * (0.6 + 0.62 * cos fa)) by ring. apply NE; auto.
      * replace (- (L + 0.18) * (0.6 + 0.62 * cos fa) + z * (0.62 * sin fa)) with (0.62 * sin fa * z - (L + 0.18) * (0.6 + 0.62 * cos fa)) by ring. apply DE; auto.
    + do 4 eexists. split; [reflexivity|]. split; [apply in_or_app; right; right; left; reflexivity|]. apply (RN th' fb); auto; rewrite ?CC, ?SS; auto.
      * replace (sin ph * - sin fa) with (- sin ph * sin fa) by ring. apply Rmult_le_pos; lra.
      * replace (z * (0.6 + 0.62 * cos fa) - - (L + 0.18) * (0.62 * - sin fa)) with (Ropp 0.62 * sin fa * (L + 0.18) + z * (0.6 + 0.62 * cos fa)) by ring. apply NE; auto.
      * replace (- (L + 0.18) * (0.6 + 0.62 * cos fa) + z * (0.62 * - sin fa)) with (Ropp 0.62 * sin fa * z - (L + 0.18) * (0.6 + 0.62 * cos fa)) by ring. apply DE; auto.
Qed.

(** ** The rows of the wrist *)
Lemma wrist_all q4 q5 q6 M' d : m5 <= Rabs (sin q5) -> mnear d (zyz q4 q5 q6) M' -> 100 * u <= d <= 1e-3 ->
  exists t1 t2 t3, In [t1; t2; t3] (fwrist_angles A M') /\ anear (3.1 * (d / m5)) t1 q4 /\ anear (7.3 * d) t2 q5 /\ anear (3.1 * (d / m5)) t3 q6.
Proof.
  intros H5 ND Hd. set (M := zyz q4 q5 q6) in *. assert (HM : rotation M) by apply zyz_rotation.
  assert (Hk : exists k, (k = 1 \/ k = -1) /\ sin q5 = k * Rabs (sin q5)).
  { destruct (Rle_lt_dec 0 (sin q5)); [exists 1; rewrite abs_ge by auto|exists (-1); rewrite Rabs_left by auto]; split; auto; ring. }
  destruct Hk as (k & Hk & Hs). set (sg := Rabs (sin q5)) in *. assert (KK : k * k = 1) by (destruct Hk as [-> | ->]; ring). assert (K1 : Rabs k = 1) by (destruct Hk as [-> | ->]; unfold Rabs; destruct (Rcase_abs _); lra).
  assert (KA : forall x y e, Rabs (y - x) <= e -> Rabs (k * y - k * x) <= e) by (intros x y e Hxy; replace (k * y - k * x) with (k * (y - x)) by ring; rewrite Rabs_mult, K1; lra).
  destruct (rotation_mle M HM) as ((b00 & b01 & b02) & (b10 & b11 & b12) & (b20 & b21 & b22)). destruct ND as ((n00 & n01 & n02) & (n10 & n11 & n12) & (n20 & n21 & n22)).
  pose proof (abs_le_add _ _ _ _ n02 b02) as c02. pose proof (abs_le_add _ _ _ _ n12 b12) as c12.
  destruct (zyz_entries q4 q5 q6) as (Z1 & Z2 & Z3 & Z4 & Z5). cbv zeta in *. fold M in Z1, Z2, Z3, Z4, Z5.
  set (a5 := fsqrt A (rn (fsq A (m02 M') + fsq A (m12 M')))).
  assert (ES : sqrt (m02 M ^ 2 + m12 M ^ 2) = sg).
  { unfold sg. rewrite <- sqrt_Rsqr_abs. f_equal. rewrite Z1, Z2. unfold Rsqr. pose proof (sin2_cos2 q4) as T. unfold Rsqr in T. transitivity ((sin q4 * sin q4 + cos q4 * cos q4) * (sin q5 * sin q5)); [ring|rewrite T; ring]. }
  assert (DA : Rabs (a5 - sg) <= 2.4 * d).
  { eapply Rle_trans; [eapply abs3; [apply (hyp_e A u eta g h OK Hu He); lra|rewrite <- ES; apply (hyp_lip _ _ _ _ d n02 n12)]|]. lra. }
  assert (DK : Rabs (k * a5 - sin q5) <= 2.4 * d) by (rewrite Hs; apply KA; auto).
  assert (SP : 0 < sg) by lra.
  exists (fatan2 A (k * m12 M') (k * m02 M')), (fatan2 A (k * a5) (m22 M')), (fatan2 A (k * m21 M') (- (k * m20 M'))).
  split.
  { unfold fwrist_angles. cbn [col0 col1 col2 vx vy vz]. fold a5. destruct Hk as [-> | ->]; [left; rewrite !Rmult_1_l; reflexivity|right; left].
    replace (-1 * m12 M') with (- m12 M') by ring. replace (-1 * m02 M') with (- m02 M') by ring. replace (-1 * a5) with (- a5) by ring. replace (-1 * m21 M') with (- m21 M') by ring. replace (- (-1 * m20 M')) with (m20 M') by ring. reflexivity. }
  assert (UD : d <= d / m5) by (unfold Rdiv; pose proof (inv_ge1 m5 ltac:(lra)); nra).
  assert (GO : forall t t', sg * Rabs (cos t - cos t') <= 3 * d -> sg * Rabs (sin t - sin t') <= 3 * d -> anear (3 * (d / m5)) t t').
  { intros t t' D1 D2. apply div_of in D1; auto. apply div_of in D2; auto. pose proof (div_mono sg m5 (3 * d) ltac:(lra) ltac:(lra)) as DM. replace (3 * d / m5) with (3 * (d / m5)) in DM by (unfold Rdiv; ring). split; lra. }
  split; [|split].
  - destruct (io_atan _ _ _ _ _ OK (k * m12 M') (k * m02 M')) as (th & P1 & P2 & P3).
    destruct (dir_near (k * m02 M) (k * m12 M) (k * m02 M') (k * m12 M') sg q4 th d) as [D1 D2]; auto; try lra.
    + rewrite Z1, Hs. transitivity (k * k * (sg * cos q4)); [ring|rewrite KK; ring].
    + rewrite Z2, Hs. transitivity (k * k * (sg * sin q4)); [ring|rewrite KK; ring].
    + eapply anear_le; [|eapply (anear_shift (4 * u)); [exact P3|apply GO; auto]]. lra.
  - destruct (io_atan _ _ _ _ _ OK (k * a5) (m22 M')) as (th & P1 & P2 & P3).
    rewrite Z3 in n22. destruct (dir_near (cos q5) (sin q5) (m22 M') (k * a5) 1 q5 th (2.4 * d)) as [D1 D2]; auto; try lra. rewrite Rmult_1_l in D1, D2.
    eapply anear_le; [|eapply (anear_shift (4 * u) (7.2 * d)); [exact P3|split; lra]]. lra.
  - destruct (io_atan _ _ _ _ _ OK (k * m21 M') (- (k * m20 M'))) as (th & P1 & P2 & P3).
    destruct (dir_near (- (k * m20 M)) (k * m21 M) (- (k * m20 M')) (k * m21 M') sg q6 th d) as [D1 D2]; auto; try lra.
    + rewrite Z4, Hs. transitivity (k * k * (sg * cos q6)); [ring|rewrite KK; ring].
    + rewrite Z5, Hs. transitivity (k * k * (sg * sin q6)); [ring|rewrite KK; ring].
    + replace (- (k * m20 M') - - (k * m20 M)) with (- (k * m20 M' - k * m20 M)) by ring. rewrite Rabs_Ropp. auto.
    + eapply anear_le; [|eapply (anear_shift (4 * u)); [exact P3|apply GO; auto]]. lra.
Qed.

(** ** The loop over the rows *)
Lemma loop_all Tw arm : arm_is arm -> forall qs arm' v, robot_near u eta arm arm' -> Forall (arm_row u (pos Tw)) qs -> forall g1 g2 g3, In [g1; g2; g3] qs ->
  exists arm2 w2 sols W, fkuka_loop A Tw arm' v qs = (arm2, w2, Ok sols) /\ mnear (650 * u) (arm2_rot g1 (g2 + rn (g3 + fpi A / 2))) W /\
    forall t, In t (fwrist_angles A (fmul3 A (mtr W) (rot Tw))) -> In ([g1; g2; rn (g3 + fpi A / 2)] ++ t) sols.
Proof.
  intros IA qs. induction qs as [|q qs IH]; intros arm' v NA HQ g1 g2 g3 Hin; [contradiction|]. cbn [fkuka_loop].
  inversion HQ as [|? ? Hq Hqs]; subst. pose proof Hq as (q1 & q2 & q3 & th & ps & ph & E & _). subst q. cbn [nth_error upd].
  set (q3k := rn (q3 + fpi A / 2)) in *. destruct (arm_rot_e A u eta g h OK Hu He Hg Hh arm arm' q1 q2 q3k IA NA) as (F & EF & NF). pose proof (ffk_near A u eta arm arm' [q1; q2; q3k] NA) as NA1.
  destruct (ffk (ar A) arm' [q1; q2; q3k]) as [arm1 F1]. cbn [fst snd] in *. subst F1. unfold fwrist_ik. cbn [w_rob set_tfb r_tfb rot read w_qsol].
  set (v1 := Wr (set_tfb (w_rob v) (M4 (rot F) v0 (brow Tw) 1)) (fwrist_angles A (fmul3 A (mtr (rot F)) (rot Tw)))).
  destruct Hin as [E|Hin].
  - injection E as <- <- <-. destruct (loop_e A u eta g h OK Hu He Hg Hh Tw arm IA qs arm1 v1 NA1 Hqs) as (arm2 & w2 & sols & EL & _). rewrite EL. cbn [bind].
    do 3 eexists. exists (rot F). split; [reflexivity|]. split; [exact NF|]. intros t Ht. apply in_or_app. left. apply in_map_iff. exists t. auto.
  - destruct (IH arm1 v1 NA1 Hqs g1 g2 g3 Hin) as (arm2 & w2 & sols & W' & EL & NW & HI). rewrite EL. cbn [bind].
    do 3 eexists. exists W'. split; [reflexivity|]. split; [exact NW|]. intros t Ht. apply in_or_app. right. auto.
Qed.
End All.

Lemma arm2_near a b a' b' e f : anear e a' a -> anear f b' b -> mnear (e + f) (arm2_rot a b) (arm2_rot a' b').
Proof.
  intros [C S] [C' S']. destruct (abs_1 a), (abs_1 b), (abs_1 a'), (abs_1 b'). pose proof (Rabs_pos (cos a' - cos a)). pose proof (Rabs_pos (cos b' - cos b)).
  assert (N : forall x y k, Rabs (x - y) <= k -> Rabs (- x - - y) <= k) by (intros x y k Hk; replace (- x - - y) with (- (x - y)) by ring; rewrite Rabs_Ropp; auto).
  assert (Z : forall x k k', Rabs x <= k -> 0 <= k' -> Rabs x <= k + k') by (intros; lra). assert (Z' : forall x k k', Rabs x <= k' -> 0 <= k -> Rabs x <= k + k') by (intros; lra).
  unfold mnear, arm2_rot. cbn [m00 m01 m02 m10 m11 m12 m20 m21 m22]. split; [|split]; (split; [|split]).
  - apply prod_near; auto.
  - apply Z; [auto|lra].
  - apply prod_near; auto.
  - apply prod_near; auto.
  - apply Z; [auto|lra].
  - apply prod_near; auto.
  - apply Z'; [auto|lra].
  - rewrite Rminus_0_r, Rabs_R0. lra.
  - apply Z'; [auto|lra].
Qed.
Lemma mmul_near e X X' Y : mnear e X X' -> mle 1 Y -> mnear (3 * e) (mmul X Y) (mmul X' Y).
Proof.
  intros ((x00 & x01 & x02) & (x10 & x11 & x12) & (x20 & x21 & x22)) ((y00 & y01 & y02) & (y10 & y11 & y12) & (y20 & y21 & y22)). pose proof (Rabs_pos (m00 X' - m00 X)).
  assert (K : forall a b c a' b' c' x y z, Rabs (a' - a) <= e -> Rabs (b' - b) <= e -> Rabs (c' - c) <= e -> Rabs x <= 1 -> Rabs y <= 1 -> Rabs z <= 1 -> Rabs (a' * x + b' * y + c' * z - (a * x + b * y + c * z)) <= 3 * e).
  { intros a b c a' b' c' x y z Ha Hb Hc Hx Hy Hz. replace (a' * x + b' * y + c' * z - (a * x + b * y + c * z)) with ((a' - a) * x + (b' - b) * y + (c' - c) * z) by ring.
    pose proof (abs_mul_le _ _ _ _ Ha Hx). pose proof (abs_mul_le _ _ _ _ Hb Hy). pose proof (abs_mul_le _ _ _ _ Hc Hz).
    eapply Rle_trans; [apply Rabs_triang|]. pose proof (Rabs_triang ((a' - a) * x) ((b' - b) * y)). lra. }
  unfold mnear, mmul. cbn [m00 m01 m02 m10 m11 m12 m20 m21 m22 vx vy vz col0 col1 col2]. split; [|split]; (split; [|split]); apply K; auto.
Qed.
Lemma mtrn e X Y : mnear e X Y -> mnear e (mtr X) (mtr Y).
Proof. unfold mnear, mtr. cbn [m00 m01 m02 m10 m11 m12 m20 m21 m22]. clear. tauto. Qed.
Lemma mnear_trans e f X Y Z : mnear e X Y -> mnear f Y Z -> mnear (f + e) X Z.
Proof. unfold mnear. intros H H'. intuition (eapply abs3; eassumption). Qed.

(** the four quantities that keep a configuration away from the singular ones: distance of the wrist centre from the first axis, bend of the elbow,
    square of its distance from the shoulder, bend of the wrist *)
Definition regular (m1 m3 w m5 : R) (q : list R) : Prop := exists q1 q2 q3 q4 q5 q6, q = [q1; q2; q3; q4; q5; q6] /\
  m1 <= Rabs (0.18 + 0.6 * cos q2 + 0.62 * sin (q2 + q3)) /\ m3 <= Rabs (cos q3) /\ w <= 0.7444 + 0.744 * sin q3 /\ m5 <= Rabs (sin q5).
(** errors of the arm and of the wrist *)
Definition wdir (u m1 m3 w : R) : R := 1.9e6 * (u / m1) + 1.97e8 * (u / (m3 * w)).
Definition near_row (u m1 m3 w m5 : R) (p q : list R) : Prop := exists p1 p2 p3 p4 p5 p6 q1 q2 q3 q4 q5 q6, p = [p1; p2; p3; p4; p5; p6] /\ q = [q1; q2; q3; q4; q5; q6] /\
  anear (5.71e5 * (u / m1)) p1 q1 /\ anear (2.6e7 * (u / (m3 * w))) p2 q2 /\ anear (6.7e6 * (u / m3)) p3 q3 /\
  anear (3.1 * (wdir u m1 m3 w / m5)) p4 q4 /\ anear (7.3 * wdir u m1 m3 w) p5 q5 /\ anear (3.1 * (wdir u m1 m3 w / m5)) p6 q6.

Section Kuka.
Context (A : arith_ik) (u eta g h : R) (OK : ik_ok A u eta g h).
Context (Hu : 0 < u <= 1e-13) (Hu' : u <= 2e-16) (He : 0 <= eta <= u ^ 2) (Hg : 0 <= g <= 8 * u) (Hh : 0 <= h <= u).
Context (kp kq : R) (Hkp : 2 <= kp <= 2300) (Hkq : 3 <= kq <= 5000).
Context (m1 m3 w m5 : R) (M1 : 0.01 <= m1 <= 1) (M3 : 0.01 <= m3 <= 1) (W : 0.01 <= w <= 1) (M5 : 0.01 <= m5 <= 1).
Local Notation rn := (rnd (ar A)).
Lemma kuka_all k k' T T' q : kuka_std k -> kuka_near u eta k k' -> rigid T -> len (vsub (pos T) (pos (r_tfb (k_rob k)))) <= 3 -> tnear u kp kq T T' ->
  snd (fk (k_rob k) q) = Ok T -> regular m1 m3 w m5 q -> exists sols p, snd (fkuka_ik A k' T') = Ok (IkOk (Own sols)) /\ In p sols /\ near_row u m1 m3 w m5 p q.
Proof.
  intros KS KN RT LT FT EF (q1 & q2 & q3 & q4 & q5 & q6 & -> & G1 & G3 & GW & G5).
  pose proof KS as [KO KB KL KT]. pose proof KN as [NR NA]. pose proof (ko_rob _ _ _ _ _ KO) as LK. assert (IA : arm_is (k_arm k)) by (destruct KO; split; auto).
  pose proof (small_rigid _ KT) as RTl. set (X := unmount (k_rob k) T). assert (RX : rigid X) by (apply unmount_rigid; auto).
  assert (EX : X = kuka_form 0.18 0.6 0.62 0.115 q1 q2 q3 q4 q5 q6).
  { rewrite (kuka_fk_mount 0.18 0.6 0.62 0.115) in EF by auto. injection EF as EF. unfold X. rewrite <- EF. apply unmount_mount; auto. }
  destruct (kuka_form_centre 0.18 0.6 0.62 0.115 q1 q2 q3 q4 q5 q6) as (CF & RF & _). cbv zeta in CF, RF. rewrite <- EX in CF, RF.
  destruct (target_e A u eta g h OK Hu He Hg Hh kp kq Hkp Hkq (k_rob k) (k_rob k') T T' LK KB KL KT NR RT LT FT) as (Tw & ET & NRot & NPos & LX). fold X in NRot, NPos, LX.
  destruct (link_a_e u eta Hu He _ _ IA NA) as (a1 & a2 & a3 & E1 & E2 & E3 & D1 & D2 & D3).
  set (ph := q3 - PI / 2). assert (Q3 : q3 = ph + PI / 2) by (unfold ph; ring).
  assert (CP : cos q3 = - sin ph) by (rewrite Q3, cos_plus, cos_PI2, sin_PI2; ring). assert (SP : sin q3 = cos ph) by (rewrite Q3, sin_plus, cos_PI2, sin_PI2; ring).
  rewrite Q3 in CF. rewrite (kuka_centre_arm 0.18 0.6 0.62) in CF. rewrite CF in NPos.
  assert (KF : 0 <= kf kp kq * u <= 1.9e5 * u) by (unfold kf; split; [apply Rmult_le_pos; lra|apply Rmult_le_compat_r; lra]).
  assert (AT : arm_at m1 m3 w q1 q2 ph).
  { split; [|split].
    - replace (sin (q2 + q3)) with (cos (q2 + ph)) in G1 by (rewrite Q3; replace (q2 + (ph + PI / 2)) with (q2 + ph + PI / 2) by ring; rewrite sin_plus, cos_PI2, sin_PI2; ring). unfold reach_r. rewrite <- Rplus_assoc. exact G1.
    - rewrite CP, Rabs_Ropp in G3. exact G3.
    - rewrite reach_cos, <- SP. lra. }
  assert (BC : vle 4 (pos Tw)).
  { destruct (reach_le q2 ph) as [B1 B2]. destruct NPos as (n0 & n1 & n2). unfold arm_pos in n0, n1, n2. cbn [vx vy vz] in n0, n1, n2. destruct (abs_1 q1) as [b c].
    assert (B3 : Rabs (0.18 + reach_r 0.6 0.62 q2 ph) <= 1.4) by (apply Rabs_le_inv in B1; apply Rabs_le; lra).
    pose proof (abs_mul_le _ _ _ _ b B3). pose proof (abs_mul_le _ _ _ _ c B3). apply abs_tri in n0. apply abs_tri in n1. apply abs_tri in n2. split; [|split]; lra. }
  destruct BC as (B0 & B1 & B2).
  destruct (arm_all A u eta g h OK Hu He m1 m3 w M1 M3 W a1 a2 a3 D1 D2 D3 (k_arm k') Tw q1 q2 ph (kf kp kq * u) E1 E2 E3 B0 B1 B2 KF NPos AT) as (qs & g1 & g2 & g3 & EA & HIn & N1 & N2 & N3).
  destruct (farm2_e A u eta g h OK Hu He a1 a2 a3 D1 D2 D3 (k_arm k') Tw E1 E2 E3 B0 B1 B2) as [[EA' _]|(qs' & EA' & LQ & FQ)]; rewrite EA in EA'; [discriminate|]. injection EA' as <-.
  destruct (loop_all A u eta g h OK Hu He Hg Hh Tw (k_arm k) IA qs (k_arm k') (k_wrist k') NA FQ g1 g2 g3 HIn) as (arm2 & w2 & sols & V & EL & NV & HI).
  set (g3k := rn (g3 + fpi A / 2)) in *.
  assert (UM1 : u <= u / m1) by (unfold Rdiv; pose proof (inv_ge1 m1 ltac:(lra)); nra). assert (UM3 : u <= u / m3) by (unfold Rdiv; pose proof (inv_ge1 m3 ltac:(lra)); nra).
  assert (W0 : 0 < m3 * w) by (apply Rmult_lt_0_compat; lra). assert (UMW : u / m3 <= u / (m3 * w)).
  { unfold Rdiv. apply Rmult_le_compat_l; [lra|]. apply Rinv_le_contravar; auto. assert (m3 * w <= m3 * 1) by (apply Rmult_le_compat_l; lra). lra. }
  assert (N3k : anear (6.7e6 * (u / m3)) g3k q3).
  { assert (B3 : Rabs g3 <= 3.2) by (rewrite Forall_forall in FQ; destruct (FQ _ HIn) as (p1 & p2 & p3 & ? & ? & ? & E & _ & _ & _ & B3 & _); injection E as _ _ ->; exact B3).
    assert (Q : Rabs (g3k - (g3 + PI / 2)) <= 8 * u).
    { pose proof (io_pi _ _ _ _ _ OK) as Hpi. pose proof PI_4. pose proof PI2_1.
      assert (B : Rabs (g3 + fpi A / 2) <= 5.3). { apply Rabs_le_inv in Hpi. apply Rabs_le. apply Rabs_le_inv in B3. lra. }
      pose proof (ok_rnd _ _ _ _ _ (io_ar _ _ _ _ _ OK) (g3 + fpi A / 2)) as Z. fold g3k in Z. pose proof (eta_k u eta Hu He). assert (u * Rabs (g3 + fpi A / 2) <= u * 5.3) by (apply Rmult_le_compat_l; lra).
      apply Rabs_le. assert (Z2 : Rabs (g3k - (g3 + fpi A / 2)) <= 5.4 * u) by lra. apply Rabs_le_inv in Z2. apply Rabs_le_inv in Hpi. lra. }
    eapply anear_le; [|eapply (anear_shift (8 * u)); [exact Q|]]; [|instantiate (1 := 6.6e6 * (u / m3))]; [lra|]. rewrite Q3. destruct N3 as [Nc Ns]. split.
    - rewrite !cos_plus, cos_PI2, sin_PI2. replace (cos g3 * 0 - sin g3 * 1 - (cos ph * 0 - sin ph * 1)) with (- (sin g3 - sin ph)) by ring. rewrite Rabs_Ropp. exact Ns.
    - rewrite !sin_plus, cos_PI2, sin_PI2. replace (sin g3 * 0 + cos g3 * 1 - (sin ph * 0 + cos ph * 1)) with (cos g3 - cos ph) by ring. exact Nc. }
  pose proof (arm2_near _ _ _ _ _ _ N1 (anear_add _ _ _ _ _ _ N2 N3k)) as NRt. set (R0 := arm2_rot q1 (q2 + q3)) in *. set (R1 := arm2_rot g1 (g2 + g3k)) in *.
  assert (RR0 : rotation R0) by apply arm2_rot_rotation. assert (RR1 : rotation R1) by apply arm2_rot_rotation. pose proof (rigid_rot _ RX) as RM.
  assert (EM : zyz q4 q5 q6 = mmul (mtr R0) (rot X)) by (rewrite RF, <- mmul_assoc, (rot_orth R0), mmul_1_l by auto; reflexivity).
  pose proof (mmul_near _ _ _ _ (mtrn _ _ _ NRt) (rotation_mle _ RM)) as NM1. rewrite <- EM in NM1.
  pose proof (fmul3_e A u eta g h OK Hu Hg Hh (mtr R1) (rot X) (mtr V) (rot Tw) 650 (kt kp) (rotation_tr _ RR1) RM (mtrn _ _ _ NV) NRot ltac:(lra) ltac:(unfold kt; lra)) as NM2.
  pose proof (mnear_trans _ _ _ _ _ NM1 NM2) as NM.
  assert (KU : 0 <= kp * u <= 2300 * u) by (split; [apply Rmult_le_pos; lra|apply Rmult_le_compat_r; lra]).
  assert (WD : 100 * u <= wdir u m1 m3 w <= 1e-3).
  { unfold wdir. split; [lra|]. assert (u / m1 <= 2e-14) by (apply Rle_trans with (u * 100); [|lra]; unfold Rdiv; apply Rmult_le_compat_l; [lra|]; replace 100 with (/ 0.01) by lra; apply Rinv_le_contravar; lra).
    assert (u / (m3 * w) <= 2e-12). { apply Rle_trans with (u * 10000); [|lra]. unfold Rdiv. apply Rmult_le_compat_l; [lra|]. replace 10000 with (/ 0.0001) by lra. apply Rinv_le_contravar; [lra|]. assert (0.01 * 0.01 <= m3 * w) by (apply Rmult_le_compat; lra). lra. }
    lra. }
  assert (NM' : mnear (wdir u m1 m3 w) (zyz q4 q5 q6) (fmul3 A (mtr V) (rot Tw))) by (eapply mnear_le; [|exact NM]; unfold wdir, kt; lra).
  destruct (wrist_all A u eta g h OK Hu He Hh m5 M5 q4 q5 q6 _ (wdir u m1 m3 w) G5 NM' WD) as (t1 & t2 & t3 & HT & T1 & T2 & T3).
  pose proof (HI _ HT) as HP. cbn [app] in HP. unfold fkuka_ik. rewrite ET, EA, EL. cbn [bind snd]. exists sols, [g1; g2; g3k; t1; t2; t3]. split; [destruct sols; [contradiction|reflexivity]|]. split; [exact HP|].
  exists g1, g2, g3k, t1, t2, t3, q1, q2, q3, q4, q5, q6. do 2 (split; [reflexivity|]). auto 8.
Qed.
End Kuka.
