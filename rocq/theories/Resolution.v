(** * Enough samples find a plan: proofs of C142. *)
From Coq Require Import String Reals Lra Lia Psatz List Bool Arith ZArith.
From Verif Require Import KingpinProofs PyBase Cost SpecPath GraphCommon CppGraph CppGraphProofs CppSearch CppHeap CppMain CppExamples Mat Util UtilProofs HaltonProofs Geometry GeometryProofs Robot RobotProofs RobotForms Ik IkProofs KukaProofs RailProofs Path PathProofs Planning PlanningProofs Resources ResourcesProofs TaskProofs Pipeline PipelineProofs Motion LocalIk Margin GridCover.
Import ListNotations.
Local Open Scope R_scope.

(** ** From frames of the tool to poses of the bare arm *)
Lemma vadd_diff a b c d : vsub (vadd a b) (vadd c d) = vadd (vsub a c) (vsub b d). Proof. vring. Qed.
Lemma rot_tmul P Q : rigid P -> rigid Q -> rot (tmul P Q) = mmul (rot P) (rot Q) /\ pos (tmul P Q) = tapply P (pos Q).
Proof. intros [_ P1 P2] [_ Q1 Q2]. rewrite tmul_blocks by auto. split; reflexivity. Qed.
Lemma within_of_left e A T T' : rigid A -> rigid T -> rigid T' -> within_of e T T' -> within_of e (tmul A T) (tmul A T').
Proof.
  intros HA HT HT' [W1 W2]. destruct (rot_tmul A T HA HT) as [E1 E2], (rot_tmul A T' HA HT') as [E3 E4]. split.
  - rewrite E2, E4, len_tapply by auto. exact W1.
  - intros u. rewrite E1, E3, !mapply_mmul, len_rot_diff by apply HA. apply W2.
Qed.
Lemma within_of_right e B T T' : rigid B -> rigid T -> rigid T' -> 0 < e -> within_of e T T' -> within_of (e * (1 + len (pos B))) (tmul T B) (tmul T' B).
Proof.
  intros HB HT HT' He [W1 W2]. pose proof (len_nonneg (pos B)) as LB. destruct (rot_tmul T B HT HB) as [E1 E2], (rot_tmul T' B HT' HB) as [E3 E4]. split.
  - rewrite E2, E4. unfold tapply. rewrite vadd_diff. eapply Rle_trans; [apply len_add|]. pose proof (W2 (pos B)). lra.
  - intros u. rewrite E1, E3, !mapply_mmul. eapply Rle_trans; [apply W2|]. rewrite len_rot by apply HB. apply Rmult_le_compat_r; [apply len_nonneg|]. nra.
Qed.
Lemma within_of_unmount r e : rigid (r_tfb r) -> rigid_tool r -> 0 < e -> exists d, 0 < d /\ forall T T', rigid T -> rigid T' -> within_of d T T' -> within_of e (unmount r T) (unmount r T').
Proof.
  intros HB HC He. unfold unmount, rigid_tool in *. destruct (r_tool r) as [[g tip]|].
  - pose proof (len_nonneg (pos (tf_inverse tip))) as L. assert (P : 0 < 1 + len (pos (tf_inverse tip))) by lra. exists (e / (1 + len (pos (tf_inverse tip)))). split; [apply Rdiv_lt_0_compat; auto|].
    intros T T' HT HT' W. apply within_of_left with (A := tf_inverse (r_tfb r)) in W; auto using tf_inverse_rigid.
    apply within_of_right with (B := tf_inverse tip) in W; auto using tf_inverse_rigid, rigid_tmul; [|apply Rdiv_lt_0_compat; auto].
    replace (e / (1 + len (pos (tf_inverse tip))) * (1 + len (pos (tf_inverse tip)))) with e in W by (field; lra). exact W.
  - exists e. split; auto. intros T T' HT HT' W. apply within_of_left; auto using tf_inverse_rigid.
Qed.
Lemma len_comp_lt v e : len v < e -> Rabs (vx v) < e /\ Rabs (vy v) < e /\ Rabs (vz v) < e.
Proof.
  intros H. pose proof (len_nonneg v) as P. assert (N : norm2 v = len v * len v) by (symmetry; apply len_sqr). destruct v as [x y z]. unfold norm2, vdot in N. cbn [vx vy vz] in *.
  assert (K : forall t, t * t <= len (V3 x y z) * len (V3 x y z) -> Rabs t < e). { intros t Ht. eapply Rle_lt_trans; [|exact H]. apply sqr_le; auto. rewrite abs_sqr. exact Ht. }
  pose proof (Rle_0_sqr x). pose proof (Rle_0_sqr y). pose proof (Rle_0_sqr z). unfold Rsqr in *. repeat split; apply K; lra.
Qed.
Lemma within_of_near a1 a2 d4 d6 q1 q2 q3 q4 q5 q6 d e X : 0 < d -> e < d -> within_of e (kuka_form a1 a2 d4 d6 q1 q2 q3 q4 q5 q6) X -> pose_near a1 a2 d4 d6 q1 q2 q3 q4 q5 q6 d X.
Proof.
  intros Hd He [W1 W2]. unfold pose_near. set (X0 := kuka_form a1 a2 d4 d6 q1 q2 q3 q4 q5 q6) in *. clearbody X0.
  assert (C : forall u, len u = 1 -> len (vsub (mapply (rot X0) u) (mapply (rot X) u)) < d) by (intros u Hu; pose proof (W2 u) as H; rewrite Hu in H; lra).
  assert (L1 : len (V3 1 0 0) = 1) by (rewrite len_x; apply Rabs_R1). assert (L3 : len (V3 0 0 1) = 1) by (rewrite len_z; apply Rabs_R1).
  assert (L2 : len (V3 0 1 0) = 1) by (unfold len, norm2, vdot; cbn; replace (0 * 0 + 1 * 1 + 0 * 0) with 1 by ring; apply sqrt_1).
  destruct (len_comp_lt _ _ (C _ L1)) as (x1 & x2 & x3). destruct (len_comp_lt _ _ (C _ L2)) as (y1 & y2 & y3). destruct (len_comp_lt _ _ (C _ L3)) as (z1 & z2 & z3).
  destruct (len_comp_lt _ d (Rle_lt_trans _ _ _ W1 He)) as (p1 & p2 & p3).
  destruct X0 as [[a b c a' b' c' a'' b'' c''] [px py pz] ? ?], X as [[k l m k' l' m' k'' l'' m''] [sx sy sz] ? ?].
  cbn -[Rabs] in *. rewrite ?(Rabs_minus_sym k), ?(Rabs_minus_sym l), ?(Rabs_minus_sym m), ?(Rabs_minus_sym k'), ?(Rabs_minus_sym l'), ?(Rabs_minus_sym m'), ?(Rabs_minus_sym k''), ?(Rabs_minus_sym l''), ?(Rabs_minus_sym m''), ?(Rabs_minus_sym sx), ?(Rabs_minus_sym sy), ?(Rabs_minus_sym sz).
  Ltac fin H := (eapply Rle_lt_trans; [|exact H]; right; f_equal; ring).
  repeat split; first [fin x1|fin x2|fin x3|fin y1|fin y2|fin y3|fin z1|fin z2|fin z3|fin p1|fin p2|fin p3].
Qed.

(** ** Joint values near q *)
Lemma Forall2_6r (d : R) q1 q2 q3 q4 q5 q6 q : joints_within d [q1; q2; q3; q4; q5; q6] q -> exists p1 p2 p3 p4 p5 p6, q = [p1; p2; p3; p4; p5; p6] /\
  Rabs (p1 - q1) < d /\ Rabs (p2 - q2) < d /\ Rabs (p3 - q3) < d /\ Rabs (p4 - q4) < d /\ Rabs (p5 - q5) < d /\ Rabs (p6 - q6) < d.
Proof. intros H. destruct (Forall2_6 _ _ _ _ _ _ _ _ H) as (p1 & p2 & p3 & p4 & p5 & p6 & -> & K). exists p1, p2, p3, p4, p5, p6. tauto. Qed.
Lemma kuka_lxy a1 a2 d4 q1 q2 q3 : lxy (kuka_centre a1 a2 d4 q1 q2 q3) = Rabs (reach a1 a2 d4 q2 q3).
Proof.
  unfold lxy, kuka_centre, reach. cbn [vx vy]. set (r := a1 + a2 * cos q2 + d4 * sin (q2 + q3)). pose proof (sin2_cos2 q1) as S. unfold Rsqr in S.
  replace ((cos q1 * r) ^ 2 + (sin q1 * r) ^ 2) with ((sin q1 * sin q1 + cos q1 * cos q1) * (r * r)) by ring. rewrite S, Rmult_1_l. fold (Rsqr r). apply sqrt_Rsqr_abs.
Qed.
Definition near3 (q2 q3 q5 : R) (d : R) (p : R * R * R) : Prop := Rabs (fst (fst p) - q2) < d /\ Rabs (snd (fst p) - q3) < d /\ Rabs (snd p - q5) < d.
Lemma regular_open a1 a2 d4 q1 q2 q3 q5 : 0 < lxy (kuka_centre a1 a2 d4 q1 q2 q3) -> Rabs (sin q3) < 1 - tol -> sin q5 <> 0 ->
  exists d, 0 < d /\ forall p1 p2 p3 p5, Rabs (p2 - q2) < d -> Rabs (p3 - q3) < d -> Rabs (p5 - q5) < d ->
    0 < lxy (kuka_centre a1 a2 d4 p1 p2 p3) /\ Rabs (sin p3) <= 1 - tol /\ sin p5 <> 0.
Proof.
  intros H1 H3 H5. rewrite kuka_lxy in H1. set (near := near3 q2 q3 q5).
  assert (mono : forall d d' x, d <= d' -> near d x -> near d' x) by (intros d d' x H (? & ? & ?); repeat split; lra).
  assert (T2 : tends near (fun p => fst (fst p)) q2) by (intros e He; exists e; split; auto; intros x (? & ? & ?); auto).
  assert (T3 : tends near (fun p => snd (fst p)) q3) by (intros e He; exists e; split; auto; intros x (? & ? & ?); auto).
  assert (T5 : tends near (fun p => snd p) q5) by (intros e He; exists e; split; auto; intros x (? & ? & ?); auto).
  assert (TA : forall f a, tends near f a -> tends near (fun x => Rabs (f x)) (Rabs a)).
  { intros f a F e He. destruct (F e He) as (d & Hd & K). exists d. split; auto. intros x N. eapply Rle_lt_trans; [apply Rabs_triang_inv2|]. apply K; auto. }
  assert (TR : tends near (fun p => reach a1 a2 d4 (fst (fst p)) (snd (fst p))) (reach a1 a2 d4 q2 q3)).
  { unfold reach. apply (tends_plus _ mono); [apply (tends_plus _ mono); [apply tends_const|apply (tends_scale _ mono), tends_cos, T2]|]. apply (tends_scale _ mono), tends_sin, (tends_plus _ mono); auto. }
  assert (P5 : 0 < Rabs (sin q5)) by (apply Rabs_pos_lt; auto).
  destruct (ev_and _ mono _ _ (tends_gt _ _ _ 0 H1 (TA _ _ TR)) (ev_and _ mono _ _ (tends_lt _ _ _ (1 - tol) H3 (TA _ _ (tends_sin _ _ _ T3))) (tends_gt _ _ _ 0 P5 (TA _ _ (tends_sin _ _ _ T5))))) as (d & Hd & K).
  exists d. split; auto. intros p1 p2 p3 p5 N2 N3 N5. destruct (K (p2, p3, p5)) as (K1 & K2 & K3); [repeat split; auto|]. cbn [fst snd] in *. rewrite kuka_lxy. split; auto. split; [lra|].
  intros E. rewrite E, Rabs_R0 in K3. lra.
Qed.
(** inside the ranges the angles are reported in *)
Definition interior (q : list R) : Prop :=
  match q with
  | [q1; q2; q3; q4; q5; q6] => - PI < q1 < PI /\ - PI < q2 < PI /\ - PI / 2 < q3 < 3 * PI / 2 /\ - PI < q4 < PI /\ - PI < q5 < PI /\ - PI < q6 < PI
  | _ => False
  end.
Lemma between_open lo hi x : lo < x < hi -> exists d, 0 < d /\ forall y, Rabs (y - x) < d -> lo < y < hi.
Proof. intros H. exists (Rmin (x - lo) (hi - x)). split; [apply Rmin_glb_lt; lra|]. intros y N. pose proof (Rmin_l (x - lo) (hi - x)). pose proof (Rmin_r (x - lo) (hi - x)). apply Rabs_def2 in N. lra. Qed.
Lemma interior_open q : interior q -> exists d, 0 < d /\ forall p, joints_within d q p -> interior p.
Proof.
  destruct q as [|q1 [|q2 [|q3 [|q4 [|q5 [|q6 [|? ?]]]]]]]; try contradiction. intros (B1 & B2 & B3 & B4 & B5 & B6).
  destruct (between_open _ _ _ B1) as (e1 & E1 & K1), (between_open _ _ _ B2) as (e2 & E2 & K2), (between_open _ _ _ B3) as (e3 & E3 & K3), (between_open _ _ _ B4) as (e4 & E4 & K4), (between_open _ _ _ B5) as (e5 & E5 & K5), (between_open _ _ _ B6) as (e6 & E6 & K6).
  destruct (fin_margin (fun d e => d <= e) [e1; e2; e3; e4; e5; e6]) as (d & Hd & D).
  { intros m m' a H H'. lra. }
  { intros a Ia. exists a. split; [|lra]. cbn in Ia. intuition; subst; auto. }
  exists d. split; auto. intros p N. destruct (Forall2_6r _ _ _ _ _ _ _ _ N) as (p1 & p2 & p3 & p4 & p5 & p6 & -> & N1 & N2 & N3 & N4 & N5 & N6).
  pose proof (D e1 ltac:(cbn; auto 8)). pose proof (D e2 ltac:(cbn; auto 8)). pose proof (D e3 ltac:(cbn; auto 8)). pose proof (D e4 ltac:(cbn; auto 8)). pose proof (D e5 ltac:(cbn; auto 8)). pose proof (D e6 ltac:(cbn; auto 8)).
  cbn [interior]. split; [apply K1; lra|]. split; [apply K2; lra|]. split; [apply K3; lra|]. split; [apply K4; lra|]. split; [apply K5; lra|apply K6; lra].
Qed.
Lemma cong_same lo a b : cong a b -> lo < a < lo + 2 * PI -> lo < b <= lo + 2 * PI -> a = b.
Proof.
  intros (k & E) Ha Hb. pose proof PI_RGT_0 as P. assert (K : (-1 < k < 1)%Z).
  { split; apply lt_IZR; apply (Rmult_lt_reg_r (2 * PI)); try lra. }
  assert (k = 0)%Z by lia. subst k. lra.
Qed.


(** ** The cost is continuous *)
Fixpoint rc (w a b : list R) : R := match w, a, b with wi :: w', x :: a', y :: b' => wi * ((y - x) * (y - x)) + rc w' a' b' | _, _, _ => 0 end.
Lemma rc_spec : forall w a b acc, wsq (K := RCost) rsq (Some acc) w a b = Some (acc + rc w a b).
Proof.
  induction w as [|wi w IH]; intros [|x a] [|y b] acc; cbn [wsq rc]; try (f_equal; lra). unfold rsq at 2. cbn [xradd]. rewrite IH. f_equal. lra.
Qed.
Lemma rc_near : forall w a b e, 0 < e -> exists d, 0 < d /\ forall a' b', joints_within d a a' -> joints_within d b b' -> Rabs (rc w a' b' - rc w a b) < e.
Proof.
  assert (Z : forall e, 0 < e -> Rabs (0 - 0) < e) by (intros; rewrite Rminus_eq_0, Rabs_R0; auto).
  induction w as [|wi w IH]; intros [|x a] [|y b] e He; try solve [exists 1; split; [lra|]; intros a' b' Na Nb; inversion Na; inversion Nb; subst; cbn [rc]; auto].
  destruct (IH a b (e / 2) ltac:(lra)) as (d & Hd & K).
  set (near := fun d (p : R * R) => Rabs (fst p - x) < d /\ Rabs (snd p - y) < d).
  assert (mono : forall d d' p, d <= d' -> near d p -> near d' p) by (intros d1 d2 p H (? & ?); split; lra).
  assert (T1 : tends near fst x) by (intros t Ht; exists t; split; auto; intros p (? & ?); auto). assert (T2 : tends near snd y) by (intros t Ht; exists t; split; auto; intros p (? & ?); auto).
  pose proof (tends_minus _ mono _ _ _ _ T2 T1) as T3. destruct (tends_scale _ mono wi _ _ (tends_mult _ mono _ _ _ _ T3 T3) (e / 2) ltac:(lra)) as (d' & Hd' & K').
  exists (Rmin d d'). split; [apply Rmin_glb_lt; auto|]. intros a' b' Na Nb. inversion Na as [|? x' ? a1 Nx Na1]; subst. inversion Nb as [|? y' ? b1 Ny Nb1]; subst. cbn [rc].
  assert (K1 : Rabs (rc w a1 b1 - rc w a b) < e / 2) by (apply K; eapply joints_within_le; [apply Rmin_l|eassumption|apply Rmin_l|eassumption]).
  assert (K2 := K' (x', y')). cbn [fst snd] in K2. assert (N : near d' (x', y')) by (split; cbn [fst snd]; (eapply Rlt_le_trans; [eassumption|apply Rmin_r])). specialize (K2 N).
  replace (wi * ((y' - x') * (y' - x')) + rc w a1 b1 - (wi * ((y - x) * (y - x)) + rc w a b)) with ((wi * ((y' - x') * (y' - x')) - wi * ((y - x) * (y - x))) + (rc w a1 b1 - rc w a b)) by ring.
  eapply Rle_lt_trans; [apply Rabs_triang|lra].
Qed.
Fixpoint wc (w : list R) (x : list R) (p : list (list R)) : R := match p with [] => 0 | y :: p' => rc w x y + wc w y p' end.
Lemma wc_spec w : forall p x acc, walk_cost_from (K := RCost) (jcost (K := RCost) rsq w) (Some acc) x p = Some (acc + wc w x p).
Proof.
  induction p as [|y p IH]; intros x acc; cbn [walk_cost_from wc]; [f_equal; lra|]. unfold jcost at 2. change (@czero RCost) with (Some 0). rewrite rc_spec. cbn [cadd RCost xradd]. rewrite IH. f_equal. lra.
Qed.
Lemma wc_near w : forall p x e, 0 < e -> exists d, 0 < d /\ forall x' p', joints_within d x x' -> Forall2 (joints_within d) p p' -> Rabs (wc w x' p' - wc w x p) < e.
Proof.
  induction p as [|y p IH]; intros x e He.
  - exists 1. split; [lra|]. intros x' p' _ N. inversion N; subst. cbn [wc]. rewrite Rminus_eq_0, Rabs_R0. auto.
  - destruct (IH y (e / 2) ltac:(lra)) as (d & Hd & K). destruct (rc_near w x y (e / 2) ltac:(lra)) as (d' & Hd' & K'). exists (Rmin d d'). split; [apply Rmin_glb_lt; auto|].
    intros x' p' Nx Np. inversion Np as [|? y' ? p1 Ny Np1]; subst. cbn [wc].
    assert (Rabs (rc w x' y' - rc w x y) < e / 2) by (apply K'; eapply joints_within_le; [apply Rmin_r|eassumption|apply Rmin_r|eassumption]).
    assert (Rabs (wc w y' p1 - wc w y p) < e / 2). { apply K; [eapply joints_within_le; [apply Rmin_l|eassumption]|]. clear - Np1. induction Np1; constructor; auto. eapply joints_within_le; [apply Rmin_l|eassumption]. }
    replace (rc w x' y' + wc w y' p1 - (rc w x y + wc w y p)) with ((rc w x' y' - rc w x y) + (wc w y' p1 - wc w y p)) by ring. eapply Rle_lt_trans; [apply Rabs_triang|lra].
Qed.
Lemma walk_near w qs e : 0 < e -> exists d, 0 < d /\ forall ps, Forall2 (joints_within d) qs ps -> exists c c', walk_cost (K := RCost) (jcost (K := RCost) rsq w) qs = Some c /\ walk_cost (K := RCost) (jcost (K := RCost) rsq w) ps = Some c' /\ Rabs (c' - c) < e.
Proof.
  intros He. destruct qs as [|x p].
  - exists 1. split; [lra|]. intros ps N. inversion N; subst. exists 0, 0. cbn. rewrite Rminus_eq_0, Rabs_R0. auto.
  - destruct (wc_near w p x e He) as (d & Hd & K). exists d. split; auto. intros ps N. inversion N as [|? x' ? p' Nx Np]; subst. exists (wc w x p), (wc w x' p'). cbn [walk_cost].
    change (@czero RCost) with (Some 0). rewrite !wc_spec, !Rplus_0_l. auto.
Qed.

(** ** Points *)
Section Plan.
Context (prim : shape -> mat3 -> vec3 -> shape -> mat3 -> vec3 -> bool) (to32 : R -> R) (a1 a2 d4 d6 : R) (Hne : a2 * d4 <> 0).
Context (k : kuka) (Hk : kuka_ok a1 a2 d4 d6 k) (scene : coll) (Hs : solid (k_rob k)) (Hc : rigid_coll scene).
(** q puts the tool in a pose the point allows, clear of everything and away from the singularities *)
Definition serves (tp : pathpt) (q : list R) : Prop :=
  exists T q1 q2 q3 q4 q5 q6, q = [q1; q2; q3; q4; q5; q6] /\ allowed tp T /\ snd (fk (k_rob k) q) = Ok T /\
    0 < lxy (kuka_centre a1 a2 d4 q1 q2 q3) /\ Rabs (sin q3) < 1 - tol /\ sin q5 <> 0 /\ clear (k_rob k) scene q.
(** with enough samples one of them is reached by joint values near q that meet the same conditions *)
Lemma served ypr fuel n tp q e : pt_ok n tp -> gridded tp -> serves tp q -> 0 < e -> exists N, forall m, (N <= m)%Z ->
  exists Ts T p1 p2 p3 p4 p5 p6, pt_samples ypr fuel n (resampled m tp) = Ok Ts /\ In T Ts /\ joints_within e q [p1; p2; p3; p4; p5; p6] /\ snd (fk (k_rob k) [p1; p2; p3; p4; p5; p6]) = Ok T /\
    0 < lxy (kuka_centre a1 a2 d4 p1 p2 p3) /\ Rabs (sin p3) <= 1 - tol /\ sin p5 <> 0 /\ clear (k_rob k) scene [p1; p2; p3; p4; p5; p6].
Proof.
  intros O G (T & q1 & q2 & q3 & q4 & q5 & q6 & -> & A & Ef & H1 & H3 & H5 & C) He. pose proof (ko_rob _ _ _ _ _ Hk) as L.
  pose proof (proj1 Hs) as Hb. pose proof (solid_tool _ Hs) as Ht.
  assert (Na2 : a2 <> 0) by (intros Z; apply Hne; rewrite Z; ring). assert (Nd4 : d4 <> 0) by (intros Z; apply Hne; rewrite Z; ring).
  assert (Nr : reach a1 a2 d4 q2 q3 <> 0). { rewrite kuka_lxy in H1. intros Z. rewrite Z, Rabs_R0 in H1. lra. }
  assert (N3 : cos q3 <> 0). { intros Z. pose proof (sin2_cos2 q3) as S. unfold Rsqr in S. rewrite Z in S. assert (T3 : 0 < tol) by (unfold tol; lra). apply Rabs_def2 in H3. assert (sin q3 * sin q3 < 1) by nra. lra. }
  rewrite (kuka_fk_mount a1 a2 d4 d6) in Ef by auto. injection Ef as ET.
  destruct (regular_open a1 a2 d4 q1 q2 q3 q5 H1 H3 H5) as (e1 & He1 & Reg). destruct (clear_open _ _ _ Hs Hc C) as (e2 & He2 & Cl).
  set (e' := Rmin e (Rmin e1 e2)). assert (He' : 0 < e') by (unfold e'; repeat apply Rmin_glb_lt; auto).
  assert (D1 : e' <= e) by apply Rmin_l. assert (D2 : e' <= e1) by (eapply Rle_trans; [apply Rmin_r|apply Rmin_l]). assert (D3 : e' <= e2) by (eapply Rle_trans; [apply Rmin_r|apply Rmin_r]).
  destruct (local_ik a1 a2 d4 d6 Na2 Nd4 q1 q2 q3 q4 q5 q6 Nr N3 H5 e' He') as (d & Hd & IK).
  destruct (within_of_unmount (k_rob k) (d / 2) Hb Ht ltac:(lra)) as (d' & Hd' & Un).
  destruct (dense n ypr fuel tp T d' O G A Hd') as (N & Dn). exists (Z.max N 0). intros m Hm. destruct (Dn m ltac:(lia)) as (Ts & T' & ES & IT & W).
  assert (RT' : rigid T'). { destruct (pt_allowed ypr fuel n (resampled m tp)) as (Ts' & E' & Al); [apply resampled_ok; auto; lia|]. rewrite ES in E'. injection E' as <-. apply (Al T' IT). }
  assert (RT : rigid T) by apply A.
  assert (PN : pose_near a1 a2 d4 d6 q1 q2 q3 q4 q5 q6 d (unmount (k_rob k) T')).
  { apply (within_of_near a1 a2 d4 d6 q1 q2 q3 q4 q5 q6 d (d / 2)); [auto|lra|]. pose proof (Un T T' RT RT' W) as U. rewrite <- ET, unmount_mount in U by auto. exact U. }
  destruct (IK _ PN (unmount_rigid _ _ Hb Ht RT')) as (p1 & p2 & p3 & p4 & p5 & p6 & EK & NJ).
  assert (NJ' : joints_within e' [q1; q2; q3; q4; q5; q6] [p1; p2; p3; p4; p5; p6]).
  { destruct (Forall2_6 _ _ _ _ _ _ _ _ NJ) as (? & ? & ? & ? & ? & ? & K & ? & ? & ? & ? & ? & ?). injection K as <- <- <- <- <- <-. repeat apply Forall2_cons; auto. }
  exists Ts, T', p1, p2, p3, p4, p5, p6. split; auto. split; auto. split; [eapply joints_within_le; eauto|]. split.
  { rewrite (kuka_fk_mount a1 a2 d4 d6) by auto. rewrite EK, mount_unmount by auto. reflexivity. }
  destruct (Forall2_6r _ _ _ _ _ _ _ _ NJ') as (? & ? & ? & ? & ? & ? & K & N1 & N2 & N3' & N4 & N5 & N6). injection K as <- <- <- <- <- <-.
  destruct (Reg p1 p2 p3 p5) as (R1 & R2 & R3); try lra. split; [exact R1|]. split; [exact R2|]. split; [exact R3|]. apply Cl. eapply joints_within_le; eauto.
Qed.
(** the inverse kinematics varies continuously with the pose *)
Lemma ik_continuous q1 q2 q3 q4 q5 q6 T e : rigid T -> snd (fk (k_rob k) [q1; q2; q3; q4; q5; q6]) = Ok T -> 0 < lxy (kuka_centre a1 a2 d4 q1 q2 q3) -> Rabs (sin q3) < 1 - tol -> sin q5 <> 0 -> 0 < e ->
  exists d, 0 < d /\ forall T', rigid T' -> within_of d T T' -> exists sols s p, snd (kuka_ik k T') = Ok (IkOk (Own sols)) /\ In s sols /\ Forall2 cong p s /\
    joints_within e [q1; q2; q3; q4; q5; q6] p /\ snd (fk (k_rob k) p) = Ok T'.
Proof.
  intros RT Ef H1 H3 H5 He. pose proof (ko_rob _ _ _ _ _ Hk) as L. pose proof (proj1 Hs) as Hb. pose proof (solid_tool _ Hs) as Ht.
  assert (Na2 : a2 <> 0) by (intros Z; apply Hne; rewrite Z; ring). assert (Nd4 : d4 <> 0) by (intros Z; apply Hne; rewrite Z; ring).
  assert (Nr : reach a1 a2 d4 q2 q3 <> 0). { rewrite kuka_lxy in H1. intros Z. rewrite Z, Rabs_R0 in H1. lra. }
  assert (N3 : cos q3 <> 0). { intros Z. pose proof (sin2_cos2 q3) as S. unfold Rsqr in S. rewrite Z in S. assert (T3 : 0 < tol) by (unfold tol; lra). apply Rabs_def2 in H3. assert (sin q3 * sin q3 < 1) by nra. lra. }
  rewrite (kuka_fk_mount a1 a2 d4 d6) in Ef by auto. injection Ef as ET.
  destruct (regular_open a1 a2 d4 q1 q2 q3 q5 H1 H3 H5) as (e1 & He1 & Reg).
  set (e' := Rmin e e1). assert (He' : 0 < e') by (unfold e'; repeat apply Rmin_glb_lt; auto).
  assert (D1 : e' <= e) by apply Rmin_l. assert (D2 : e' <= e1) by apply Rmin_r.
  destruct (local_ik a1 a2 d4 d6 Na2 Nd4 q1 q2 q3 q4 q5 q6 Nr N3 H5 e' He') as (d & Hd & IK).
  destruct (within_of_unmount (k_rob k) (d / 2) Hb Ht ltac:(lra)) as (d' & Hd' & Un).
  exists d'. split; auto. intros T' RT' W.
  assert (PN : pose_near a1 a2 d4 d6 q1 q2 q3 q4 q5 q6 d (unmount (k_rob k) T')).
  { apply (within_of_near a1 a2 d4 d6 q1 q2 q3 q4 q5 q6 d (d / 2)); [auto|lra|]. pose proof (Un T T' RT RT' W) as U. rewrite <- ET, unmount_mount in U by auto. exact U. }
  destruct (IK _ PN (unmount_rigid _ _ Hb Ht RT')) as (p1 & p2 & p3 & p4 & p5 & p6 & EK & NJ).
  assert (NJ' : joints_within e' [q1; q2; q3; q4; q5; q6] [p1; p2; p3; p4; p5; p6]).
  { destruct (Forall2_6 _ _ _ _ _ _ _ _ NJ) as (? & ? & ? & ? & ? & ? & K & ? & ? & ? & ? & ? & ?). injection K as <- <- <- <- <- <-. repeat apply Forall2_cons; auto. }
  assert (Ef : snd (fk (k_rob k) [p1; p2; p3; p4; p5; p6]) = Ok T') by (rewrite (kuka_fk_mount a1 a2 d4 d6), EK, mount_unmount by auto; reflexivity).
  destruct (Forall2_6r _ _ _ _ _ _ _ _ NJ') as (? & ? & ? & ? & ? & ? & K & N1 & N2 & N3' & N4 & N5 & N6). injection K as <- <- <- <- <- <-.
  destruct (Reg p1 p2 p3 p5) as (R1 & R2 & R3); try lra.
  destruct (kuka_finds_all a1 a2 d4 d6 Hne k p1 p2 p3 p4 p5 p6 T' Hk Hb Ht Ef R1 R2 R3) as (sols & s & E2 & I2 & Cg).
  exists sols, s, [p1; p2; p3; p4; p5; p6]. split; [exact E2|]. split; [exact I2|]. split; [exact Cg|]. split; [eapply joints_within_le; eauto|exact Ef].
Qed.
(** what the solver reports for it *)
Lemma served_candidate ypr fuel n tp q e : exact_prim prim -> pt_ok n tp -> gridded tp -> serves tp q -> interior q -> 0 < e -> exists N, forall m, (N <= m)%Z ->
  exists p, joints_within e q p /\ candidate prim k scene (pt_samples ypr fuel n) (resampled m tp) p.
Proof.
  intros X O G S I He. destruct (interior_open q I) as (e1 & He1 & Int). pose proof (ko_rob _ _ _ _ _ Hk) as L.
  destruct (served ypr fuel n tp q (Rmin e e1) O G S ltac:(apply Rmin_glb_lt; auto)) as (N & K). exists N. intros m Hm.
  destruct (K m Hm) as (Ts & T & p1 & p2 & p3 & p4 & p5 & p6 & ES & IT & NJ & Ef & R1 & R3 & R5 & C). exists [p1; p2; p3; p4; p5; p6]. split; [eapply joints_within_le; [apply Rmin_l|eauto]|].
  assert (J : interior [p1; p2; p3; p4; p5; p6]) by (apply Int; eapply joints_within_le; [apply Rmin_r|eauto]).
  exists Ts, T. split; auto. split; auto.
  destruct (kuka_finds_all a1 a2 d4 d6 Hne k p1 p2 p3 p4 p5 p6 T Hk (proj1 Hs) (solid_tool _ Hs) Ef R1 R3 R5) as (sols & s & E2 & I2 & Cg).
  destruct (kuka_limits a1 a2 d4 d6 Hne k T (Own sols) (new_wrist 1) s Hk E2 I2) as (s1 & s2 & s3 & s4 & s5 & s6 & -> & B1 & B2 & B3 & B4 & B5 & B6).
  destruct (Forall2_6 _ _ _ _ _ _ _ _ Cg) as (? & ? & ? & ? & ? & ? & Z & C1 & C2 & C3 & C4 & C5 & C6). injection Z as <- <- <- <- <- <-. cbn [interior] in J. destruct J as (J1 & J2 & J3 & J4 & J5 & J6).
  assert (p1 = s1) by (apply (cong_same (- PI)); auto; lra). assert (p2 = s2) by (apply (cong_same (- PI)); auto; lra). assert (p3 = s3) by (apply (cong_same (- PI / 2)); auto; lra).
  assert (p4 = s4) by (apply (cong_same (- PI)); auto; lra). assert (p5 = s5) by (apply (cong_same (- PI)); auto; lra). assert (p6 = s6) by (apply (cong_same (- PI)); auto; lra).
  subst s1 s2 s3 s4 s5 s6. unfold kuka_free. rewrite E2. apply filter_In. split; [exact I2|].
  apply (free_iff_clear prim) in C; auto; [rewrite C; reflexivity|apply L|eapply like_joints; eauto; apply Kuka_joints|]. rewrite (like_ndof _ _ L). cbn. lia.
Qed.
Lemma served_reachable ypr fuel n tp q : pt_ok n tp -> gridded tp -> serves tp q -> exists N, forall m, (N <= m)%Z -> reachable a1 a2 d4 k scene (pt_samples ypr fuel n) (resampled m tp).
Proof.
  intros O G S. destruct (served ypr fuel n tp q 1 O G S Rlt_0_1) as (N & K). exists N. intros m Hm.
  destruct (K m Hm) as (Ts & T & p1 & p2 & p3 & p4 & p5 & p6 & ES & IT & NJ & Ef & R1 & R3 & R5 & C). exists Ts, T, p1, p2, p3, p4, p5, p6. auto 10.
Qed.
Lemma all_served ypr fuel n path : Forall (fun tp => pt_ok n tp /\ gridded tp /\ exists q, serves tp q) path -> exists N, forall m, (N <= m)%Z -> Forall (reachable a1 a2 d4 k scene (pt_samples ypr fuel n)) (map (resampled m) path).
Proof.
  induction 1 as [|tp path (O & G & q & S) _ (N & IH)]; [exists 0%Z; intros; constructor|]. destruct (served_reachable ypr fuel n tp q O G S) as (N' & K). exists (Z.max N N'). intros m Hm. constructor; [apply K; lia|apply IH; lia].
Qed.
Lemma resolution_bfs ypr fuel n path ow : exact_prim prim -> path <> [] -> Forall (fun tp => pt_ok n tp /\ gridded tp /\ exists q, serves tp q) path ->
  exists N, forall m, (N <= m)%Z -> forall pq, exists rows, let cost := walk_cost (K := RCost) (jcost (K := RCost) rsq (eff_weights 1 6 ow)) in let samples := pt_samples ypr fuel n in
  snd (kuka_plan prim to32 (K := RCost) rsq pq samples scene (map (resampled m) path) "bfs" ow k) = Ok (GspOk rows (cost rows)) /\
  Forall2 (fun tp row => exists q, candidate prim k scene samples (resampled m tp) q /\ row = map to32 q) path rows.
Proof.
  intros X P F. destruct (all_served ypr fuel n path F) as (N & K). exists N. intros m Hm pq.
  destruct (kuka_plan_complete prim to32 a1 a2 d4 d6 Hne k Hk scene (pt_samples ypr fuel n) (map (resampled m) path) ow X Hs Hc) with (pq := pq) as (rows & E & R & _); [destruct path; [congruence|discriminate]|apply K; auto|].
  exists rows. split; auto. clear - R. revert rows R. induction path as [|tp path IH]; intros rows R; inversion R; subst; constructor; auto.
Qed.
Lemma resolution_dijkstra ypr fuel n path ow : exact_prim prim -> path <> [] -> Forall (fun tp => pt_ok n tp /\ gridded tp /\ exists q, serves tp q) path ->
  exists N, forall m, (N <= m)%Z -> forall pq, pq_ok pq -> exists rows, let cost := walk_cost (K := RCost) (jcost (K := RCost) rsq (eff_weights 1 6 ow)) in let samples := pt_samples ypr fuel n in
  snd (kuka_plan prim to32 (K := RCost) rsq pq samples scene (map (resampled m) path) "dijkstra" ow k) = Ok (GspOk rows (cost rows)) /\
  Forall2 (fun tp row => exists q, candidate prim k scene samples (resampled m tp) q /\ row = map to32 q) path rows.
Proof.
  intros X P F. destruct (all_served ypr fuel n path F) as (N & K). exists N. intros m Hm pq Hq.
  destruct (kuka_plan_complete_dijkstra prim to32 a1 a2 d4 d6 Hne k Hk scene (pt_samples ypr fuel n) (map (resampled m) path) ow X Hs Hc) with (pq := pq) as (rows & E & R); [destruct path; [congruence|discriminate]|apply K; auto|auto|].
  exists rows. split; auto. clear - R. revert rows R. induction path as [|tp path IH]; intros rows R; inversion R; subst; constructor; auto.
Qed.
(** ** Cost *)
Lemma all_candidates ypr fuel n e path qs : exact_prim prim -> 0 < e -> Forall2 (fun tp q => pt_ok n tp /\ gridded tp /\ serves tp q /\ interior q) path qs ->
  exists N, forall m, (N <= m)%Z -> exists ps, Forall2 (joints_within e) qs ps /\ Forall2 (candidate prim k scene (pt_samples ypr fuel n)) (map (resampled m) path) ps.
Proof.
  intros X He. induction 1 as [|tp q path qs (O & G & S & I) _ (N & IH)]; [exists 0%Z; intros; exists []; split; constructor|].
  destruct (served_candidate ypr fuel n tp q e X O G S I He) as (N' & K). exists (Z.max N N'). intros m Hm. destruct (K m ltac:(lia)) as (p & P1 & P2). destruct (IH m ltac:(lia)) as (ps & Q1 & Q2). exists (p :: ps). split; constructor; auto.
Qed.
Lemma near_optimal ypr fuel n e path qs ow : exact_prim prim -> path <> [] -> 0 < e -> Forall2 (fun tp q => pt_ok n tp /\ gridded tp /\ serves tp q /\ interior q) path qs ->
  exists N, forall m, (N <= m)%Z -> forall pq, exists rows ps, let cost := walk_cost (K := RCost) (jcost (K := RCost) rsq (eff_weights 1 6 ow)) in
  snd (kuka_plan prim to32 (K := RCost) rsq pq (pt_samples ypr fuel n) scene (map (resampled m) path) "bfs" ow k) = Ok (GspOk rows (cost rows)) /\
  Forall2 (joints_within e) qs ps /\ cle (cost rows) (cost (map (map to32) ps)).
Proof.
  intros X P He F. destruct (all_candidates ypr fuel n e path qs X He F) as (N & K).
  assert (F' : Forall (fun tp => pt_ok n tp /\ gridded tp /\ exists q, serves tp q) path) by (clear - F; induction F as [|tp q path qs (O & G & S & I) F IH]; constructor; eauto).
  destruct (all_served ypr fuel n path F') as (N' & K'). exists (Z.max N N'). intros m Hm pq. destruct (K m ltac:(lia)) as (ps & P1 & P2).
  destruct (kuka_plan_complete prim to32 a1 a2 d4 d6 Hne k Hk scene (pt_samples ypr fuel n) (map (resampled m) path) ow X Hs Hc) with (pq := pq) as (rows & E & R & Opt); [destruct path; [congruence|discriminate]|apply K'; lia|].
  exists rows, ps. split; auto. split; auto. apply Opt. clear - P2. induction P2; constructor; eauto.
Qed.
End Plan.
(** as cheap as wanted, for a fine enough rounding *)
Lemma near_optimal_cost prim a1 a2 d4 d6 k scene ypr fuel n path qs ow e : a2 * d4 <> 0 -> kuka_ok a1 a2 d4 d6 k -> solid (k_rob k) -> rigid_coll scene -> exact_prim prim -> path <> [] -> 0 < e ->
  Forall2 (fun tp q => pt_ok n tp /\ gridded tp /\ serves a1 a2 d4 k scene tp q /\ interior q) path qs ->
  let cost := walk_cost (K := RCost) (jcost (K := RCost) rsq (eff_weights 1 6 ow)) in
  exists r, 0 < r /\ forall to32, (forall x, Rabs x <= 5 -> Rabs (to32 x - x) <= r) ->
  exists N, forall m, (N <= m)%Z -> forall pq, exists rows c c0,
  snd (kuka_plan prim to32 (K := RCost) rsq pq (pt_samples ypr fuel n) scene (map (resampled m) path) "bfs" ow k) = Ok (@GspOk RCost R rows (Some c)) /\
  cost qs = Some c0 /\ c < c0 + e.
Proof.
  intros Hne Hk Hs Hc X P He F cost. destruct (walk_near (eff_weights 1 6 ow) qs e He) as (d & Hd & K). exists (Rmin (d / 2) 1). split; [apply Rmin_glb_lt; lra|]. intros to32 H32.
  assert (Hd' : 0 < Rmin (d / 2) (1 / 10)) by (apply Rmin_glb_lt; lra).
  destruct (near_optimal prim to32 a1 a2 d4 d6 Hne k Hk scene Hs Hc ypr fuel n (Rmin (d / 2) (1 / 10)) path qs ow X P Hd' F) as (N & Q). exists N. intros m Hm pq. destruct (Q m Hm pq) as (rows & ps & E & Np & Le). cbv zeta in *. fold cost in E, Le.
  assert (Nr : Forall2 (joints_within d) qs (map (map to32) ps)).
  { assert (B : Forall (fun q => Forall (fun x => Rabs x <= 4.8) q) qs).
    { clear - F. induction F as [|tp q path qs (_ & _ & _ & I) _ IH]; constructor; auto. destruct q as [|q1 [|q2 [|q3 [|q4 [|q5 [|q6 [|? ?]]]]]]]; try contradiction. cbn [interior] in I.
      pose proof PI_high. pose proof PI_RGT_0. repeat apply Forall_cons; try apply Forall_nil; apply Rabs_le; lra. }
    clear - B Np H32 Hd. revert ps Np. induction B as [|q qs B _ IH]; intros ps Np; inversion Np as [|? p ? ps' N1 N2]; subst; cbn [map]; constructor; auto.
    clear - B N1 H32 Hd. unfold joints_within in *. revert p N1. induction B as [|x q B _ IH]; intros p N1; inversion N1 as [|? y ? p' M1 M2]; subst; cbn [map]; constructor; auto.
    assert (M3 : Rabs (y - x) < d / 2) by (eapply Rlt_le_trans; [exact M1|apply Rmin_l]). assert (M4 : Rabs (y - x) < 1 / 10) by (eapply Rlt_le_trans; [exact M1|apply Rmin_r]).
    assert (M5 : Rabs y <= 5) by (replace y with ((y - x) + x) by ring; eapply Rle_trans; [apply Rabs_triang|lra]).
    pose proof (Rle_trans _ _ _ (H32 y M5) (Rmin_l _ _)) as M6. replace (to32 y - x) with ((to32 y - y) + (y - x)) by ring. eapply Rle_lt_trans; [apply Rabs_triang|lra]. }
  destruct (K _ Nr) as (c0 & c' & E0 & E1 & Dc). fold cost in E0, E1. rewrite E1 in Le.
  destruct (cost rows) as [c|] eqn:Ec; [|discriminate Le]. exists rows, c, c0. split; auto. split; auto. apply rltb_false in Le. apply Rabs_def2 in Dc. lra.
Qed.
