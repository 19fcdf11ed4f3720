(** * Inverse kinematics of the Kuka is continuous away from the singularities (C142). *)
From Coq Require Import Reals Lra Lia List Bool Arith.
From Verif Require Import PyBase Mat Util UtilProofs Geometry Robot RobotProofs RobotForms Ik IkProofs KukaProofs.
Import ListNotations.
Local Open Scope R_scope.

(** ** Limits at a point of any space: [near d x], x is less than d away from it *)
Section Near.
Context {X : Type} (near : R -> X -> Prop).
Definition ev (P : X -> Prop) : Prop := exists d, 0 < d /\ forall x, near d x -> P x.
Definition tends (f : X -> R) (l : R) : Prop := forall e, 0 < e -> ev (fun x => Rabs (f x - l) < e).
Context (mono : forall d d' x, d <= d' -> near d x -> near d' x).
Lemma ev_all (P : X -> Prop) : (forall x, P x) -> ev P.
Proof. intros H. exists 1. split; [lra|auto]. Qed.
Lemma ev_and (P Q : X -> Prop) : ev P -> ev Q -> ev (fun x => P x /\ Q x).
Proof.
  intros (d & Hd & HP) (e & He & HQ). exists (Rmin d e). split; [apply Rmin_glb_lt; auto|]. intros x N. split; [apply HP|apply HQ]; (eapply mono; [|exact N]); [apply Rmin_l|apply Rmin_r].
Qed.
Lemma ev_imp (P Q : X -> Prop) : (forall x, P x -> Q x) -> ev P -> ev Q.
Proof. intros H (d & Hd & HP). exists d. auto. Qed.
Lemma ev_list {A} (P : A -> X -> Prop) l : (forall a, In a l -> ev (P a)) -> ev (fun x => forall a, In a l -> P a x).
Proof.
  induction l as [|a l IH]; intros H; [apply ev_all; intros x a []|].
  eapply ev_imp; [|apply ev_and; [apply (H a); left; auto|apply IH; intros b I; apply H; right; auto]]. intros x [H1 H2] b [<-|I]; auto.
Qed.
Lemma tends_const c : tends (fun _ => c) c.
Proof. intros e He. apply ev_all. intros x. rewrite Rminus_eq_0, Rabs_R0. exact He. Qed.
Lemma tends_ext f g l l' : tends f l -> (forall x, f x = g x) -> l = l' -> tends g l'.
Proof. intros H E <- e He. eapply ev_imp; [|apply (H e He)]. intros x. cbv beta. rewrite E. auto. Qed.
Lemma tends_plus f g a b : tends f a -> tends g b -> tends (fun x => f x + g x) (a + b).
Proof.
  intros F G e He. eapply ev_imp; [|apply ev_and; [apply (F (e / 2)); lra|apply (G (e / 2)); lra]]. intros x [H1 H2]. cbv beta.
  replace (f x + g x - (a + b)) with ((f x - a) + (g x - b)) by ring. eapply Rle_lt_trans; [apply Rabs_triang|lra].
Qed.
Lemma tends_comp f a g : tends f a -> continuity_pt g a -> tends (fun x => g (f x)) (g a).
Proof.
  intros F G e He. destruct (G e He) as (d & Hd & H). eapply ev_imp; [|apply (F d Hd)]. intros x Hx. cbv beta.
  destruct (Req_dec (f x) a) as [->|N]; [rewrite Rminus_eq_0, Rabs_R0; exact He|]. apply H. split; [split; [exact I|auto]|]. exact Hx.
Qed.
Lemma tends_opp f a : tends f a -> tends (fun x => - f x) (- a).
Proof. intros F. apply (tends_comp f a Ropp F). apply continuity_pt_opp, derivable_continuous_pt, derivable_pt_id. Qed.
Lemma tends_minus f g a b : tends f a -> tends g b -> tends (fun x => f x - g x) (a - b).
Proof. intros F G. apply tends_plus; auto. apply tends_opp. auto. Qed.
Lemma tends_mult f g a b : tends f a -> tends g b -> tends (fun x => f x * g x) (a * b).
Proof.
  intros F G e He. set (m := 1 + Rabs a + Rabs b). assert (M : 1 <= m) by (unfold m; pose proof (Rabs_pos a); pose proof (Rabs_pos b); lra).
  assert (Hm : 0 < Rmin 1 (e / (2 * m))) by (apply Rmin_glb_lt; [lra|apply Rdiv_lt_0_compat; lra]).
  eapply ev_imp; [|apply ev_and; [apply (F _ Hm)|apply (G _ Hm)]]. intros x [H1 H2]. cbv beta.
  pose proof (Rmin_l 1 (e / (2 * m))). pose proof (Rmin_r 1 (e / (2 * m))) as Hr. set (t := Rmin 1 (e / (2 * m))) in *.
  replace (f x * g x - a * b) with ((f x - a) * g x + a * (g x - b)) by ring. eapply Rle_lt_trans; [apply Rabs_triang|]. rewrite !Rabs_mult.
  assert (Hg : Rabs (g x) <= 1 + Rabs b). { replace (g x) with ((g x - b) + b) by ring. eapply Rle_trans; [apply Rabs_triang|lra]. }
  assert (A1 : Rabs (f x - a) * Rabs (g x) <= t * (1 + Rabs b)) by (apply Rmult_le_compat; try apply Rabs_pos; lra).
  assert (A2 : Rabs a * Rabs (g x - b) <= Rabs a * t) by (apply Rmult_le_compat_l; [apply Rabs_pos|lra]).
  assert (A3 : t * m <= e / 2) by (apply (Rmult_le_compat_r m) in Hr; [|lra]; replace (e / (2 * m) * m) with (e / 2) in Hr by (field; lra); exact Hr).
  unfold m in A3. lra.
Qed.
Lemma tends_scale c f a : tends f a -> tends (fun x => c * f x) (c * a).
Proof. intros F. apply tends_mult; auto. apply tends_const. Qed.
Lemma tends_inv f a : a <> 0 -> tends f a -> tends (fun x => / f x) (/ a).
Proof. intros N F. apply (tends_comp f a Rinv F). apply continuity_pt_inv; [apply derivable_continuous_pt, derivable_pt_id|exact N]. Qed.
Lemma tends_div f g a b : b <> 0 -> tends f a -> tends g b -> tends (fun x => f x / g x) (a / b).
Proof. intros N F G. apply tends_mult; auto. apply tends_inv; auto. Qed.
Lemma tends_sqrt f a : 0 <= a -> tends f a -> tends (fun x => sqrt (f x)) (sqrt a).
Proof. intros N F. apply (tends_comp f a sqrt F). apply continuity_pt_sqrt. auto. Qed.
Lemma tends_cos f a : tends f a -> tends (fun x => cos (f x)) (cos a).
Proof. intros F. apply (tends_comp f a cos F). apply continuity_cos. Qed.
Lemma tends_sin f a : tends f a -> tends (fun x => sin (f x)) (sin a).
Proof. intros F. apply (tends_comp f a sin F). apply continuity_sin. Qed.
Lemma tends_atan f a : tends f a -> tends (fun x => atan (f x)) (atan a).
Proof. intros F. apply (tends_comp f a atan F). apply derivable_continuous_pt, derivable_pt_atan. Qed.
Lemma tends_asin f a : -1 < a < 1 -> tends f a -> tends (fun x => asin (f x)) (asin a).
Proof. intros N F. apply (tends_comp f a asin F). apply derivable_continuous_pt, derivable_pt_asin. exact N. Qed.
Lemma tends_gt f a c : c < a -> tends f a -> ev (fun x => c < f x).
Proof. intros H F. eapply ev_imp; [|apply (F (a - c)); lra]. intros x Hx. cbv beta in *. apply Rabs_def2 in Hx. lra. Qed.
Lemma tends_lt f a c : a < c -> tends f a -> ev (fun x => f x < c).
Proof. intros H F. eapply ev_imp; [|apply (F (c - a)); lra]. intros x Hx. cbv beta in *. apply Rabs_def2 in Hx. lra. Qed.
End Near.

(** ** The angle of a vector, near t *)
Definition ang (t x y : R) : R := t + atan ((cos t * y - sin t * x) / (cos t * x + sin t * y)).
Lemma ang_spec t x y : 0 < cos t * x + sin t * y -> x = sqrt (x ^ 2 + y ^ 2) * cos (ang t x y) /\ y = sqrt (x ^ 2 + y ^ 2) * sin (ang t x y).
Proof.
  intros U. pose proof (sin2_cos2 t) as P. unfold Rsqr in P. unfold ang. set (u := cos t * x + sin t * y) in *. set (v := cos t * y - sin t * x).
  assert (N : x ^ 2 + y ^ 2 = u ^ 2 * (1 + (v / u) ^ 2)).
  { replace (u ^ 2 * (1 + (v / u) ^ 2)) with (u ^ 2 + v ^ 2) by (field; lra). unfold u, v.
    replace ((cos t * x + sin t * y) ^ 2 + (cos t * y - sin t * x) ^ 2) with ((sin t * sin t + cos t * cos t) * (x ^ 2 + y ^ 2)) by ring. rewrite P. ring. }
  assert (Q : 0 < 1 + (v / u) ^ 2) by (pose proof (pow2_ge_0 (v / u)); lra). assert (S : 0 < sqrt (1 + (v / u) ^ 2)) by (apply sqrt_lt_R0; auto).
  assert (E : sqrt (x ^ 2 + y ^ 2) = u * sqrt (1 + (v / u) ^ 2)) by (rewrite N, sqrt_mult, sqrt_pow2 by (try apply pow2_ge_0; lra); reflexivity).
  rewrite E, cos_plus, sin_plus, cos_atan, sin_atan. unfold Rsqr. replace (v / u * (v / u)) with ((v / u) ^ 2) by ring. set (w := sqrt (1 + (v / u) ^ 2)) in *.
  assert (X : x = u * cos t - v * sin t). { unfold u, v. replace ((cos t * x + sin t * y) * cos t - (cos t * y - sin t * x) * sin t) with ((sin t * sin t + cos t * cos t) * x) by ring. rewrite P. ring. }
  assert (Y : y = u * sin t + v * cos t). { unfold u, v. replace ((cos t * x + sin t * y) * sin t + (cos t * y - sin t * x) * cos t) with ((sin t * sin t + cos t * cos t) * y) by ring. rewrite P. ring. }
  clearbody w. split; [transitivity (u * cos t - v * sin t); [exact X|field; split; lra]|transitivity (u * sin t + v * cos t); [exact Y|field; split; lra]].
Qed.
(** the sign of a number, as a number *)
Definition sg (x : R) : R := if Rlt_dec x 0 then -1 else 1.
Lemma sg_sq x : sg x * sg x = 1. Proof. unfold sg. destruct (Rlt_dec x 0); lra. Qed.
Lemma sg_abs x : sg x * sqrt (x ^ 2) = x.
Proof. rewrite <- Rsqr_pow2, sqrt_Rsqr_abs. unfold sg. destruct (Rlt_dec x 0); [rewrite Rabs_left by lra|rewrite Rabs_right by lra]; lra. Qed.
Lemma sg_pos x : x <> 0 -> 0 < sg x * x. Proof. unfold sg. destruct (Rlt_dec x 0); intros; lra. Qed.

Section Angles.
Context {X : Type} (near : R -> X -> Prop) (mono : forall d d' x, d <= d' -> near d x -> near d' x).
Lemma tends_ang t f g rho : 0 < rho -> tends near f (rho * cos t) -> tends near g (rho * sin t) ->
  tends near (fun x => ang t (f x) (g x)) t /\ ev near (fun x => 0 < cos t * f x + sin t * g x).
Proof.
  intros P F G. pose proof (sin2_cos2 t) as S. unfold Rsqr in S.
  assert (U : tends near (fun x => cos t * f x + sin t * g x) rho).
  { eapply tends_ext; [exact (tends_plus _ mono _ _ _ _ (tends_scale _ mono (cos t) _ _ F) (tends_scale _ mono (sin t) _ _ G))|reflexivity|].
    replace (cos t * (rho * cos t) + sin t * (rho * sin t)) with (rho * (sin t * sin t + cos t * cos t)) by ring. rewrite S. ring. }
  assert (V : tends near (fun x => cos t * g x - sin t * f x) 0).
  { eapply tends_ext; [exact (tends_minus _ mono _ _ _ _ (tends_scale _ mono (cos t) _ _ G) (tends_scale _ mono (sin t) _ _ F))|reflexivity|]. ring. }
  split; [|eapply tends_gt; eauto].
  unfold ang. eapply tends_ext; [apply (tends_plus _ mono); [apply (tends_const near t)|exact (tends_atan _ _ _ (tends_div _ mono _ _ 0 rho (Rgt_not_eq _ _ P) V U))]|reflexivity|].
  unfold Rdiv. rewrite Rmult_0_l, atan_0. ring.
Qed.
End Angles.

(** the angle of [f, g] seen from t, when [f, g] is s times rho (cos t, sin t) *)
Lemma sin_between x : cos x <> 0 -> -1 < sin x < 1.
Proof. intros H. pose proof (sin2_cos2 x) as S. unfold Rsqr in S. assert (0 < cos x * cos x) by (destruct (Rdichotomy _ _ H); nra). split; nra. Qed.
Lemma sin_near_asin x D : cos x <> 0 -> -1 < D < 1 -> sin (x + sg (cos x) * (asin D - asin (sin x))) = D.
Proof.
  intros N H. pose proof (sin_between x N) as B. pose proof (sin2_cos2 x) as S. unfold Rsqr in S.
  assert (C : cos x = sg (cos x) * cos (asin (sin x))).
  { rewrite cos_asin by lra. unfold Rsqr. replace (1 - sin x * sin x) with (cos x ^ 2) by (simpl; lra). symmetry. apply sg_abs. }
  set (s := sg (cos x)) in *. assert (Q : s * s = 1) by apply sg_sq. set (t := asin D - asin (sin x)).
  assert (E : sin (x + s * t) = sin (asin (sin x) + t)).
  { rewrite !sin_plus. rewrite (sin_asin (sin x)) by lra.
    assert (Cs : cos (s * t) = cos t /\ sin (s * t) = s * sin t).
    { unfold s, sg. destruct (Rlt_dec (cos x) 0).
      - replace (-1 * t) with (- t) by ring. rewrite cos_neg, sin_neg. split; ring.
      - rewrite !Rmult_1_l. auto. }
    destruct Cs as [-> ->]. rewrite C at 1. set (c := cos (asin (sin x))). replace (s * c * (s * sin t)) with (s * s * (c * sin t)) by ring. rewrite Q. ring. }
  rewrite E. unfold t. replace (asin (sin x) + (asin D - asin (sin x))) with (asin D) by ring. apply sin_asin. lra.
Qed.

Lemma vsub_back p v : vadd (vsub p v) v = p. Proof. vring. Qed.

Section Kuka.
Context (a1 a2 d4 d6 : R) (Pa2 : a2 <> 0) (Pd4 : d4 <> 0).
Context (q1 q2 q3 q4 q5 q6 : R).
Definition reach : R := a1 + a2 * cos q2 + d4 * sin (q2 + q3).
Context (Nr : reach <> 0) (N3 : cos q3 <> 0) (N5 : sin q5 <> 0).
Let X0 := kuka_form a1 a2 d4 d6 q1 q2 q3 q4 q5 q6.
(** the angles of a pose, near q1 .. q6 *)
Let cx (X : mat4) := vx (centre d6 X).
Let cy (X : mat4) := vy (centre d6 X).
Let cz (X : mat4) := vz (centre d6 X).
Let r' (X : mat4) := sg reach * sqrt (cx X ^ 2 + cy X ^ 2).
Definition lq1 (X : mat4) : R := ang q1 (sg reach * cx X) (sg reach * cy X).
Let rho (X : mat4) := r' X - a1.
Let D' (X : mat4) := (rho X ^ 2 + cz X ^ 2 - a2 ^ 2 - d4 ^ 2) / (2 * a2 * d4).
Definition lq3 (X : mat4) : R := q3 + sg (cos q3) * (asin (D' X) - asin (sin q3)).
Let A' (X : mat4) := a2 + d4 * sin (lq3 X).
Let B' (X : mat4) := - (d4 * cos (lq3 X)).
Definition lq2 (X : mat4) : R := ang q2 (rho X * A' X + cz X * B' X) (cz X * A' X - rho X * B' X).
Let W (X : mat4) := mmul (mtr (arm2_rot (lq1 X) (lq2 X + lq3 X))) (rot X).
Definition lq4 (X : mat4) : R := ang q4 (sg (sin q5) * m02 (W X)) (sg (sin q5) * m12 (W X)).
Definition lq5 (X : mat4) : R := ang q5 (m22 (W X)) (sg (sin q5) * sqrt (m02 (W X) ^ 2 + m12 (W X) ^ 2)).
Definition lq6 (X : mat4) : R := ang q6 (- (sg (sin q5) * m20 (W X))) (sg (sin q5) * m21 (W X)).

(** nearness of poses: every entry that matters is less than d away *)
Definition pose_near (d : R) (X : mat4) : Prop :=
  (Rabs (m00 (rot X) - m00 (rot X0)) < d /\ Rabs (m01 (rot X) - m01 (rot X0)) < d /\ Rabs (m02 (rot X) - m02 (rot X0)) < d) /\
  (Rabs (m10 (rot X) - m10 (rot X0)) < d /\ Rabs (m11 (rot X) - m11 (rot X0)) < d /\ Rabs (m12 (rot X) - m12 (rot X0)) < d) /\
  (Rabs (m20 (rot X) - m20 (rot X0)) < d /\ Rabs (m21 (rot X) - m21 (rot X0)) < d /\ Rabs (m22 (rot X) - m22 (rot X0)) < d) /\
  (Rabs (vx (pos X) - vx (pos X0)) < d /\ Rabs (vy (pos X) - vy (pos X0)) < d /\ Rabs (vz (pos X) - vz (pos X0)) < d).
Lemma pose_mono d d' X : d <= d' -> pose_near d X -> pose_near d' X.
Proof. intros H ((?&?&?)&(?&?&?)&(?&?&?)&(?&?&?)). repeat split; lra. Qed.
Notation "f --> l" := (tends pose_near f l) (at level 70).
Ltac entry := intros e He; exists e; split; [exact He|]; intros x ((?&?&?)&(?&?&?)&(?&?&?)&(?&?&?)); assumption.
Lemma t00 : (fun X => m00 (rot X)) --> m00 (rot X0). Proof. entry. Qed.
Lemma t01 : (fun X => m01 (rot X)) --> m01 (rot X0). Proof. entry. Qed.
Lemma t02 : (fun X => m02 (rot X)) --> m02 (rot X0). Proof. entry. Qed.
Lemma t10 : (fun X => m10 (rot X)) --> m10 (rot X0). Proof. entry. Qed.
Lemma t11 : (fun X => m11 (rot X)) --> m11 (rot X0). Proof. entry. Qed.
Lemma t12 : (fun X => m12 (rot X)) --> m12 (rot X0). Proof. entry. Qed.
Lemma t20 : (fun X => m20 (rot X)) --> m20 (rot X0). Proof. entry. Qed.
Lemma t21 : (fun X => m21 (rot X)) --> m21 (rot X0). Proof. entry. Qed.
Lemma t22 : (fun X => m22 (rot X)) --> m22 (rot X0). Proof. entry. Qed.
Lemma tpx : (fun X => vx (pos X)) --> vx (pos X0). Proof. entry. Qed.
Lemma tpy : (fun X => vy (pos X)) --> vy (pos X0). Proof. entry. Qed.
Lemma tpz : (fun X => vz (pos X)) --> vz (pos X0). Proof. entry. Qed.
Let mo := pose_mono.
Lemma tends_sq f l : f --> l -> (fun X => f X ^ 2) --> l ^ 2.
Proof. intros F. eapply tends_ext; [apply (tends_mult _ mo _ _ _ _ F F)|intros; cbn; ring|ring]. Qed.
Lemma scale c f l : f --> l -> (fun X => c * f X) --> c * l.
Proof. intros F. apply (tends_mult _ mo); auto. apply tends_const. Qed.
Lemma ctr : centre d6 X0 = kuka_centre a1 a2 d4 q1 q2 q3 /\ rot X0 = mmul (arm2_rot q1 (q2 + q3)) (zyz q4 q5 q6).
Proof. destruct (kuka_form_centre a1 a2 d4 d6 q1 q2 q3 q4 q5 q6) as (H1 & H2 & _). auto. Qed.
Lemma t_cx : cx --> reach * cos q1.
Proof.
  destruct ctr as [E _]. eapply tends_ext; [apply (tends_minus _ mo _ _ _ _ tpx (scale d6 _ _ t02))|reflexivity|].
  apply (f_equal vx) in E. unfold centre, kuka_centre in E. cbn [vx vsub] in E. unfold reach. rewrite <- (Rmult_comm (cos q1)). rewrite <- E. reflexivity.
Qed.
Lemma t_cy : cy --> reach * sin q1.
Proof.
  destruct ctr as [E _]. eapply tends_ext; [apply (tends_minus _ mo _ _ _ _ tpy (scale d6 _ _ t12))|reflexivity|].
  apply (f_equal vy) in E. unfold centre, kuka_centre in E. cbn [vy vsub] in E. unfold reach. rewrite <- (Rmult_comm (sin q1)). rewrite <- E. reflexivity.
Qed.
Lemma t_cz : cz --> a2 * sin q2 - d4 * cos (q2 + q3).
Proof.
  destruct ctr as [E _]. eapply tends_ext; [apply (tends_minus _ mo _ _ _ _ tpz (scale d6 _ _ t22))|reflexivity|].
  apply (f_equal vz) in E. unfold centre, kuka_centre in E. cbn [vz vsub] in E. rewrite <- E. reflexivity.
Qed.
Lemma t_lq1 : lq1 --> q1 /\ ev pose_near (fun X => 0 < cos q1 * (sg reach * cx X) + sin q1 * (sg reach * cy X)).
Proof.
  apply (tends_ang _ mo q1 _ _ (sg reach * reach)); [apply sg_pos, Nr| |].
  - eapply tends_ext; [apply (scale (sg reach) _ _ t_cx)|reflexivity|ring].
  - eapply tends_ext; [apply (scale (sg reach) _ _ t_cy)|reflexivity|ring].
Qed.
Lemma trig1 t : cos t * cos t = 1 - sin t * sin t.
Proof. pose proof (sin2_cos2 t) as S. unfold Rsqr in S. lra. Qed.
Lemma t_rho : rho --> a2 * cos q2 + d4 * sin (q2 + q3).
Proof.
  eapply tends_ext; [apply (tends_minus _ mo); [apply (scale (sg reach)), (fun H => tends_sqrt _ (fun X => cx X ^ 2 + cy X ^ 2) (reach ^ 2) (pow2_ge_0 _) H)|apply (tends_const _ a1)]|reflexivity|].
  - eapply tends_ext; [apply (tends_plus _ mo _ _ _ _ (tends_sq _ _ t_cx) (tends_sq _ _ t_cy))|reflexivity|].
    pose proof (trig1 q1) as S. replace ((reach * cos q1) ^ 2) with (reach ^ 2 * (cos q1 * cos q1)) by ring. rewrite S. ring.
  - rewrite sg_abs. unfold reach. ring.
Qed.
Lemma arm_id u v w : w = v - u -> (a2 * cos u + d4 * sin v) ^ 2 + (a2 * sin u - d4 * cos v) ^ 2 = a2 ^ 2 + d4 ^ 2 + 2 * a2 * d4 * sin w.
Proof.
  intros ->. rewrite sin_minus. pose proof (trig1 u) as U. pose proof (trig1 v) as V.
  transitivity (a2 ^ 2 * (cos u * cos u + sin u * sin u) + d4 ^ 2 * (cos v * cos v + sin v * sin v) + 2 * a2 * d4 * (sin v * cos u - cos v * sin u)); [ring|]. rewrite U, V. ring.
Qed.
Lemma nz2 : 2 * a2 * d4 <> 0.
Proof. intros E. apply Rmult_integral in E. destruct E as [E|E]; [|auto]. apply Rmult_integral in E. destruct E as [E|E]; [lra|auto]. Qed.
Lemma t_D : D' --> sin q3.
Proof.
  eapply tends_ext; [apply (tends_div _ mo); [apply nz2|apply (tends_minus _ mo); [apply (tends_minus _ mo); [apply (tends_plus _ mo _ _ _ _ (tends_sq _ _ t_rho) (tends_sq _ _ t_cz))|]|]|apply (tends_const _ (2 * a2 * d4))]|reflexivity|].
  - apply tends_const.
  - apply tends_const.
  - rewrite (arm_id q2 (q2 + q3) q3) by ring. field. auto.
Qed.
Lemma ev_D : ev pose_near (fun X => -1 < D' X < 1).
Proof.
  destruct (sin_between q3 N3) as [H1 H2]. apply (ev_and _ mo); [apply (tends_gt _ _ _ _ H1 t_D)|apply (tends_lt _ _ _ _ H2 t_D)].
Qed.
Lemma t_lq3 : lq3 --> q3.
Proof.
  eapply tends_ext; [apply (tends_plus _ mo); [apply (tends_const _ q3)|apply (scale (sg (cos q3))), (tends_minus _ mo); [apply (tends_asin _ _ _ (sin_between q3 N3) t_D)|apply (tends_const _ (asin (sin q3)))]]|reflexivity|ring].
Qed.
Lemma t_A : A' --> a2 + d4 * sin q3.
Proof. apply (tends_plus _ mo); [apply tends_const|]. apply scale, tends_sin, t_lq3. Qed.
Lemma t_B : B' --> - (d4 * cos q3).
Proof. apply tends_opp, scale, tends_cos, t_lq3. Qed.
Lemma arm_pos : 0 < a2 ^ 2 + d4 ^ 2 + 2 * a2 * d4 * sin q3.
Proof.
  replace (a2 ^ 2 + d4 ^ 2 + 2 * a2 * d4 * sin q3) with ((a2 + d4 * sin q3) ^ 2 + d4 ^ 2 * (1 - sin q3 * sin q3)) by ring. rewrite <- trig1.
  assert (0 < d4 ^ 2 * (cos q3 * cos q3)). { replace (d4 ^ 2 * (cos q3 * cos q3)) with ((d4 * cos q3) ^ 2) by ring. assert (d4 * cos q3 <> 0) by (intros E; apply Rmult_integral in E; tauto). pose proof (pow2_ge_0 (d4 * cos q3)). assert ((d4 * cos q3) ^ 2 <> 0) by (apply pow_nonzero; auto). lra. }
  pose proof (pow2_ge_0 (a2 + d4 * sin q3)). lra.
Qed.
Lemma t_lq2 : lq2 --> q2 /\ ev pose_near (fun X => 0 < cos q2 * (rho X * A' X + cz X * B' X) + sin q2 * (cz X * A' X - rho X * B' X)).
Proof.
  pose proof (trig1 q2) as S2. pose proof (trig1 q3) as S3.
  apply (tends_ang _ mo q2 _ _ (a2 ^ 2 + d4 ^ 2 + 2 * a2 * d4 * sin q3) arm_pos).
  - eapply tends_ext; [apply (tends_plus _ mo); apply (tends_mult _ mo); [apply t_rho|apply t_A|apply t_cz|apply t_B]|reflexivity|].
    rewrite sin_plus, cos_plus.
    transitivity (cos q2 * ((a2 + d4 * sin q3) ^ 2 + d4 ^ 2 * (cos q3 * cos q3))); [ring|]. rewrite S3. ring.
  - eapply tends_ext; [apply (tends_minus _ mo); apply (tends_mult _ mo); [apply t_cz|apply t_A|apply t_rho|apply t_B]|reflexivity|].
    rewrite sin_plus, cos_plus.
    transitivity (sin q2 * ((a2 + d4 * sin q3) ^ 2 + d4 ^ 2 * (cos q3 * cos q3))); [ring|]. rewrite S3. ring.
Qed.
(** the wrist's rotation *)
Lemma W0 : mmul (mtr (arm2_rot q1 (q2 + q3))) (rot X0) = zyz q4 q5 q6.
Proof. destruct ctr as [_ ->]. rewrite <- mmul_assoc, (rot_orth _ (arm2_rot_rotation _ _)). apply mmul_1_l. Qed.
Lemma t_23 : (fun X => lq2 X + lq3 X) --> q2 + q3.
Proof. apply (tends_plus _ mo); [apply t_lq2|apply t_lq3]. Qed.
Ltac tw := unfold W, mmul, mtr, arm2_rot; cbn [m00 m01 m02 m10 m11 m12 m20 m21 m22];
  repeat first [apply (tends_plus _ mo)|apply (tends_mult _ mo)|apply tends_opp|apply t00|apply t01|apply t02|apply t10|apply t11|apply t12|apply t20|apply t21|apply t22
    |apply tends_sin; first [apply t_23|apply t_lq1]|apply tends_cos; first [apply t_23|apply t_lq1]|apply tends_const].
Lemma tw02 : (fun X => m02 (W X)) --> cos q4 * sin q5.
Proof. eapply tends_ext; [|reflexivity|rewrite <- (proj1 (zyz_entries q4 q5 q6)), <- W0; reflexivity]. tw. Qed.
Lemma tw12 : (fun X => m12 (W X)) --> sin q4 * sin q5.
Proof. eapply tends_ext; [|reflexivity|rewrite <- (proj1 (proj2 (zyz_entries q4 q5 q6))), <- W0; reflexivity]. tw. Qed.
Lemma tw22 : (fun X => m22 (W X)) --> cos q5.
Proof. eapply tends_ext; [|reflexivity|rewrite <- (proj1 (proj2 (proj2 (zyz_entries q4 q5 q6)))), <- W0; reflexivity]. tw. Qed.
Lemma tw20 : (fun X => m20 (W X)) --> - sin q5 * cos q6.
Proof. eapply tends_ext; [|reflexivity|rewrite <- (proj1 (proj2 (proj2 (proj2 (zyz_entries q4 q5 q6))))), <- W0; reflexivity]. tw. Qed.
Lemma tw21 : (fun X => m21 (W X)) --> sin q5 * sin q6.
Proof. eapply tends_ext; [|reflexivity|rewrite <- (proj2 (proj2 (proj2 (proj2 (zyz_entries q4 q5 q6))))), <- W0; reflexivity]. tw. Qed.
Lemma t_lq4 : lq4 --> q4 /\ ev pose_near (fun X => 0 < cos q4 * (sg (sin q5) * m02 (W X)) + sin q4 * (sg (sin q5) * m12 (W X))).
Proof.
  apply (tends_ang _ mo q4 _ _ (sg (sin q5) * sin q5) (sg_pos _ N5)).
  - eapply tends_ext; [apply scale, tw02|reflexivity|ring].
  - eapply tends_ext; [apply scale, tw12|reflexivity|ring].
Qed.
Lemma t_lq6 : lq6 --> q6 /\ ev pose_near (fun X => 0 < cos q6 * (- (sg (sin q5) * m20 (W X))) + sin q6 * (sg (sin q5) * m21 (W X))).
Proof.
  apply (tends_ang _ mo q6 _ _ (sg (sin q5) * sin q5) (sg_pos _ N5)).
  - eapply tends_ext; [apply tends_opp, scale, tw20|reflexivity|ring].
  - eapply tends_ext; [apply scale, tw21|reflexivity|ring].
Qed.
Lemma t_lq5 : lq5 --> q5 /\ ev pose_near (fun X => 0 < cos q5 * m22 (W X) + sin q5 * (sg (sin q5) * sqrt (m02 (W X) ^ 2 + m12 (W X) ^ 2))).
Proof.
  apply (tends_ang _ mo q5 _ _ 1 Rlt_0_1).
  - eapply tends_ext; [apply tw22|reflexivity|ring].
  - eapply tends_ext; [apply scale, (fun H => tends_sqrt _ (fun X => m02 (W X) ^ 2 + m12 (W X) ^ 2) (sin q5 ^ 2) (pow2_ge_0 _) H)|reflexivity|rewrite sg_abs; ring].
    eapply tends_ext; [apply (tends_plus _ mo _ _ _ _ (tends_sq _ _ tw02) (tends_sq _ _ tw12))|reflexivity|].
    transitivity (sin q5 ^ 2 * (cos q4 * cos q4 + sin q4 * sin q4)); [ring|]. rewrite trig1. ring.
Qed.
(** ** near the pose of q1 .. q6 every pose has joint angles near q1 .. q6 *)
Lemma solved X : rigid X -> 0 < cos q1 * (sg reach * cx X) + sin q1 * (sg reach * cy X) -> -1 < D' X < 1 ->
  0 < cos q2 * (rho X * A' X + cz X * B' X) + sin q2 * (cz X * A' X - rho X * B' X) ->
  0 < cos q4 * (sg (sin q5) * m02 (W X)) + sin q4 * (sg (sin q5) * m12 (W X)) ->
  0 < cos q5 * m22 (W X) + sin q5 * (sg (sin q5) * sqrt (m02 (W X) ^ 2 + m12 (W X) ^ 2)) ->
  0 < cos q6 * (- (sg (sin q5) * m20 (W X))) + sin q6 * (sg (sin q5) * m21 (W X)) ->
  kuka_form a1 a2 d4 d6 (lq1 X) (lq2 X) (lq3 X) (lq4 X) (lq5 X) (lq6 X) = X.
Proof.
  intros HX P1 P3 P2 P4 P5 P6. pose proof (sg_sq reach) as SR. pose proof (sg_sq (sin q5)) as S5.
  destruct (ang_spec _ _ _ P1) as [E1x E1y]. destruct (ang_spec _ _ _ P2) as [E2x E2y]. destruct (ang_spec _ _ _ P4) as [E4x E4y].
  destruct (ang_spec _ _ _ P5) as [E5x E5y]. destruct (ang_spec _ _ _ P6) as [E6x E6y].
  fold (lq1 X) in E1x, E1y. fold (lq2 X) in E2x, E2y. fold (lq4 X) in E4x, E4y. fold (lq5 X) in E5x, E5y. fold (lq6 X) in E6x, E6y.
  assert (E3 : sin (lq3 X) = D' X) by (apply sin_near_asin; auto).
  (* the arm *)
  assert (R1 : cx X = r' X * cos (lq1 X) /\ cy X = r' X * sin (lq1 X)).
  { replace ((sg reach * cx X) ^ 2 + (sg reach * cy X) ^ 2) with (sg reach * sg reach * (cx X ^ 2 + cy X ^ 2)) in E1x, E1y by ring.
    rewrite SR, Rmult_1_l in E1x, E1y. unfold r'. split.
    - transitivity (sg reach * sg reach * cx X); [rewrite SR; ring|]. rewrite Rmult_assoc, E1x. ring.
    - transitivity (sg reach * sg reach * cy X); [rewrite SR; ring|]. rewrite Rmult_assoc, E1y. ring. }
  set (N := A' X ^ 2 + B' X ^ 2).
  assert (EN : N = rho X ^ 2 + cz X ^ 2).
  { transitivity (a2 ^ 2 + d4 ^ 2 + 2 * a2 * d4 * sin (lq3 X)).
    - unfold N, A', B'. pose proof (trig1 (lq3 X)) as S. transitivity ((a2 + d4 * sin (lq3 X)) ^ 2 + d4 ^ 2 * (cos (lq3 X) * cos (lq3 X))); [ring|]. rewrite S. ring.
    - rewrite E3. unfold D'. field. auto. }
  assert (EN2 : (rho X * A' X + cz X * B' X) ^ 2 + (cz X * A' X - rho X * B' X) ^ 2 = N ^ 2).
  { transitivity ((rho X ^ 2 + cz X ^ 2) * N); [unfold N; ring|]. rewrite <- EN. ring. }
  assert (PN0 : 0 <= N) by (unfold N; pose proof (pow2_ge_0 (A' X)); pose proof (pow2_ge_0 (B' X)); lra).
  rewrite EN2, sqrt_pow2 in E2x, E2y by exact PN0.
  assert (PN : 0 < N). { destruct (Req_dec N 0) as [Z|]; [|lra]. rewrite Z in E2x, E2y. rewrite Rmult_0_l in E2x, E2y. rewrite E2x, E2y in P2. lra. }
  assert (R2 : rho X = cos (lq2 X) * A' X - sin (lq2 X) * B' X /\ cz X = sin (lq2 X) * A' X + cos (lq2 X) * B' X).
  { split; apply (Rmult_eq_reg_l N); try lra.
    - transitivity (A' X * (rho X * A' X + cz X * B' X) - B' X * (cz X * A' X - rho X * B' X)); [unfold N; ring|]. rewrite E2x, E2y. ring.
    - transitivity (B' X * (rho X * A' X + cz X * B' X) + A' X * (cz X * A' X - rho X * B' X)); [unfold N; ring|]. rewrite E2x, E2y. ring. }
  assert (C : kuka_centre a1 a2 d4 (lq1 X) (lq2 X) (lq3 X) = centre d6 X).
  { destruct R1 as [R1x R1y], R2 as [R2x R2z].
    assert (Q : a1 + a2 * cos (lq2 X) + d4 * sin (lq2 X + lq3 X) = r' X). { rewrite sin_plus. unfold A', B' in R2x. unfold rho in R2x. lra. }
    unfold kuka_centre. rewrite Q. apply vec3_eq; cbn [vx vy vz].
    - fold (cx X). rewrite R1x. ring.
    - fold (cy X). rewrite R1y. ring.
    - fold (cz X). rewrite R2z, cos_plus. unfold A', B'. ring. }
  (* the wrist *)
  assert (RW : rotation (W X)) by (apply rotation_mmul; [apply rotation_tr, arm2_rot_rotation|apply HX]).
  assert (Z : zyz (lq4 X) (lq5 X) (lq6 X) = W X).
  { set (s := sg (sin q5)) in *. set (a := sqrt (m02 (W X) ^ 2 + m12 (W X) ^ 2)) in *.
    pose proof (rotation_col2 _ RW) as C2. pose proof (rotation_row2 _ RW) as R2'.
    assert (Ga : 0 <= m02 (W X) ^ 2 + m12 (W X) ^ 2) by (pose proof (pow2_ge_0 (m02 (W X))); pose proof (pow2_ge_0 (m12 (W X))); lra).
    assert (Qa : a ^ 2 = m02 (W X) ^ 2 + m12 (W X) ^ 2) by (apply pow2_sqrt; auto).
    assert (Na : a <> 0). { intros Za. assert (m02 (W X) ^ 2 + m12 (W X) ^ 2 = 0) by (rewrite <- Qa, Za; ring). pose proof (pow2_ge_0 (m02 (W X))). pose proof (pow2_ge_0 (m12 (W X))).
      assert (m02 (W X) = 0) by (apply Rsqr_0_uniq; rewrite Rsqr_pow2; lra). assert (m12 (W X) = 0) by (apply Rsqr_0_uniq; rewrite Rsqr_pow2; lra). rewrite H2, H3 in P4. lra. }
    replace ((s * m02 (W X)) ^ 2 + (s * m12 (W X)) ^ 2) with (s * s * (m02 (W X) ^ 2 + m12 (W X) ^ 2)) in E4x, E4y by ring. rewrite S5, Rmult_1_l in E4x, E4y. fold a in E4x, E4y.
    replace (m22 (W X) ^ 2 + (s * a) ^ 2) with (m22 (W X) ^ 2 + s * s * a ^ 2) in E5x, E5y by ring. rewrite S5, Rmult_1_l, Qa in E5x, E5y. replace (m22 (W X) ^ 2 + (m02 (W X) ^ 2 + m12 (W X) ^ 2)) with 1 in E5x, E5y by lra. rewrite sqrt_1, Rmult_1_l in E5x, E5y.
    replace ((- (s * m20 (W X))) ^ 2 + (s * m21 (W X)) ^ 2) with (s * s * (m20 (W X) ^ 2 + m21 (W X) ^ 2)) in E6x, E6y by ring. rewrite S5, Rmult_1_l in E6x, E6y. replace (m20 (W X) ^ 2 + m21 (W X) ^ 2) with (m02 (W X) ^ 2 + m12 (W X) ^ 2) in E6x, E6y by lra. fold a in E6x, E6y.
    destruct (zyz_entries (lq4 X) (lq5 X) (lq6 X)) as (Z02 & Z12 & Z22 & Z20 & Z21). cbv zeta in *.
    assert (Us : forall y, y = s * (s * y)) by (intros y; rewrite <- Rmult_assoc, S5; ring).
    assert (F02 : m02 (zyz (lq4 X) (lq5 X) (lq6 X)) = m02 (W X)) by (rewrite Z02, <- E5y, (Us (m02 (W X))), E4x; ring).
    assert (F12 : m12 (zyz (lq4 X) (lq5 X) (lq6 X)) = m12 (W X)) by (rewrite Z12, <- E5y, (Us (m12 (W X))), E4y; ring).
    apply rotation_determined; [apply zyz_rotation|exact RW| | | |].
    - unfold col2. apply vec3_eq; cbn [vx vy vz]; [exact F02|exact F12|rewrite Z22; auto].
    - rewrite Z20, <- E5y. apply (Rmult_eq_reg_l (- s)); [|lra || (intros K; assert (s = 0) by lra; rewrite H in S5; lra)].
      transitivity (a * cos (lq6 X)); [transitivity (s * s * (a * cos (lq6 X))); [ring|rewrite S5; ring]|]. rewrite <- E6x. ring.
    - rewrite Z21, <- E5y. rewrite (Us (m21 (W X))), E6y. ring.
    - rewrite F02, F12, <- Qa. assert (a ^ 2 <> 0) by (apply pow_nonzero; auto). pose proof (pow2_ge_0 a). lra. }
  assert (R : mmul (arm2_rot (lq1 X) (lq2 X + lq3 X)) (zyz (lq4 X) (lq5 X) (lq6 X)) = rot X).
  { rewrite Z. unfold W. rewrite <- mmul_assoc. pose proof (rot_orth _ (rotation_tr _ (arm2_rot_rotation (lq1 X) (lq2 X + lq3 X)))) as O. rewrite mtr_mtr in O. rewrite O. apply mmul_1_l. }
  unfold kuka_form. rewrite R, C. unfold centre. destruct HX as [_ Hb Hw]. destruct X as [rX pX bX wX]. cbn [rot pos brow bww] in *. subst. f_equal.
  apply vsub_back.
Qed.
Lemma local_ik e : 0 < e -> ev pose_near (fun X => rigid X -> exists p1 p2 p3 p4 p5 p6, kuka_form a1 a2 d4 d6 p1 p2 p3 p4 p5 p6 = X /\
  Forall2 (fun p q => Rabs (p - q) < e) [p1; p2; p3; p4; p5; p6] [q1; q2; q3; q4; q5; q6]).
Proof.
  intros He. destruct t_lq1 as [T1 P1], t_lq2 as [T2 P2], t_lq4 as [T4 P4], t_lq5 as [T5 P5], t_lq6 as [T6 P6].
  pose proof (ev_and _ mo _ _ P1 (ev_and _ mo _ _ ev_D (ev_and _ mo _ _ P2 (ev_and _ mo _ _ P4 (ev_and _ mo _ _ P5 P6))))) as P.
  pose proof (ev_and _ mo _ _ (T1 e He) (ev_and _ mo _ _ (T2 e He) (ev_and _ mo _ _ (t_lq3 e He) (ev_and _ mo _ _ (T4 e He) (ev_and _ mo _ _ (T5 e He) (T6 e He)))))) as T.
  eapply ev_imp; [|exact (ev_and _ mo _ _ P T)]. intros X ((K1 & K3 & K2 & K4 & K5 & K6) & (J1 & J2 & J3 & J4 & J5 & J6)) HX. 
  exists (lq1 X), (lq2 X), (lq3 X), (lq4 X), (lq5 X), (lq6 X). split; [apply solved; auto|]. repeat apply Forall2_cons; auto.
Qed.
End Kuka.
