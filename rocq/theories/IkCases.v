(** * Concrete cases for the property theorems of PropIk.v. *)
From Coq Require Import Reals Lra List Bool Arith Lia.
From Verif Require Import PyBase Mat Util UtilProofs Geometry Robot RobotProofs RobotForms Ik IkProofs KukaProofs RailProofs.
Import ListNotations.
Local Open Scope R_scope.

Lemma anthro_case : exists sols q, anthro_ik (AnthropomorphicArm 1 1) (M4 mid (V3 1 0 1) v0 1) = Ok (IkOk sols) /\ In q sols.
Proof.
  assert (L : like (AnthropomorphicArm 1 1) (AnthropomorphicArm 1 1)) by apply like_refl, Anthro_good.
  destruct (anthro_returns 1 1 ltac:(lra) _ L (M4 mid (V3 1 0 1) v0 1)) as [(_ & sols & E & N)|(C & _)].
  - destruct sols as [|q sols]; [discriminate|]. exists (q :: sols), q. split; [exact E|left; reflexivity].
  - exfalso. revert C. cbn [pos]. replace ((norm2 (V3 1 0 1) - 1 ^ 2 - 1 ^ 2) / (2 * 1 * 1)) with 0 by (unfold norm2, vdot; cbn [vx vy vz]; field). rewrite Rabs_R0. unfold tol. lra.
Qed.

Lemma far_branch q1 r z : 9 <= r ^ 2 -> branch 1 1 q1 r z = [].
Proof.
  intros H. unfold branch. assert (E : elbow (elbow_cos 1 1 r z) = None); [|rewrite E; reflexivity].
  apply elbow_None. unfold elbow_cos, tol. pose proof (pow2_ge_0 z). rewrite Rabs_pos_eq by lra. lra.
Qed.
Lemma arm2_case : arm2_ik (Arm2 1 1 1) (M4 mid (V3 10 0 0) v0 1) = Ok IkFail /\
  exists F, snd (fk (Arm2 1 1 1) [0; 0; PI / 2]) = Ok F /\ 0 < vx (pos F) ^ 2 + vy (pos F) ^ 2 /\ Rabs (cos (PI / 2)) <= 1 - tol.
Proof.
  split.
  - rewrite (arm2_ik_result 1 1 1) by (try lra; apply like_refl, Arm2_good). unfold arm_result, arm_sols. cbn [pos vx vy vz].
    assert (E : lxy (V3 10 0 0) = 10) by (unfold lxy; cbn [vx vy]; replace (10 ^ 2 + 0 ^ 2) with (10 * 10) by ring; apply sqrt_square; lra). rewrite E.
    rewrite (far_branch _ (10 - 1) 0 ltac:(lra)), (far_branch _ (- (10) - 1) 0 ltac:(lra)). reflexivity.
  - destruct (arm2_fk_pos 1 1 1 0 0 (PI / 2)) as (F & E & P). exists F. split; [exact E|]. rewrite P. unfold arm_pos, reach_r. cbn [vx vy]. rewrite ?Rplus_0_l, sin_0, cos_0, cos_PI2, Rabs_R0. unfold tol. split; lra.
Qed.

Lemma kuka_case : let k := new_kuka 0.18 0.6 0.62 0.115 in
  kuka_ok 0.18 0.6 0.62 0.115 k /\ exists T sols q, snd (kuka_ik k T) = Ok (IkOk (Own sols)) /\ In q sols.
Proof.
  intros k. assert (K : kuka_ok 0.18 0.6 0.62 0.115 k) by apply new_kuka_ok. split; [exact K|].
  destruct (snd (fk (k_rob k) [0; 0; 0; 0; PI / 2; 0])) as [T| |] eqn:E.
  2,3: exfalso; rewrite (kuka_fk_mount 0.18 0.6 0.62 0.115) in E by apply K; discriminate.
  destruct (kuka_finds_all 0.18 0.6 0.62 0.115 ltac:(lra) k 0 0 0 0 (PI / 2) 0 T K) as (sols & s & A & B & _); auto.
  - apply rigid_eye.
  - exact I.
  - apply sqrt_lt_R0. unfold kuka_centre. cbn [vx vy]. rewrite Rplus_0_l, sin_0, cos_0. lra.
  - rewrite sin_0, Rabs_R0. unfold tol. lra.
  - rewrite sin_PI2. lra.
  - exists T, sols, s. auto.
Qed.
Lemma rail_case : let rl := new_rail 0.18 0.6 0.62 0.115 in
  rail_ok 0.18 0.6 0.62 0.115 rl /\ rigid (r_tfb (rl_rob rl)) /\ rigid_tool (rl_rob rl) /\
  exists T sols q, snd (fk (rl_rob rl) [1; 0; 0; 0; 0; PI / 2; 0]) = Ok T /\ snd (rail_ik rl T 1) = Ok (IkOk (Own sols)) /\ In q sols.
Proof.
  intros rl. assert (K : rail_ok 0.18 0.6 0.62 0.115 rl) by apply new_rail_ok. split; [exact K|]. split; [apply rigid_eye|]. split; [exact I|].
  destruct (snd (fk (rl_rob rl) [1; 0; 0; 0; 0; PI / 2; 0])) as [T| |] eqn:E.
  2,3: exfalso; rewrite (rail_fk_mount 0.18 0.6 0.62 0.115) in E by apply K; discriminate.
  destruct (rail_finds_all rl 1 0 0 0 0 (PI / 2) 0 T K) as (sols & s & A & B & _); auto.
  - apply rigid_eye.
  - exact I.
  - apply sqrt_lt_R0. unfold kuka_centre. cbn [vx vy]. rewrite Rplus_0_l, sin_0, cos_0. lra.
  - rewrite sin_0, Rabs_R0. unfold tol. lra.
  - rewrite sin_PI2. lra.
  - exists T, sols, (1 :: s). auto.
Qed.
