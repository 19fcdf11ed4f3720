(** * The Kuka with its hand straight down over the line of the examples. *)
From Coq Require Import Reals Lra Psatz Lia List Bool Arith.
From Verif Require Import PyBase Mat Util UtilProofs Geometry GeometryProofs Robot RobotProofs RobotForms Ik IkProofs KukaProofs RailProofs Path PathProofs Resources ResourcesProofs TaskProofs Pipeline PipelineProofs Extents Mount PipelineExamples Resolution OptScriptProofs Scripts.
Import ListNotations.
Local Open Scope R_scope.
Local Notation kuka6 := (KukaG 0.18 0.6 0.62 0.115).

Lemma frame5_turned q1 q2 q3 q5 q6 : frame kuka6 [q1; q2; q3; 0; q5; q6] 5 =
  M4 (mmul (arm2_rot q1 (q2 + q3 + q5)) (rot_z q6)) (vadd (kuka_centre 0.18 0.6 0.62 q1 q2 q3) (vscale 0.115 (col2 (arm2_rot q1 (q2 + q3 + q5))))) v0 1.
Proof.
  destruct (planar_frames q1 q2 q3 q5) as (_ & _ & _ & _ & F4 & _). cbv zeta in F4.
  assert (E : frame kuka6 [q1; q2; q3; 0; q5; q6] 5 = tmul (frame kuka6 [q1; q2; q3; 0; q5; 0] 4) (dhm 0 0 0.115 q6)).
  { unfold frame. geoms. cbn [combine firstn fold_left fst snd r_tfb]. unfold lspec. geoms. cbn [l_jt l_dh da dalpha dd]. reflexivity. }
  rewrite E, F4, dhm_dhx, dhx_0, tmulb. unfold rot_z. generalize (arm2_rot q1 (q2 + q3 + q5)) (kuka_centre 0.18 0.6 0.62 q1 q2 q3). intros. vring.
Qed.
Lemma frames_first q1 q2 q3 q5 q6 i : (i < 5)%nat -> frame kuka6 [q1; q2; q3; 0; q5; q6] i = frame kuka6 [q1; q2; q3; 0; q5; 0] i.
Proof. intros H. destruct i as [|[|[|[|[|i]]]]]; [reflexivity..|lia]. Qed.

Section Down.
Context (q1 q2 f q6 : R) (H1 : Rabs (sin q1) <= 0.25) (H2 : 0 <= cos q2 <= 0.3) (H2' : 0 <= sin q2) (Hf : 0 <= cos f) (Hl : 0.8 <= 0.18 + 0.6 * cos q2 + 0.62 * sin f) (Hz : 0.6 * sin q2 - 0.62 * cos f = 0.315).
Notation q := [q1; q2; f - q2; 0; - f; q6].
(** the coordinate along the arm *)
Definition along (x : vec3) : R := cos q1 * vx x + sin q1 * vy x.
(** the coordinate along the forearm *)
Definition fore (x : vec3) : R := sin f * (along x - (0.18 + 0.6 * cos q2)) - cos f * (vz x - 0.6 * sin q2).
Lemma down_bounds i l x : nth_error (r_links kuka6) i = Some l -> in_coll (l_geom l) (Some (frame kuka6 q i)) x ->
  match i with
  | 0%nat => vx x <= 0.5 /\ vz x <= 0.1
  | 1%nat => vx x <= 0.549 /\ along x <= 0.49
  | 2%nat => 0.2 <= vz x /\ fore x <= 0.42
  | 3%nat => 0.2 <= vz x
  | _ => 0.2 <= vz x <= 0.315 /\ 0.7 <= along x /\ 0.5 <= fore x
  end.
Proof.
  intros El Hi. assert (Li : (i < 6)%nat) by (change 6%nat with (length (r_links kuka6)); apply nth_error_Some; congruence).
  destruct (planar_frames q1 q2 (f - q2) (- f)) as (F0 & F1 & F2 & F3 & F4 & _). cbv zeta in F0, F1, F2, F3, F4.
  pose proof (frame5_turned q1 q2 (f - q2) (- f) q6) as F5.
  replace (q2 + (f - q2)) with f in * by ring. replace (f + - f) with 0 in * by ring.
  pose proof (COS_bound q1) as C1. pose proof H1 as S1. apply Rabs_le_inv in S1. pose proof (SIN_bound q2) as S2. pose proof (SIN_bound f) as Sf. pose proof (COS_bound f) as Cf.
  pose proof (sin2_cos2 q1) as U1. pose proof (sin2_cos2 f) as Uf. pose proof (sin2_cos2 q6) as U6. unfold Rsqr in U1, Uf, U6.
  assert (CC : kuka_centre 0.18 0.6 0.62 q1 q2 (f - q2) = V3 (cos q1 * (0.18 + 0.6 * cos q2 + 0.62 * sin f)) (sin q1 * (0.18 + 0.6 * cos q2 + 0.62 * sin f)) 0.315).
  { unfold kuka_centre. replace (q2 + (f - q2)) with f by ring. rewrite Hz. reflexivity. }
  destruct Hi as (s & tf & Hm & Bx).
  assert (RF : rigid (frame kuka6 q i)) by apply rigid6.
  destruct i as [|[|[|[|[|[|i]]]]]]; [..|lia]; cbn in El; injection El as <-; cbn [l_geom] in Hm;
    (destruct Hm as ([|[|k]] & M1 & M2); [|cbn in M1; discriminate M1|cbn in M1; discriminate M1]); injection M1 as <-; injection M2 as <-;
    (apply box_local in Bx; [|exact RF]); destruct Bx as ([mx my mz] & -> & B1 & B2 & B3); cbn [vx vy vz dx dy dz] in B1, B2, B3; apply Rabs_le_inv in B1; apply Rabs_le_inv in B2; apply Rabs_le_inv in B3; clear RF.
  - rewrite frames_first, F0 by lia. unfold up_frame. rewrite cos_0, sin_0. munf. split; nra.
  - rewrite frames_first, F1 by lia. unfold up_frame, along. munf.
    assert (W1 : (0.6 + mx) * cos q2 <= 0.21) by nra. assert (W1' : -0.03 <= (0.6 + mx) * cos q2) by nra. assert (W2 : -0.1 <= my * sin q2 <= 0.1) by nra. assert (W3 : sin q1 * mz <= 0.025) by nra.
    set (w := 0.18 + (0.6 + mx) * cos q2 - my * sin q2). assert (W : -0.49 <= w <= 0.49) by (unfold w; lra). assert (W4 : cos q1 * w <= 0.49) by nra.
    split.
    + replace (cos q1 * cos q2 * mx + - (cos q1 * sin q2) * my + sin q1 * mz + cos q1 * (0.18 + 0.6 * cos q2)) with (cos q1 * w + sin q1 * mz) by (unfold w; ring). lra.
    + match goal with |- ?a <= _ => replace a with ((sin q1 * sin q1 + cos q1 * cos q1) * w) by (unfold w; ring) end. rewrite U1. lra.
  - rewrite frames_first, F2 by lia. unfold arm2_rot, fore, along. munf. split; [nra|].
    match goal with |- ?a <= _ => replace a with ((sin f * sin f + cos f * cos f) * mz + ((sin q1 * sin q1 + cos q1 * cos q1 - 1) * (sin f * (0.18 + 0.6 * cos q2 + cos f * mx + sin f * mz)))) by ring end. rewrite U1, Uf. lra.
  - rewrite frames_first, F3 by lia. unfold up_frame. munf. nra.
  - rewrite frames_first, F4 by lia. rewrite CC. unfold arm2_rot, fore, along. rewrite cos_0, sin_0. munf.
    match goal with |- _ /\ _ <= ?a /\ _ <= _ => assert (A : a = 0.18 + 0.6 * cos q2 + 0.62 * sin f + mx) end.
    { match goal with |- ?a = _ => replace a with ((sin q1 * sin q1 + cos q1 * cos q1) * (0.18 + 0.6 * cos q2 + 0.62 * sin f + mx)) by ring end. rewrite U1. ring. }
    rewrite A. split; [lra|]. split; [lra|].
    match goal with |- _ <= ?a => replace a with (0.62 * (sin f * sin f) + sin f * mx - cos f * (0.315 - 0.6 * sin q2 - mz)) by ring end.
    replace (0.315 - 0.6 * sin q2 - mz) with (- (0.62 * cos f) - mz) by lra. nra.
  - rewrite F5, CC. set (nx := cos q6 * mx - sin q6 * my). set (ny := sin q6 * mx + cos q6 * my).
    pose proof (COS_bound q6) as C6. pose proof (SIN_bound q6) as S6. assert (Bn : -0.1 <= nx <= 0.1) by (unfold nx; split; nra).
    unfold arm2_rot, fore, along, rot_z. rewrite cos_0, sin_0. munf.
    match goal with |- _ /\ _ <= ?a /\ _ <= _ => assert (A : a = 0.18 + 0.6 * cos q2 + 0.62 * sin f + nx) end.
    { match goal with |- ?a = _ => replace a with ((sin q1 * sin q1 + cos q1 * cos q1) * (0.18 + 0.6 * cos q2 + 0.62 * sin f + nx)) by (unfold nx; ring) end. rewrite U1. ring. }
    rewrite A. split; [lra|]. split; [lra|].
    match goal with |- _ <= ?a => replace a with (0.62 * (sin f * sin f) + sin f * nx - cos f * (0.315 - 0.6 * sin q2 - mz - 0.115)) by (unfold nx; ring) end.
    replace (0.315 - 0.6 * sin q2 - mz - 0.115) with (- (0.62 * cos f) - (mz + 0.115)) by lra. nra.
Qed.
Lemma down_far x : in_robot kuka6 q x -> vx x <= 0.549 \/ 0.2 <= vz x.
Proof.
  intros [(b & E & _)|[(i & l & E & H)|(t & tip & E & _)]]; [discriminate| |discriminate]. apply (down_bounds i l x E) in H. destruct i as [|[|[|[|[|i]]]]]; cbn in H; lra.
Qed.
Lemma down_self : self_clear kuka6 q.
Proof.
  split; [|intros tool tip i l x E; discriminate]. intros i j li lj x Ei Ej M Hi Hj.
  assert (Li : (i < 6)%nat) by (change 6%nat with (length (r_links kuka6)); apply nth_error_Some; congruence).
  assert (Lj : (j < 6)%nat) by (change 6%nat with (length (r_links kuka6)); apply nth_error_Some; congruence).
  apply (down_bounds i li x Ei) in Hi. apply (down_bounds j lj x Ej) in Hj. clear Ei Ej.
  destruct i as [|[|[|[|[|[|i]]]]]]; [..|lia]; (destruct j as [|[|[|[|[|[|j]]]]]]; [..|lia]); try discriminate M; cbn in Hi, Hj; lra.
Qed.
Lemma down_clear_scene scene : (forall x, in_coll scene None x -> 0.55 <= vx x /\ vz x <= 0.171) -> clear kuka6 scene q.
Proof. intros B. split; [|intros _; apply down_self]. intros x Hx Hs. apply down_far in Hx. apply B in Hs. lra. Qed.
End Down.
