(** * How far a robot moves when its joints change, and what rounding a plan to
    float32 does to the poses (C113, C114). *)
From Coq Require Import Reals Lra Lia Psatz List Bool Arith ZArith.
From Verif Require Import PyBase Mat Util UtilProofs Geometry GeometryProofs Robot RobotProofs.
Import ListNotations.
Local Open Scope R_scope.

(** ** Specification *)
(** length of a vector *)
Definition len (v : vec3) : R := sqrt (norm2 v).
(** how far the frame after these links can be from their base *)
Fixpoint span (ls : list link) (q : list R) : R :=
  match ls, q with
  | l :: ls', qi :: q' => Rabs (da (l_dh l)) + Rabs (match l_jt l with JP => qi | _ => dd (l_dh l) end) + span ls' q'
  | _, _ => 0
  end.
(** bound on the movement of a point at distance t from the last frame when q becomes q' *)
Fixpoint move_bound (ls : list link) (q q' : list R) (t : R) : R :=
  match ls, q, q' with
  | l :: ls', qi :: q1, qi' :: q1' =>
      Rabs (qi - qi') * match l_jt l with JP => 1 | _ => Rabs (da (l_dh l)) + span ls' q1 + t end + move_bound ls' q1 q1' t
  | _, _, _ => 0
  end.

(** ** Lengths *)
Lemma norm2_nonneg v : 0 <= norm2 v. Proof. destruct v as [x y z]. unfold norm2, vdot. cbn. nra. Qed.
Lemma len_nonneg v : 0 <= len v. Proof. apply sqrt_pos. Qed.
Lemma len_sqr v : len v * len v = norm2 v. Proof. apply sqrt_sqrt, norm2_nonneg. Qed.
Lemma sqr_le a b : 0 <= b -> a * a <= b * b -> a <= b. Proof. intros; nra. Qed.
Lemma vdot_len u v : vdot u v <= len u * len v.
Proof.
  apply sqr_le; [apply Rmult_le_pos; apply len_nonneg|]. replace (len u * len v * (len u * len v)) with ((len u * len u) * (len v * len v)) by ring. rewrite !len_sqr.
  destruct u as [a b c], v as [x y z]. unfold norm2, vdot. cbn.
  pose proof (Rle_0_sqr (a * y - b * x)). pose proof (Rle_0_sqr (a * z - c * x)). pose proof (Rle_0_sqr (b * z - c * y)). unfold Rsqr in *. nra.
Qed.
Lemma len_add u v : len (vadd u v) <= len u + len v.
Proof.
  pose proof (len_nonneg u). pose proof (len_nonneg v). apply sqr_le; [lra|]. rewrite len_sqr. pose proof (vdot_len u v).
  replace (norm2 (vadd u v)) with (norm2 u + 2 * vdot u v + norm2 v) by vring. rewrite <- !len_sqr. nra.
Qed.
Lemma len_rot A v : rotation A -> len (mapply A v) = len v. Proof. intros. unfold len. rewrite rotation_norm; auto. Qed.
Lemma len_tapply T u v : rigid T -> len (vsub (tapply T u) (tapply T v)) = len (vsub u v).
Proof. intros H. replace (vsub (tapply T u) (tapply T v)) with (mapply (rot T) (vsub u v)) by vring. apply len_rot. apply H. Qed.
Lemma len_vsub3 u v w : len (vsub u w) <= len (vsub u v) + len (vsub v w).
Proof. replace (vsub u w) with (vadd (vsub u v) (vsub v w)) by vring. apply len_add. Qed.
Lemma len_sym u v : len (vsub u v) = len (vsub v u).
Proof. unfold len. f_equal. destruct u, v. unfold norm2, vdot. cbn. ring. Qed.
Lemma len_tapply_le T v : rigid T -> len (tapply T v) <= len (pos T) + len v.
Proof. intros H. unfold tapply. pose proof (len_add (mapply (rot T) v) (pos T)). rewrite (len_rot (rot T) v) in H0 by apply H. lra. Qed.
Lemma len_x a : len (V3 a 0 0) = Rabs a.
Proof. unfold len, norm2, vdot. cbn. replace (a * a + 0 * 0 + 0 * 0) with (Rsqr a) by (unfold Rsqr; ring). apply sqrt_Rsqr_abs. Qed.
Lemma len_z d : len (V3 0 0 d) = Rabs d.
Proof. unfold len, norm2, vdot. cbn. replace (0 * 0 + 0 * 0 + d * d) with (Rsqr d) by (unfold Rsqr; ring). apply sqrt_Rsqr_abs. Qed.

(** ** One link *)
Lemma sin_le x : Rabs (sin x) <= Rabs x.
Proof.
  assert (P : forall y, 0 <= y -> sin y <= y). { intros y [H| <-]; [left; apply sin_lt_x; auto|rewrite sin_0; lra]. }
  assert (Q : forall y, 0 <= y -> - y <= sin y).
  { intros y H. destruct (Rle_dec y PI) as [L|L]; [pose proof (sin_ge_0 y H L); lra|]. pose proof (SIN_bound y). pose proof PI2_3_2. lra. }
  unfold Rabs at 2. destruct (Rcase_abs x).
  - apply Rabs_le. pose proof (P (- x)). pose proof (Q (- x)). rewrite sin_neg in *. lra.
  - apply Rabs_le. pose proof (P x). pose proof (Q x). lra.
Qed.
Lemma abs_sqr x : Rabs x * Rabs x = x * x.
Proof. rewrite <- Rabs_mult. apply Rabs_pos_eq. apply Rle_0_sqr. Qed.
Lemma chord a b : (cos a - cos b) * (cos a - cos b) + (sin a - sin b) * (sin a - sin b) <= (a - b) * (a - b).
Proof.
  rewrite form2, form4. pose proof (sin_le ((a - b) / 2)) as H. set (s := sin ((a - b) / 2)) in *.
  assert (S : s * s <= ((a - b) / 2) * ((a - b) / 2)).
  { rewrite <- (abs_sqr s), <- (abs_sqr ((a - b) / 2)). pose proof (Rabs_pos s). apply Rmult_le_compat; auto. }
  pose proof (sin2_cos2 ((a + b) / 2)) as E. unfold Rsqr in E. set (u := sin ((a + b) / 2)) in *. set (v := cos ((a + b) / 2)) in *.
  replace (-2 * s * u * (-2 * s * u) + 2 * v * s * (2 * v * s)) with (4 * (s * s) * (u * u + v * v)) by ring. rewrite E. nra.
Qed.
Lemma turn a b v : len (vsub (mapply (rot_z a) v) (mapply (rot_z b) v)) <= Rabs (a - b) * len v.
Proof.
  apply sqr_le; [apply Rmult_le_pos; [apply Rabs_pos|apply len_nonneg]|]. rewrite len_sqr.
  replace (Rabs (a - b) * len v * (Rabs (a - b) * len v)) with ((Rabs (a - b) * Rabs (a - b)) * (len v * len v)) by ring. rewrite len_sqr, abs_sqr.
  pose proof (chord a b) as C. destruct v as [x y z]. unfold rot_z, vsub, mapply, norm2, vdot. cbn [vx vy vz m00 m01 m02 m10 m11 m12 m20 m21 m22].
  set (ca := cos a) in *. set (cb := cos b) in *. set (sa := sin a) in *. set (sb := sin b) in *.
  match goal with |- ?l <= _ => replace l with (((ca - cb) * (ca - cb) + (sa - sb) * (sa - sb)) * (x * x + y * y)) by ring end.
  pose proof (Rle_0_sqr z). pose proof (Rle_0_sqr x). pose proof (Rle_0_sqr y). pose proof (Rle_0_sqr (ca - cb)). pose proof (Rle_0_sqr (sa - sb)). unfold Rsqr in *. apply Rmult_le_compat; lra.
Qed.
Lemma dhm_apply a alpha d theta y : tapply (dhm a alpha d theta) y = vadd (mapply (rot_z theta) (vadd (mapply (rot_x alpha) y) (V3 a 0 0))) (V3 0 0 d).
Proof.
  unfold dhm. rewrite !tapply_tmul by (repeat apply rigid_tmul; auto using pose_x_rigid, pose_z_rigid, translation_rigid).
  replace (tapply (pose_x alpha 0 0 0) y) with (mapply (rot_x alpha) y) by (unfold pose_x, tapply, rot_x; destruct y; apply vec3_eq; cbn; ring).
  generalize (mapply (rot_x alpha) y). intros [x1 y1 z1].
  apply vec3_eq; cbn; ring.
Qed.

Lemma lspec_len l qi y : len (tapply (lspec l qi) y) <= Rabs (da (l_dh l)) + Rabs (match l_jt l with JP => qi | _ => dd (l_dh l) end) + len y.
Proof.
  assert (G : forall a alpha d theta, len (tapply (dhm a alpha d theta) y) <= Rabs a + Rabs d + len y).
  { intros. rewrite dhm_apply. eapply Rle_trans; [apply len_add|]. rewrite len_z, len_rot by auto using rot_x_rotation, rot_z_rotation. pose proof (len_add (mapply (rot_x alpha) y) (V3 a 0 0)) as H.
    rewrite len_x, len_rot in H by apply rot_x_rotation. lra. }
  unfold lspec. destruct (l_jt l); apply G.
Qed.
Lemma lspec_move l qi qi' y : len (vsub (tapply (lspec l qi) y) (tapply (lspec l qi') y)) <= Rabs (qi - qi') * match l_jt l with JP => 1 | _ => Rabs (da (l_dh l)) + len y end.
Proof.
  assert (G : forall a alpha d, len (vsub (tapply (dhm a alpha d qi) y) (tapply (dhm a alpha d qi') y)) <= Rabs (qi - qi') * (Rabs a + len y)).
  { intros. rewrite !dhm_apply. set (w := vadd (mapply (rot_x alpha) y) (V3 a 0 0)).
    replace (vsub _ _) with (vsub (mapply (rot_z qi) w) (mapply (rot_z qi') w)) by vring. eapply Rle_trans; [apply turn|]. apply Rmult_le_compat_l; [apply Rabs_pos|].
    pose proof (len_add (mapply (rot_x alpha) y) (V3 a 0 0)) as H. rewrite len_x, len_rot in H by apply rot_x_rotation. fold w in H. lra. }
  unfold lspec. destruct (l_jt l); auto. rewrite !dhm_apply, Rmult_1_r.
  match goal with |- len (vsub (vadd ?w _) _) <= _ => replace (vsub _ _) with (V3 0 0 (qi - qi')) by (generalize w; intros []; vring) end. rewrite len_z. lra.
Qed.

(** ** A chain of links *)
Definition chain (ls : list link) (q : list R) (T : mat4) : mat4 := fold_left (fun T p => tmul T (lspec (fst p) (snd p))) (combine ls q) T.
Lemma chain_split : forall ls q T, rigid T -> chain ls q T = tmul T (chain ls q eye4).
Proof.
  unfold chain. intros ls q. induction (combine ls q) as [|p l IH]; intros T H; cbn [fold_left]; [rewrite tmul_1_r; auto|].
  rewrite IH by (apply rigid_tmul; auto; apply lspec_rigid). rewrite (IH (tmul eye4 _)) by (rewrite tmul_1_l; apply lspec_rigid). rewrite tmul_1_l, tmul_assoc. auto.
Qed.
Lemma chain_rigid ls q T : rigid T -> rigid (chain ls q T).
Proof. unfold chain. revert T. induction (combine ls q) as [|p l IH]; intros T H; cbn [fold_left]; auto. apply IH, rigid_tmul; auto. apply lspec_rigid. Qed.
Lemma chain_cons l ls qi q y : tapply (chain (l :: ls) (qi :: q) eye4) y = tapply (lspec l qi) (tapply (chain ls q eye4) y).
Proof.
  unfold chain at 1. cbn [combine fold_left fst snd]. fold (chain ls q (tmul eye4 (lspec l qi))). rewrite tmul_1_l, chain_split by apply lspec_rigid. apply tapply_tmul; [apply lspec_rigid|apply chain_rigid, rigid_eye].
Qed.
Lemma chain_len : forall ls q y, len (tapply (chain ls q eye4) y) <= span ls q + len y.
Proof.
  induction ls as [|l ls IH]; intros [|qi q] y; try (cbn [span]; unfold chain; cbn [combine fold_left]; replace (tapply eye4 y) with y by vring; lra).
  rewrite chain_cons. cbn [span]. pose proof (lspec_len l qi (tapply (chain ls q eye4) y)). pose proof (IH q y). lra.
Qed.
Lemma chain_move : forall ls q q' y, length q = length q' -> len (vsub (tapply (chain ls q eye4) y) (tapply (chain ls q' eye4) y)) <= move_bound ls q q' (len y).
Proof.
  assert (Z : forall u, len (vsub u u) = 0). { intros u. replace (vsub u u) with (V3 0 0 0) by vring. rewrite len_x. apply Rabs_R0. }
  induction ls as [|l ls IH]; intros [|qi q] [|qi' q'] y L; try discriminate L; try (unfold chain; cbn [combine fold_left move_bound]; rewrite Z; lra).
  rewrite !chain_cons. cbn [move_bound]. set (u := tapply (chain ls q eye4) y). set (u' := tapply (chain ls q' eye4) y).
  eapply Rle_trans; [apply (len_vsub3 _ (tapply (lspec l qi') u))|]. rewrite (len_tapply (lspec l qi') u u') by apply lspec_rigid.
  pose proof (lspec_move l qi qi' u) as M. pose proof (IH q q' y ltac:(cbn in L; lia)) as N. fold u u' in N. pose proof (chain_len ls q y) as C. fold u in C.
  assert (Rabs (qi - qi') * match l_jt l with JP => 1 | _ => Rabs (da (l_dh l)) + len u end <= Rabs (qi - qi') * match l_jt l with JP => 1 | _ => Rabs (da (l_dh l)) + span ls q + len y end).
  { apply Rmult_le_compat_l; [apply Rabs_pos|]. destruct (l_jt l); lra. }
  lra.
Qed.

(** ** Robots *)
Lemma combine_firstn {A B} : forall n (l : list A) (m : list B), firstn n (combine l m) = combine (firstn n l) m.
Proof. induction n as [|n IH]; intros [|a l] [|b m]; cbn; auto. f_equal. auto. Qed.
(** every point x of link i *)
Lemma frame_move r q q' i x : rigid (r_tfb r) -> length q = length q' ->
  len (vsub (tapply (frame r q i) x) (tapply (frame r q' i) x)) <= move_bound (firstn (S i) (r_links r)) q q' (len x).
Proof.
  intros H L. unfold frame. rewrite !combine_firstn. fold (chain (firstn (S i) (r_links r)) q (r_tfb r)). fold (chain (firstn (S i) (r_links r)) q' (r_tfb r)).
  rewrite !(chain_split _ _ (r_tfb r)) by auto. rewrite !tapply_tmul by (auto; apply chain_rigid, rigid_eye). rewrite len_tapply by auto. apply chain_move; auto.
Qed.
Definition tip_len (r : robot) : R := match r_tool r with Some (_, tip) => len (pos tip) | None => 0 end.
Lemma move_bound_le : forall ls q q' t t', t <= t' -> move_bound ls q q' t <= move_bound ls q q' t'.
Proof.
  induction ls as [|l ls IH]; intros [|qi q] [|qi' q'] t t' H; cbn [move_bound]; try lra. pose proof (IH q q' t t' H). 
  assert (Rabs (qi - qi') * match l_jt l with JP => 1 | _ => Rabs (da (l_dh l)) + span ls q + t end <= Rabs (qi - qi') * match l_jt l with JP => 1 | _ => Rabs (da (l_dh l)) + span ls q + t' end).
  { apply Rmult_le_compat_l; [apply Rabs_pos|]. destruct (l_jt l); lra. } lra.
Qed.
(** every point x in the frame of the tool tip *)
Lemma fk_move r q q' x : good r -> joints_ok r -> rigid (r_tfb r) -> rigid_tool r -> (ndof r <= length q)%nat -> length q = length q' ->
  exists F F', snd (fk r q) = Ok F /\ snd (fk r q') = Ok F' /\ len (vsub (tapply F x) (tapply F' x)) <= move_bound (r_links r) q q' (tip_len r + len x).
Proof.
  intros G J B Ht L L'. rewrite !fk_snd by auto. rewrite !fkp_spec by (auto; unfold ndof in L; lia). cbn [bind]. do 2 eexists. split; [reflexivity|]. split; [reflexivity|].
  fold (chain (r_links r) q (r_tfb r)). fold (chain (r_links r) q' (r_tfb r)). rewrite !(chain_split _ _ (r_tfb r)) by auto.
  assert (K : forall y, len (vsub (tapply (tmul (r_tfb r) (chain (r_links r) q eye4)) y) (tapply (tmul (r_tfb r) (chain (r_links r) q' eye4)) y)) <= move_bound (r_links r) q q' (len y)).
  { intros y. rewrite !tapply_tmul by (auto; apply chain_rigid, rigid_eye). rewrite len_tapply by auto. apply chain_move; auto. }
  unfold tooled, tip_len, rigid_tool in *. destruct (r_tool r) as [[c tip]|].
  - rewrite !(tapply_tmul _ tip) by (auto; apply rigid_tmul; auto; apply chain_rigid, rigid_eye). eapply Rle_trans; [apply K|]. apply move_bound_le. apply len_tapply_le. auto.
  - eapply Rle_trans; [apply K|]. apply move_bound_le. lra.
Qed.

(** ** Orientation *)
(** sum of the changes of the turning joints *)
Fixpoint turn_bound (ls : list link) (q q' : list R) : R :=
  match ls, q, q' with
  | l :: ls', qi :: q1, qi' :: q1' => (match l_jt l with JP => 0 | _ => Rabs (qi - qi') end) + turn_bound ls' q1 q1'
  | _, _, _ => 0
  end.
Lemma dhm_rot a alpha d theta v : mapply (rot (dhm a alpha d theta)) v = mapply (rot_z theta) (mapply (rot_x alpha) v).
Proof.
  pose proof (dhm_apply a alpha d theta v) as H. pose proof (dhm_apply a alpha d theta v0) as H0. unfold tapply in H, H0.
  replace (mapply (rot (dhm a alpha d theta)) v) with (vsub (vadd (mapply (rot (dhm a alpha d theta)) v) (pos (dhm a alpha d theta))) (vadd (mapply (rot (dhm a alpha d theta)) v0) (pos (dhm a alpha d theta)))).
  - rewrite H, H0. generalize (rot_z theta) (rot_x alpha). clear. intros Z X. destruct v as [x y z], Z, X. apply vec3_eq; cbn; ring.
  - generalize (dhm a alpha d theta). clear. intros [[] [] ? ?]. destruct v as [x y z]. apply vec3_eq; cbn; ring.
Qed.
Lemma chain_rot_cons l ls qi q v : mapply (rot (chain (l :: ls) (qi :: q) eye4)) v = mapply (rot (lspec l qi)) (mapply (rot (chain ls q eye4)) v).
Proof.
  unfold chain at 1. cbn [combine fold_left fst snd]. fold (chain ls q (tmul eye4 (lspec l qi))). rewrite tmul_1_l, chain_split by apply lspec_rigid.
  destruct (lspec_rigid l qi) as [_ b w]. destruct (chain_rigid ls q eye4 rigid_eye) as [_ b' w']. rewrite tmul_blocks by auto. cbn [rot]. apply mapply_mmul.
Qed.
Lemma chain_turn : forall ls q q' v, length q = length q' -> len (vsub (mapply (rot (chain ls q eye4)) v) (mapply (rot (chain ls q' eye4)) v)) <= turn_bound ls q q' * len v.
Proof.
  assert (Z : forall u, len (vsub u u) = 0). { intros u. replace (vsub u u) with (V3 0 0 0) by vring. rewrite len_x. apply Rabs_R0. }
  induction ls as [|l ls IH]; intros [|qi q] [|qi' q'] v L; try discriminate L; try (unfold chain; cbn [combine fold_left turn_bound]; rewrite Z; lra).
  rewrite !chain_rot_cons. cbn [turn_bound]. set (u := mapply (rot (chain ls q eye4)) v). set (u' := mapply (rot (chain ls q' eye4)) v).
  eapply Rle_trans; [apply (len_vsub3 _ (mapply (rot (lspec l qi')) u))|].
  replace (vsub (mapply (rot (lspec l qi')) u) (mapply (rot (lspec l qi')) u')) with (mapply (rot (lspec l qi')) (vsub u u')) by (generalize (rot (lspec l qi')); intros []; destruct u, u'; apply vec3_eq; cbn; ring).
  rewrite (len_rot (rot (lspec l qi'))) by apply lspec_rigid. pose proof (IH q q' v ltac:(cbn in L; lia)) as N. fold u u' in N.
  assert (U : len u = len v) by (apply len_rot, chain_rigid, rigid_eye).
  assert (M : len (vsub (mapply (rot (lspec l qi)) u) (mapply (rot (lspec l qi')) u)) <= match l_jt l with JP => 0 | _ => Rabs (qi - qi') end * len u).
  { unfold lspec. destruct (l_jt l); rewrite !dhm_rot; try (eapply Rle_trans; [apply turn|]; rewrite len_rot by apply rot_x_rotation; lra). rewrite Z. lra. }
  rewrite U in M. lra.
Qed.
Lemma rot_tmul A B : rigid A -> rigid B -> rot (tmul A B) = mmul (rot A) (rot B).
Proof. intros [_ a1 a2] [_ b1 b2]. rewrite tmul_blocks; auto. Qed.
(** every direction v *)
Lemma fk_turn r q q' v : good r -> joints_ok r -> rigid (r_tfb r) -> rigid_tool r -> (ndof r <= length q)%nat -> length q = length q' ->
  exists F F', snd (fk r q) = Ok F /\ snd (fk r q') = Ok F' /\ len (vsub (mapply (rot F) v) (mapply (rot F') v)) <= turn_bound (r_links r) q q' * len v.
Proof.
  intros G J B Ht L L'. rewrite !fk_snd by auto. rewrite !fkp_spec by (auto; unfold ndof in L; lia). cbn [bind]. do 2 eexists. split; [reflexivity|]. split; [reflexivity|].
  fold (chain (r_links r) q (r_tfb r)). fold (chain (r_links r) q' (r_tfb r)). rewrite !(chain_split _ _ (r_tfb r)) by auto.
  assert (K : forall y, len (vsub (mapply (rot (tmul (r_tfb r) (chain (r_links r) q eye4))) y) (mapply (rot (tmul (r_tfb r) (chain (r_links r) q' eye4))) y)) <= turn_bound (r_links r) q q' * len y).
  { intros y. rewrite !rot_tmul by (auto; apply chain_rigid, rigid_eye). rewrite !mapply_mmul.
    match goal with |- len (vsub (mapply ?A ?u) (mapply ?A ?u')) <= _ => replace (vsub (mapply A u) (mapply A u')) with (mapply A (vsub u u')) by (generalize A u u'; intros [] [] []; apply vec3_eq; cbn; ring) end.
    rewrite (len_rot (rot (r_tfb r))) by apply B. apply chain_turn; auto. }
  unfold tooled, rigid_tool in *. destruct (r_tool r) as [[c tip]|]; [|apply K].
  rewrite !(rot_tmul _ tip) by (auto; apply rigid_tmul; auto; apply chain_rigid, rigid_eye). rewrite !(mapply_mmul _ (rot tip)). rewrite <- (len_rot (rot tip) v) by apply Ht. apply K.
Qed.

Lemma slide_example : let r := robot_init [lp 0 0 0 0] in good r /\ joints_ok r /\ rigid (r_tfb r) /\
  move_bound (r_links r) [0] [1] 0 = 1 /\ vsub (tapply (frame r [1] 0) v0) (tapply (frame r [0] 0) v0) = V3 0 0 1.
Proof.
  cbn [robot_init r_tfb]. split; [apply robot_init_good; repeat constructor|]. split; [repeat constructor; discriminate|]. split; [apply rigid_eye|]. split.
  - cbn. replace (0 - 1) with (- (1)) by ring. rewrite Rabs_Ropp, Rabs_R1. ring.
  - unfold frame. cbn [combine r_links robot_init firstn fold_left fst snd]. cbn [lspec lp new_link l_jt l_dh da dalpha dd dtheta r_tfb]. rewrite !tmul_1_l, !dhm_apply. rewrite cos_0 || idtac.
    unfold rot_z, rot_x. rewrite cos_0, sin_0. apply vec3_eq; cbn; ring.
Qed.
