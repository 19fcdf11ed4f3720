(** * Lemmas about optimization.py. *)
From Coq Require Import Reals Lra Psatz List Bool Arith Lia.
From Verif Require Import PyBase Mat Util UtilProofs Geometry GeometryProofs Robot RobotProofs RobotForms PathProofs Optim.
Import ListNotations.
Local Open Scope R_scope.

(** ** one pair of polyhedra *)
Lemma vdot_vadd u v x : vdot (vadd u v) x = vdot u x + vdot v x.
Proof. vring. Qed.
Lemma vdot_vscale k u x : vdot (vscale k u) x = k * vdot u x.
Proof. vring. Qed.
Lemma wsum_cons a A l0 l : wsum (a :: A) (l0 :: l) = vadd (vscale l0 a) (wsum A l).
Proof. reflexivity. Qed.
Lemma ldot_cons a A l0 l : ldot (a :: A) (l0 :: l) = a * l0 + ldot A l.
Proof. reflexivity. Qed.
Lemma weighted A b x : Forall2 (fun a b => vdot a x <= b) A b -> forall l, Forall (fun y => y >= 0) l -> vdot (wsum A l) x <= ldot b l.
Proof.
  induction 1 as [|a b0 A b Hab _ IH]; intros l Hl.
  - unfold wsum, ldot. cbn. unfold vdot. cbn. lra.
  - destruct l as [|l0 l]; [unfold wsum, ldot; cbn; unfold vdot; cbn; lra|]. inversion Hl; subst. rewrite wsum_cons, ldot_cons, vdot_vadd, vdot_vscale. specialize (IH l ltac:(auto)).
    assert (l0 * vdot a x <= l0 * b0) by (apply Rmult_le_compat_l; lra). lra.
Qed.
Lemma cauchy u v : vdot u v ^ 2 <= norm2 u * norm2 v.
Proof.
  destruct u as [a b c], v as [d e f]. unfold norm2, vdot. cbn [vx vy vz].
  pose proof (pow2_ge_0 (a * e - b * d)). pose proof (pow2_ge_0 (a * f - c * d)). pose proof (pow2_ge_0 (b * f - c * e)).
  replace ((a * a + b * b + c * c) * (d * d + e * e + f * f)) with ((a * d + b * e + c * f) ^ 2 + ((a * e - b * d) ^ 2 + (a * f - c * d) ^ 2 + (b * f - c * e) ^ 2)) by ring. lra.
Qed.
Lemma certify lam mu Ar Ao br bo eps x y : 0 <= eps -> Forall (fun c => c) (create_collision_constraints lam mu Ar Ao br bo eps) ->
  satisfies (Poly Ar br) x -> satisfies (Poly Ao bo) y -> eps ^ 2 <= norm2 (vsub x y).
Proof.
  intros He H Hx Hy. unfold create_collision_constraints in H.
  inversion H as [|? ? C1 H1]; subst. inversion H1 as [|? ? C2 H2]; subst. inversion H2 as [|? ? C3 H3]; subst. inversion H3 as [|? ? C4 H4]; subst. inversion H4 as [|? ? C5 _]; subst.
  pose proof (weighted _ _ _ Hx _ C4) as W1. pose proof (weighted _ _ _ Hy _ C5) as W2. cbn [pA pb] in W1, W2. set (n := wsum Ar lam) in *. set (m := wsum Ao mu) in *.
  assert (M : m = vopp n) by (clear - C2; destruct n as [a b c], m as [d e f]; unfold vadd, v0 in C2; cbn in C2; injection C2 as E1 E2 E3; unfold vopp; cbn; f_equal; lra). rewrite M in W2.
  assert (E : vdot n (vsub x y) = vdot n x + vdot (vopp n) y) by (clear; vring).
  assert (D : vdot n (vsub x y) <= - eps) by lra. pose proof (cauchy n (vsub x y)) as K. unfold norm2 at 1 in K.
  assert (P : 0 <= norm2 (vsub x y)) by apply norm2_pos. set (d := vdot n (vsub x y)) in *. set (N := norm2 (vsub x y)) in *. set (nn := vdot n n) in *.
  assert (Q : nn * N <= 1 * N) by (apply Rmult_le_compat_r; auto). assert (eps ^ 2 <= d ^ 2) by (pose proof (Rmult_le_pos (- d - eps) (- d + eps) ltac:(lra) ltac:(lra)) as Z; replace ((- d - eps) * (- d + eps)) with (d ^ 2 - eps ^ 2) in Z by ring; lra). lra.
Qed.
Lemma certify_disjoint lam mu Ar Ao br bo eps : 0 < eps -> Forall (fun c => c) (create_collision_constraints lam mu Ar Ao br bo eps) ->
  ~ exists x, satisfies (Poly Ar br) x /\ satisfies (Poly Ao bo) x.
Proof.
  intros He H (x & H1 & H2). pose proof (certify _ _ _ _ _ _ _ x x (Rlt_le _ _ He) H H1 H2) as C. replace (norm2 (vsub x x)) with 0 in C by (clear; vring). pose proof (pow_lt eps 2 He). lra.
Qed.
(** ** moving a polyhedron *)
Lemma combine_nil_r {A B} (l : list A) : combine l (@nil B) = [].
Proof. destruct l; reflexivity. Qed.
Lemma move_row T a x : rotation (rot T) -> vdot (mapply (rot T) a) (tapply T x) = vdot a x + vdot (mapply (rot T) a) (pos T).
Proof.
  intros HR. unfold tapply. rewrite vdot_mapply. assert (E : mapply (mtr (rot T)) (vadd (mapply (rot T) x) (pos T)) = vadd x (mapply (mtr (rot T)) (pos T))).
  { rewrite mapply_add, <- mapply_mmul, (rot_orth _ HR), mapply_1. reflexivity. }
  rewrite E, vdot_mapply. generalize (mapply (mtr (rot T)) (pos T)). intros w. clear. vring.
Qed.
Lemma move_satisfies P T x : rotation (rot T) -> satisfies P x -> satisfies (move_poly P T) (tapply T x).
Proof.
  intros HR. destruct P as [A b]. unfold satisfies, move_poly. cbn [pA pb]. induction 1 as [|a b0 A b Hab F IH]; [constructor|].
  cbn [map combine]. constructor; [cbn [fst snd]; rewrite move_row by auto; lra|exact IH].
Qed.

(** ** per pose *)
Definition one_box (l : link) : Prop := exists s tf, l_geom l = Coll [s] [tf] /\ rigid tf.
Lemma polys_nth : forall ls i, Forall one_box ls -> forall l, nth_error ls i = Some l ->
  exists s tf, l_geom l = Coll [s] [tf] /\ rigid tf /\ nth_error (flat_map (fun l => get_polyhedrons (l_geom l)) ls) i = Some (get_polyhedron s tf).
Proof.
  induction ls as [|k ls IH]; intros [|i] H l E; cbn in E; try discriminate; inversion H as [|? ? (s & tf & G & Rt) Hs]; subst.
  - injection E as <-. exists s, tf. split; [auto|]. split; [auto|]. cbn [flat_map]. rewrite G. reflexivity.
  - destruct (IH i Hs l E) as (s' & tf' & G' & R' & N). exists s', tf'. split; [auto|]. split; [auto|]. cbn [flat_map]. rewrite G. cbn. exact N.
Qed.
Lemma polys_scene c j : length (c_s c) = length (c_tf c) -> nth_error (get_polyhedrons c) j =
  match nth_error (c_s c) j, nth_error (c_tf c) j with Some s, Some T => Some (get_polyhedron s T) | _, _ => None end.
Proof.
  destruct c as [ss ts]. unfold get_polyhedrons. cbn [c_s c_tf]. revert ts j. induction ss as [|s ss IH]; intros [|t ts] [|j] L; cbn in *; auto; try discriminate. 
Qed.
Lemma mapM_In {A B} (f : A -> res B) l ys x : mapM f l = Ok ys -> In x l -> exists y, f x = Ok y /\ In y ys.
Proof. intros E I. apply mapM_Ok_Forall2 in E. destruct (Forall2_In_l _ _ _ _ E I) as (y & I' & Ey). eauto. Qed.
Lemma Forall_concat_In {A} (P : A -> Prop) ls l : Forall P (concat ls) -> In l ls -> Forall P l.
Proof. intros H I. rewrite Forall_forall in *. intros x Ix. apply H. apply in_concat. eauto. Qed.

Lemma link_casadi_rigid l q : rigid (link_transform_casadi l q).
Proof.
  unfold link_transform_casadi. split; [|reflexivity|reflexivity]. cbn [rot].
  replace (M3 _ _ _ _ _ _ _ _ _) with (mmul (rot_z q) (rot_x (dalpha (l_dh l)))) by (unfold rot_z, rot_x, mmul; cbn; f_equal; ring).
  apply rotation_mmul; [apply rot_z_rotation|apply rot_x_rotation].
Qed.
Lemma casadi_frames_rigid : forall ls q T fs, rigid T -> casadi_frames ls q T = Ok fs -> Forall rigid fs /\ length fs = length ls.
Proof.
  induction ls as [|l ls IH]; intros q T fs HT E; cbn [casadi_frames] in E; [injection E as <-; auto|]. destruct q as [|qi q]; [discriminate|].
  apply bind_Ok in E. destruct E as (fs' & E & F). injection F as <-. assert (R1 : rigid (tmul T (link_transform_casadi l qi))) by (apply rigid_tmul; auto; apply link_casadi_rigid).
  destruct (IH _ _ _ R1 E) as (H & L). split; [constructor; auto|cbn; auto].
Qed.
Lemma in_box_move s tf T x : rigid T -> rigid tf -> in_box s (tmul T tf) x -> exists z, in_box s tf z /\ x = tapply T z.
Proof. intros HT Ht (l & Hl & ->). exists (tapply tf l). split; [exists l; auto|]. apply tapply_tmul; auto. Qed.

Definition proper_scene (scene : coll) : Prop := length (c_s scene) = length (c_tf scene) /\ Forall rigid (c_tf scene).
(** every box of link i is at least eps from every box of the scene *)
Definition clear_of (r : robot) (scene : coll) (fs : list mat4) : Prop :=
  forall i l T s tf j s' T' x y, nth_error (r_links r) i = Some l -> nth_error fs i = Some T -> member (l_geom l) s tf ->
  nth_error (c_s scene) j = Some s' -> nth_error (c_tf scene) j = Some T' ->
  in_box s (tmul T tf) x -> in_box s' T' y -> eps0 ^ 2 <= norm2 (vsub x y).
Lemma member_one s tf s' tf' : member (Coll [s] [tf]) s' tf' -> s' = s /\ tf' = tf.
Proof. intros ([|i] & E1 & E2); cbn in *; [injection E1 as <-; injection E2 as <-; auto|destruct i; discriminate]. Qed.
Lemma pose_certified r scene q lamk muk cs : rigid (r_tfb r) -> Forall one_box (r_links r) -> proper_scene scene ->
  create_cc_for_joint_pose r (flat_map (fun l => get_polyhedrons (l_geom l)) (r_links r)) (get_polyhedrons scene) q lamk muk = Ok cs -> Forall (fun c => c) cs ->
  exists fs, fk_all_links_casadi r q = Ok fs /\ clear_of r scene fs.
Proof.
  intros HB H1 (SL & SR) E HC. unfold create_cc_for_joint_pose in E. apply bind_Ok in E. destruct E as (fs & Ef & E). exists fs. split; [auto|].
  apply bind_Ok in E. destruct E as (css & Es & E). injection E as <-. destruct (casadi_frames_rigid _ _ _ _ HB Ef) as (FR & FL).
  intros i l T s tf j s' T' x y Il Ii Mm Is Ij Hx Hy.
  assert (Li : (i < ndof r)%nat) by (unfold ndof; apply nth_error_Some; congruence).
  destruct (mapM_In _ _ _ i Es) as (ci & Ei & Ci); [apply in_seq; lia|]. apply bind_Ok in Ei. destruct Ei as (T0 & E0 & Ei). apply py_index_Ok in E0. assert (T0 = T) by congruence. subst T0.
  apply bind_Ok in Ei. destruct Ei as (cij & Eij & Ec). injection Ec as <-.
  assert (Pj : nth_error (get_polyhedrons scene) j = Some (get_polyhedron s' T')) by (rewrite polys_scene, Is, Ij by auto; auto).
  destruct (mapM_In _ _ _ j Eij) as (c & Ec & Cc); [apply in_seq; split; [lia|]; apply nth_error_Some; congruence|].
  destruct (polys_nth _ _ H1 _ Il) as (s0 & tf0 & G & Rt & Pi). rewrite G in Mm. apply member_one in Mm. destruct Mm as (-> & ->).
  apply bind_Ok in Ec. destruct Ec as (P & EP & Ec). apply py_index_Ok in EP. assert (P = get_polyhedron s0 tf0) by congruence. subst P.
  apply bind_Ok in Ec. destruct Ec as (O & EO & Ec). apply py_index_Ok in EO. assert (O = get_polyhedron s' T') by congruence. subst O. injection Ec as <-.
  assert (HCc := Forall_concat_In _ _ _ (Forall_concat_In _ _ _ HC Ci) Cc).
  assert (RT : rigid T) by (rewrite Forall_forall in FR; apply FR; eapply nth_error_In; eauto).
  assert (RT' : rigid T') by (rewrite Forall_forall in SR; apply SR; eapply nth_error_In; eauto).
  eapply certify; [unfold eps0; lra|exact HCc| |].
  - apply in_box_move in Hx; auto. destruct Hx as (z & Hz & ->). apply (move_satisfies (get_polyhedron s0 tf0) T z (rigid_rot _ RT)). apply polyhedron_box; auto.
  - change (satisfies (get_polyhedron s' T') y). apply polyhedron_box; auto.
Qed.

(** ** whole problem *)
Lemma feasible_path xyz r scene q lam mu : good r -> revolute r -> feasible xyz r scene q lam mu ->
  forall k p, nth_error xyz k = Some p -> exists qk T x y z rest, nth_error q k = Some qk /\ snd (fk r qk) = Ok T /\ p = x :: y :: z :: rest /\ pos T = V3 x y z.
Proof.
  intros G V (L & _ & cs & E & HC) k p Hk. unfold all_constraints in E. apply bind_Ok in E. destruct E as (cc & _ & E). apply bind_Ok in E. destruct E as (pc & Ep & E). injection E as <-.
  apply Forall_app in HC. destruct HC as (_ & HC). destruct (mapM_In _ _ _ k Ep) as (ck & Ek & Ck); [apply in_seq; split; [lia|]; apply nth_error_Some; congruence|].
  apply bind_Ok in Ek. destruct Ek as (p' & Ep' & Ek). apply py_index_Ok in Ep'. assert (p' = p) by congruence. subst p'. apply bind_Ok in Ek. destruct Ek as (qk & Eq & Ek). apply py_index_Ok in Eq.
  unfold path_constraint in Ek. apply bind_Ok in Ek. destruct Ek as (T & ET & Ek). rewrite fk_casadi_agree in ET by auto.
  destruct p as [|x [|y [|z rest]]]; try (cbn in Ek; discriminate). cbn in Ek. injection Ek as <-. pose proof (Forall_concat_In _ _ _ HC Ck) as F.
  inversion F as [|? ? F1 F']; subst. inversion F' as [|? ? F2 F'']; subst. inversion F'' as [|? ? F3 _]; subst. exists qk, T, (vx (pos T)), (vy (pos T)), (vz (pos T)), rest. split; [auto|]. split; [auto|]. split; [auto|]. destruct (pos T); reflexivity.
Qed.
Lemma feasible_clear xyz r scene q lam mu : good r -> revolute r -> rigid (r_tfb r) -> Forall one_box (r_links r) -> proper_scene scene -> feasible xyz r (Some scene) q lam mu ->
  forall k qk, nth_error q k = Some qk -> exists fs, snd (fk_all_links r qk) = Ok fs /\ clear_of r scene fs.
Proof.
  intros G V B O S (L & _ & cs & E & HC) k qk Hk. unfold all_constraints in E. apply bind_Ok in E. destruct E as (cc & Ec & E). apply bind_Ok in E. destruct E as (pc & _ & E). injection E as <-.
  apply Forall_app in HC. destruct HC as (HC & _). unfold create_cc in Ec. apply bind_Ok in Ec. destruct Ec as (p0 & _ & Ec). apply bind_Ok in Ec. destruct Ec as (css & Es & E). injection E as <-.
  destruct (mapM_In _ _ _ k Es) as (ck & Ek & Ck); [apply in_seq; split; [lia|]; apply nth_error_Some; congruence|]. apply bind_Ok in Ek. destruct Ek as (qk' & Eq & Ek). apply py_index_Ok in Eq. assert (qk' = qk) by congruence. subst qk'.
  destruct (pose_certified _ _ _ _ _ _ B O S Ek (Forall_concat_In _ _ _ HC Ck)) as (fs & Ef & C). rewrite frames_casadi_agree in Ef by auto. eauto.
Qed.
Lemma framesp_rigid : forall ls q T fs, rigid T -> framesp ls q T = Ok fs -> Forall rigid fs.
Proof.
  induction ls as [|l ls IH]; intros [|qi q] T fs HT E; cbn [framesp] in E; try (injection E as <-; auto); try discriminate.
  destruct (l_jt l) eqn:J; try discriminate; apply bind_Ok in E; destruct E as (fs' & E & F); injection F as <-;
  (assert (R1 : rigid (tmul T (lspec l qi))) by (apply rigid_tmul; [auto|apply lspec_rigid]); constructor; eauto).
Qed.
(** an exact box test then reports no link in collision with the scene *)
Lemma clear_no_collision prim r scene qk fs : good r -> exact_prim prim -> rigid (r_tfb r) -> Forall one_box (r_links r) -> proper_scene scene ->
  snd (fk_all_links r qk) = Ok fs -> clear_of r scene fs ->
  forall i l T, nth_error (r_links r) i = Some l -> nth_error fs i = Some T -> is_in_collision prim (l_geom l) scene (Some T) None = false.
Proof.
  intros G X B O (SL & SR) Ef C i l T Il Ii. destruct (is_in_collision prim (l_geom l) scene (Some T) None) eqn:E; [|auto]. exfalso.
  rewrite frames_snd in Ef by auto. pose proof (framesp_rigid _ _ _ _ B Ef) as FR. assert (RT : rigid T) by (rewrite Forall_forall in FR; apply FR; eapply nth_error_In; eauto).
  assert (Rl : rigid_coll (l_geom l)). { rewrite Forall_forall in O. destruct (O l) as (s & tf & Gm & Rt); [eapply nth_error_In; eauto|]. rewrite Gm. constructor; [auto|constructor]. }
  apply collision_points in E; auto; [|exact Logic.I]. destruct E as (x & (s & tf & M & Hx) & (s' & T' & (j & Mj1 & Mj2) & Hy)). cbn [place] in Hx, Hy.
  specialize (C i l T s tf j s' T' x x Il Ii M Mj1 Mj2 Hx Hy). replace (norm2 (vsub x x)) with 0 in C by (clear; vring). unfold eps0 in C. assert (0 < (/ 1000000) ^ 2) by (apply pow_lt; lra). lra.
Qed.

(** ** objective *)
Lemma sumsq_nonneg {A} (f : A -> R) l : (forall x, 0 <= f x) -> 0 <= fold_right Rplus 0 (map f l).
Proof. intros H. induction l as [|a l IH]; cbn; [lra|]. specialize (H a). lra. Qed.
Lemma sumsq_zero {A} (f : A -> R) l : (forall x, 0 <= f x) -> fold_right Rplus 0 (map f l) = 0 -> Forall (fun x => f x = 0) l.
Proof. intros H. induction l as [|a l IH]; cbn; [constructor|]. intros E. pose proof (H a). pose proof (sumsq_nonneg f l H). constructor; [lra|apply IH; lra]. Qed.
Lemma rowdiff_zero : forall u v, length u = length v -> fold_right Rplus 0 (map (fun ab : R * R => (fst ab - snd ab) ^ 2) (combine u v)) = 0 -> u = v.
Proof.
  intros u v L E. apply sumsq_zero in E; [|intros; apply pow2_ge_0]. revert v L E. induction u as [|a u IH]; intros [|b v] L E; try discriminate; auto.
  cbn [combine] in E. inversion E as [|? ? E1 E2]; subst. cbn [fst snd] in E1. f_equal; [|apply IH; auto]. apply pow2_ge_0_inv in E1 || (assert (a - b = 0) by (apply Rsqr_0_uniq; unfold Rsqr; simpl in E1; lra); lra).
Qed.
Lemma objective_nonneg q : 0 <= objective q.
Proof. unfold objective. apply sumsq_nonneg. intros p. apply sumsq_nonneg. intros. apply pow2_ge_0. Qed.
Lemma objective_cons a b q : objective (a :: b :: q) = fold_right Rplus 0 (map (fun ab : R * R => (fst ab - snd ab) ^ 2) (combine a b)) + objective (b :: q).
Proof. reflexivity. Qed.
Lemma objective_zero n : forall q, Forall (fun row : list R => length row = n) q -> objective q = 0 -> forall a b, In a q -> In b q -> a = b.
Proof.
  induction q as [|a q IH]; intros HL E; [intros ? ? []|]. destruct q as [|b q]; [intros u v [<-|[]] [<-|[]]; auto|]. rewrite objective_cons in E. inversion HL as [|? ? La HL']; subst. inversion HL' as [|? ? Lb _]; subst.
  pose proof (objective_nonneg (b :: q)) as N1. assert (N2 : 0 <= fold_right Rplus 0 (map (fun ab : R * R => (fst ab - snd ab) ^ 2) (combine a b))) by (apply sumsq_nonneg; intros; apply pow2_ge_0).
  assert (a = b) by (apply rowdiff_zero; [congruence|lra]). subst b. specialize (IH HL' ltac:(lra)). intros u v [<-|Iu] [<-|Iv]; auto; apply IH; auto; left; auto.
Qed.
Lemma objective_const a n : objective (repeat a n) = 0.
Proof.
  destruct n as [|n]; [reflexivity|]. induction n as [|n IH]; [reflexivity|]. cbn [repeat] in *. rewrite objective_cons, IH.
  assert (Z : fold_right Rplus 0 (map (fun ab : R * R => (fst ab - snd ab) ^ 2) (combine a a)) = 0) by (clear; induction a as [|x a IH]; cbn [combine map fold_right fst snd]; [auto|rewrite IH; ring]). rewrite Z. ring.
Qed.

(** ** concrete problems *)
Definition cube : shape := Shape 1 1 1.
Definition at_x (x : R) : mat4 := M4 mid (V3 x 0 0) v0 1.
Lemma at_x_rigid x : rigid (at_x x). Proof. split; cbn; auto. apply rotation_mid. Qed.
Definition rob1 (g : coll) : robot := robot_init [new_link (DH 0 0 0 0) JR g].
Definition lam1 (_ _ _ : nat) : list R := [1; 0; 0; 0; 0; 0].
Definition mu1 (_ _ _ : nat) : list R := [0; 1; 0; 0; 0; 0].
Definition wall : coll := Coll [cube] [at_x 10].
Lemma frame1 g q : fk_all_links_casadi (rob1 g) (0 :: q) = Ok [eye4].
Proof.
  unfold fk_all_links_casadi, rob1, robot_init, casadi_frames, new_link, link_transform_casadi. cbn [r_links r_tfb l_dh da dalpha dd bind]. rewrite cos_0, sin_0. do 2 f_equal. rewrite tmul_1_l. unfold eye4. f_equal; unfold mid, v0; f_equal; ring.
Qed.
Lemma pos1 g q : fk_casadi (rob1 g) (0 :: q) = Ok eye4.
Proof.
  unfold fk_casadi, rob1, robot_init, casadi_loop, new_link, link_transform_casadi. cbn [r_links r_tfb r_tool l_dh da dalpha dd bind]. rewrite cos_0, sin_0. f_equal. rewrite tmul_1_l. unfold eye4. f_equal; unfold mid, v0; f_equal; ring.
Qed.
Lemma pc1 g q : path_constraint (rob1 g) [0; 0; 0] (0 :: q) = Ok [0 = 0; 0 = 0; 0 = 0].
Proof. unfold path_constraint. rewrite pos1. reflexivity. Qed.
Lemma cc1 g P lam mu q : create_cc_for_joint_pose (rob1 g) (get_polyhedron cube eye4 :: P) (get_polyhedrons wall) (0 :: q) lam mu =
  Ok (create_collision_constraints (lam 0%nat 0%nat) (mu 0%nat 0%nat) (pA (move_poly (get_polyhedron cube eye4) eye4)) (pA (get_polyhedron cube (at_x 10)))
    (pb (move_poly (get_polyhedron cube eye4) eye4)) (pb (get_polyhedron cube (at_x 10))) eps0).
Proof. unfold create_cc_for_joint_pose. rewrite frame1. reflexivity. Qed.
Lemma problem1 gs : (exists ss ts, gs = Coll (cube :: ss) (eye4 :: ts)) -> feasible [[0; 0; 0]] (rob1 gs) (Some wall) [[0; 0; 0; 0; 0; 0]] lam1 mu1.
Proof.
  intros (ss & ts & ->). split; [reflexivity|]. split; [repeat constructor|]. unfold all_constraints, create_cc. set (g := Coll (cube :: ss) (eye4 :: ts)).
  assert (EP : exists P, flat_map (fun l => get_polyhedrons (l_geom l)) (r_links (rob1 g)) = get_polyhedron cube eye4 :: P) by (eexists; reflexivity). destruct EP as (P & ->).
  cbn [length seq mapM bind py_index nth_error]. rewrite cc1, pc1. cbn [bind concat app]. eexists. split; [reflexivity|].
  apply Forall_app. split; [|repeat constructor]. unfold create_collision_constraints.
  assert (EA : pA (move_poly (get_polyhedron cube eye4) eye4) = [V3 1 0 0; V3 (-1) 0 0; V3 0 1 0; V3 0 (-1) 0; V3 0 0 1; V3 0 0 (-1)]).
  { unfold move_poly, get_polyhedron, get_normals. cbn [pA map]. unfold eye4. cbn [rot]. rewrite !mapply_1. reflexivity. }
  assert (EO : pA (get_polyhedron cube (at_x 10)) = [V3 1 0 0; V3 (-1) 0 0; V3 0 1 0; V3 0 (-1) 0; V3 0 0 1; V3 0 0 (-1)]).
  { unfold get_polyhedron, get_normals. cbn [pA map]. unfold at_x. cbn [rot]. rewrite !mapply_1. reflexivity. }
  assert (EW : wsum [V3 1 0 0; V3 (-1) 0 0; V3 0 1 0; V3 0 (-1) 0; V3 0 0 1; V3 0 0 (-1)] (lam1 0 0 0) = V3 1 0 0).
  { unfold wsum, lam1. cbn [map combine fold_right fst snd]. unfold vadd, vscale, v0. cbn [vx vy vz]. f_equal; ring. }
  assert (EV : wsum [V3 1 0 0; V3 (-1) 0 0; V3 0 1 0; V3 0 (-1) 0; V3 0 0 1; V3 0 0 (-1)] (mu1 0 0 0) = V3 (-1) 0 0).
  { unfold wsum, mu1. cbn [map combine fold_right fst snd]. unfold vadd, vscale, v0. cbn [vx vy vz]. f_equal; ring. }
  assert (B1 : exists b, pb (move_poly (get_polyhedron cube eye4) eye4) = 0.5 :: b).
  { unfold move_poly. unfold get_polyhedron, get_normals. cbn [pA pb map combine fst snd]. eexists. f_equal. unfold eye4. cbn [rot pos]. rewrite !mapply_1. unfold cube, vdot, v0. cbn [rot pos vx vy vz dx]. lra. }
  assert (B2 : exists a b, pb (get_polyhedron cube (at_x 10)) = a :: (-9.5) :: b).
  { unfold get_polyhedron, get_normals. cbn [pA pb map combine fst snd]. eexists _, _. f_equal. f_equal. unfold at_x, cube. cbn [rot pos dx]. rewrite mapply_1. unfold vdot. cbn [vx vy vz]. lra. }
  destruct B1 as (b1 & B1). destruct B2 as (a2 & b2 & B2). rewrite EA, EO, EW, EV, B1, B2.
  assert (Z : forall b, ldot b [0; 0; 0; 0] = 0). { intros b. unfold ldot. destruct b as [|? [|? [|? [|? ?]]]]; cbn [combine map fold_right fst snd]; rewrite ?combine_nil_r; cbn [map fold_right]; ring. }
  assert (Z5 : forall b, ldot b [0; 0; 0; 0; 0] = 0). { intros b. unfold ldot. destruct b as [|? [|? [|? [|? [|? ?]]]]]; cbn [combine map fold_right fst snd]; rewrite ?combine_nil_r; cbn [map fold_right]; ring. }
  apply Forall_cons; [|apply Forall_cons; [|apply Forall_cons; [|apply Forall_cons; [|apply Forall_cons; [|apply Forall_nil]]]]].
  - unfold lam1, mu1. rewrite !ldot_cons, Z, Z5. unfold eps0. lra.
  - unfold vadd, v0. cbn [vx vy vz]. f_equal; ring.
  - unfold vdot. cbn [vx vy vz]. lra.
  - unfold lam1. repeat apply Forall_cons; try apply Forall_nil; lra.
  - unfold mu1. repeat apply Forall_cons; try apply Forall_nil; lra.
Qed.
(** a second box on the link is not constrained *)
Definition two_boxes : coll := Coll [cube; cube] [eye4; at_x 10].
Lemma second_box_ignored : feasible [[0; 0; 0]] (rob1 two_boxes) (Some wall) [[0; 0; 0; 0; 0; 0]] lam1 mu1 /\
  exists fs x, snd (fk_all_links (rob1 two_boxes) [0; 0; 0; 0; 0; 0]) = Ok fs /\ nth_error fs 0 = Some eye4 /\ in_box cube (tmul eye4 (at_x 10)) x /\ in_box cube (at_x 10) x.
Proof.
  split; [apply problem1; eexists _, _; reflexivity|]. exists [eye4], (V3 10 0 0). split.
  - rewrite <- frames_casadi_agree; [apply frame1| |repeat constructor]. apply robot_init_good. repeat constructor.
  - split; [reflexivity|]. rewrite tmul_1_l. assert (H : in_box cube (at_x 10) (V3 10 0 0)); [|auto]. exists v0. split; [|unfold at_x; vring]. unfold local_in, v0, cube. cbn. rewrite Rabs_R0. lra.
Qed.
