(** * Lemmas about path.py. *)
From Coq Require Import String Reals Lra Lia Psatz List Bool Arith ZArith Permutation.
From Verif Require Import PyBase Mat Util UtilProofs HaltonProofs Path.
Import ListNotations.
Local Open Scope R_scope.

(** ** linspace *)
Lemma linspace_length lo hi n : length (linspace lo hi n) = n.
Proof. destruct n as [|[|m]]; auto. unfold linspace. rewrite app_length, map_length, seq_length. cbn [length]. lia. Qed.
Lemma linspace_nth lo hi n k : (2 <= n)%nat -> (k < n)%nat -> nth_error (linspace lo hi n) k = Some (lo + INR k / INR (n - 1) * (hi - lo)).
Proof.
  intros Hn Hk. destruct n as [|[|m]]; try lia. unfold linspace. replace (S (S m) - 1)%nat with (S m) by lia.
  assert (P : INR (S m) <> 0) by (apply not_0_INR; lia).
  destruct (Nat.eq_dec k (S m)) as [->|N].
  - rewrite nth_error_app2 by (rewrite map_length, seq_length; lia). rewrite map_length, seq_length, Nat.sub_diag. cbn [nth_error]. f_equal. field. auto.
  - rewrite nth_error_app1 by (rewrite map_length, seq_length; lia). rewrite nth_error_map, (nth_error_nth' _ 0%nat), seq_nth by (rewrite ?seq_length; lia).
    cbn [option_map]. f_equal. rewrite Nat.add_0_l. field. auto.
Qed.
Lemma linspace_first lo hi n : (1 <= n)%nat -> nth_error (linspace lo hi n) 0 = Some lo.
Proof.
  intros Hn. destruct (Nat.eq_dec n 1) as [->|N]; [reflexivity|]. rewrite linspace_nth by lia. f_equal. cbn [INR]. unfold Rdiv. ring.
Qed.
Lemma linspace_last lo hi n : (2 <= n)%nat -> nth_error (linspace lo hi n) (n - 1) = Some hi.
Proof.
  intros Hn. rewrite linspace_nth by lia. f_equal. field. apply not_0_INR. lia.
Qed.
Lemma linspace_range lo hi n x : lo <= hi -> In x (linspace lo hi n) -> lo <= x <= hi.
Proof.
  intros H I. destruct n as [|[|m]]; [destruct I|destruct I as [<-|[]]; lra|].
  apply In_nth_error in I. destruct I as [k E]. assert (K : (k < S (S m))%nat) by (rewrite <- (linspace_length lo hi (S (S m))); apply nth_error_Some; congruence).
  rewrite linspace_nth in E by lia. replace (S (S m) - 1)%nat with (S m) in E by lia. apply (f_equal (fun o => match o with Some v => v | None => 0 end)) in E. cbv beta iota in E. subst x.
  assert (P : 0 < INR (S m)) by (apply lt_0_INR; lia). assert (Q : 0 <= INR k <= INR (S m)) by (split; [apply pos_INR|apply le_INR; lia]).
  assert (W : 0 <= INR k / INR (S m) <= 1).
  { split; [apply Rmult_le_pos; [lra|left; apply Rinv_0_lt_compat; auto]|]. apply Rmult_le_reg_r with (INR (S m)); auto. unfold Rdiv. rewrite Rmult_assoc, Rinv_l by lra. lra. }
  set (w := INR k / INR (S m)) in *. assert (0 <= w * (hi - lo) <= 1 * (hi - lo)) by (split; [apply Rmult_le_pos|apply Rmult_le_compat_r]; lra). lra.
Qed.

(** ** TolerancedNumber *)
Lemma new_tol_nominal lo hi nom n t : new_tol lo hi nom n = Ok t -> (nom <> None \/ lo <= hi) -> t_lower t <= t_nominal t <= t_upper t.
Proof.
  unfold new_tol. destruct nom as [v|].
  - destruct (Rlt_dec v lo), (Rlt_dec hi v); try discriminate. intros E _. injection E as <-. cbn. lra.
  - intros E [H|H]; [congruence|]. injection E as <-. cbn. lra.
Qed.
Lemma new_tol_fields lo hi nom n t : new_tol lo hi nom n = Ok t ->
  t_lower t = lo /\ t_upper t = hi /\ t_samples t = n /\ t_nominal t = match nom with Some v => v | None => (lo + hi) / 2 end.
Proof.
  unfold new_tol. destruct nom as [v|].
  - destruct (Rlt_dec v lo), (Rlt_dec hi v); try discriminate. intros E. injection E as <-. auto.
  - intros E. injection E as <-. cbn. repeat split. field.
Qed.
Lemma new_tol_raises lo hi v n : (v < lo \/ hi < v) -> new_tol lo hi (Some v) n = Raise ValueError.
Proof. intros H. unfold new_tol. destruct (Rlt_dec v lo); auto. destruct (Rlt_dec hi v); auto. lra. Qed.
Lemma new_tol_inverted : exists t, new_tol 1 0 None 10 = Ok t /\ ~ (t_lower t <= t_nominal t <= t_upper t).
Proof. eexists. split; [reflexivity|]. cbn. lra. Qed.

Lemma discretise_spec t l : tol_discretise t = Ok l ->
  Z.of_nat (length l) = t_samples t /\
  (t_lower t <= t_upper t -> forall x, In x l -> t_lower t <= x <= t_upper t) /\
  ((1 <= length l)%nat -> nth_error l 0 = Some (t_lower t)) /\
  ((2 <= length l)%nat -> nth_error l (length l - 1) = Some (t_upper t)) /\
  (forall k, (2 <= length l)%nat -> (k < length l)%nat -> nth_error l k = Some (t_lower t + INR k / INR (length l - 1) * (t_upper t - t_lower t))).
Proof.
  unfold tol_discretise. destruct (Z.ltb_spec (t_samples t) 0); [discriminate|]. intros E. injection E as <-. rewrite linspace_length.
  split; [lia|]. split; [intros; eapply linspace_range; eauto|]. split; [apply linspace_first|]. split; [apply linspace_last|]. intros. apply linspace_nth; auto.
Qed.
Lemma discretise_returns t : (0 <= t_samples t)%Z -> exists l, tol_discretise t = Ok l.
Proof. intros H. unfold tol_discretise. destruct (Z.ltb_spec (t_samples t) 0); [lia|]. eauto. Qed.
Lemma discretise_negative t : (t_samples t < 0)%Z -> tol_discretise t = Raise ValueError.
Proof. intros H. unfold tol_discretise. destruct (Z.ltb_spec (t_samples t) 0); [auto|lia]. Qed.

(** ** specification of a coordinate *)
(** number of grid values, grid value, within tolerance *)
Definition count (v : num) : nat := match v with Fix _ => 1%nat | Tol t => Z.to_nat (t_samples t) end.
Definition on_grid (v : num) (x : R) : Prop :=
  match v with
  | Fix y => x = y
  | Tol t => x = t_lower t /\ (1 <= t_samples t)%Z \/
             exists k, (k < count v)%nat /\ (2 <= t_samples t)%Z /\ x = t_lower t + INR k / INR (count v - 1) * (t_upper t - t_lower t)
  end.
Definition within (v : num) (x : R) : Prop := match v with Fix y => x = y | Tol t => t_lower t <= x <= t_upper t end.
Definition proper (v : num) : Prop := match v with Fix _ => True | Tol t => t_lower t <= t_upper t /\ (0 <= t_samples t)%Z end.
Definition sampled (v : num) : Prop := match v with Fix _ => True | Tol t => (0 <= t_samples t)%Z end.
Lemma discretise_num_spec v : sampled v -> exists l, discretise_num v = Ok l /\ length l = count v /\ (forall x, In x l <-> on_grid v x).
Proof.
  destruct v as [y|t]; cbn [discretise_num sampled count on_grid]; intros H.
  - exists [y]. split; [auto|]. split; [auto|]. intros x. cbn. split; [intros [<-|[]]; auto|auto].
  - unfold tol_discretise. destruct (Z.ltb_spec (t_samples t) 0); [lia|]. eexists. split; [reflexivity|]. split; [apply linspace_length|]. set (n := Z.to_nat (t_samples t)). intros x. split.
    + intros I. apply In_nth_error in I. destruct I as [k E]. assert (K : (k < n)%nat) by (rewrite <- (linspace_length (t_lower t) (t_upper t) n); apply nth_error_Some; congruence).
      destruct (Nat.leb_spec 2 n).
      * right. exists k. rewrite linspace_nth in E by auto. injection E as <-. split; [auto|]. split; [lia|auto].
      * left. assert (k = 0)%nat by lia. subst k. rewrite linspace_first in E by lia. injection E as <-. split; [auto|lia].
    + intros [[-> G]|(k & K & G & ->)]; [eapply nth_error_In, linspace_first; lia|]. eapply nth_error_In, linspace_nth; lia.
Qed.
Lemma on_grid_within v x : proper v -> on_grid v x -> within v x.
Proof.
  destruct v as [y|t]; cbn [proper within]; auto. intros [H S] G.
  destruct (discretise_num_spec (Tol t)) as (l & E & _ & Hl); [exact S|]. apply Hl in G. cbn in E. apply discretise_spec in E. destruct E as (_ & E & _). auto.
Qed.

(** the grid over a list of coordinates *)
Lemma grid_spec l : l <> [] -> Forall sampled l -> exists r, mapM discretise_num l = Ok r /\
  length (create_grid r) = fold_right Nat.mul 1%nat (map count l) /\ forall x, In x (create_grid r) <-> Forall2 on_grid l x.
Proof.
  intros N H. assert (E : exists r, mapM discretise_num l = Ok r /\ Forall2 (fun v c => length c = count v /\ forall x, In x c <-> on_grid v x) l r).
  { clear N. induction H as [|v l Hv Hl (r & E & F)]; [exists []; split; [reflexivity|constructor]|]. destruct (discretise_num_spec v Hv) as (c & Ec & Lc & Ic). exists (c :: r).
    cbn [mapM]. rewrite Ec, E. split; [reflexivity|]. constructor; auto. }
  destruct E as (r & E & F). exists r. split; [auto|]. assert (Nr : r <> []) by (inversion F; subst; congruence). split.
  - rewrite create_grid_length by auto. clear E N Nr. induction F as [|v c l r (Lc & _) F IH]; cbn [map fold_right]; auto. rewrite Lc, IH; auto. inversion H; auto.
  - intros x. rewrite create_grid_In by auto. clear E N Nr H. revert x. induction F as [|v c l r (_ & Ic) F IH]; intros x.
    + split; intros G; inversion G; constructor.
    + split; intros G; inversion G; subst; constructor; try (apply Ic; auto); apply IH; auto.
Qed.
Lemma mapM_ex {A B} (f : A -> res B) (P : A -> B -> Prop) l : (forall x, In x l -> exists y, f x = Ok y /\ P x y) ->
  exists ys, mapM f l = Ok ys /\ Forall2 P l ys.
Proof.
  induction l as [|x l IH]; intros H; [exists []; split; [reflexivity|constructor]|]. destruct (H x) as (y & E & Py); [left; auto|]. destruct IH as (ys & Es & F); [intros; apply H; right; auto|].
  exists (y :: ys). cbn [mapM]. rewrite E, Es. split; [reflexivity|constructor; auto].
Qed.
Lemma Forall2_length {A B} {P : A -> B -> Prop} {l l'} : Forall2 P l l' -> length l = length l'.
Proof. induction 1; cbn; auto. Qed.
Lemma Forall2_In_r {A B} (P : A -> B -> Prop) l l' y : Forall2 P l l' -> In y l' -> exists x, In x l /\ P x y.
Proof. induction 1 as [|a b l l' Hp Hf IH]; intros I; [destruct I|]. destruct I as [->|I]; [eexists; split; [left; reflexivity|auto]|]. destruct (IH I) as (z & ? & ?). exists z. split; [right; auto|auto]. Qed.
Lemma Forall2_In_l {A B} (P : A -> B -> Prop) l l' x : Forall2 P l l' -> In x l -> exists y, In y l' /\ P x y.
Proof. induction 1 as [|a b l l' Hp Hf IH]; intros I; [destruct I|]. destruct I as [->|I]; [eexists; split; [left; reflexivity|auto]|]. destruct (IH I) as (z & ? & ?). exists z. split; [right; auto|auto]. Qed.

(** ** TolEulerPt *)
Lemma rot_xyz_rotation a b c : rotation (rot_xyz a b c).
Proof. apply rotation_mmul; [apply rot_x_rotation|apply rotation_mmul; [apply rot_y_rotation|apply rot_z_rotation]]. Qed.
Definition frame6 (x y z a b c : R) : mat4 := M4 (rot_xyz a b c) (V3 x y z) v0 1.
Lemma frame6_rigid x y z a b c : rigid (frame6 x y z a b c).
Proof. split; cbn; auto. apply rot_xyz_rotation. Qed.
Lemma Forall2_6 {A B} (P : A -> B -> Prop) a b c d e f l : Forall2 P [a; b; c; d; e; f] l ->
  exists x y z u v w, l = [x; y; z; u; v; w] /\ P a x /\ P b y /\ P c z /\ P d u /\ P e v /\ P f w.
Proof.
  intros H. inversion H as [|? x ? ? Hx H1]; subst. inversion H1 as [|? y ? ? Hy H2]; subst. inversion H2 as [|? z ? ? Hz H3]; subst. inversion H3 as [|? u ? ? Hu H4]; subst.
  inversion H4 as [|? v ? ? Hv H5]; subst. inversion H5 as [|? w ? ? Hw H6]; subst. inversion H6; subst. exists x, y, z, u, v, w. auto 10.
Qed.
Lemma Forall2_3 {A B} (P : A -> B -> Prop) a b c l : Forall2 P [a; b; c] l -> exists x y z, l = [x; y; z] /\ P a x /\ P b y /\ P c z.
Proof.
  intros H. inversion H as [|? x ? ? Hx H1]; subst. inversion H1 as [|? y ? ? Hy H2]; subst. inversion H2 as [|? z ? ? Hz H3]; subst. inversion H3; subst. exists x, y, z. auto.
Qed.
Lemma mapM_app {A B} (f : A -> res B) l l' : mapM f (l ++ l') = (x <- mapM f l ;; y <- mapM f l' ;; Ok (x ++ y)).
Proof.
  induction l as [|a l IH]; cbn [mapM app bind]; [destruct (mapM f l'); reflexivity|]. rewrite IH. destruct (f a); cbn [bind]; auto. destruct (mapM f l); cbn [bind]; auto. destruct (mapM f l'); reflexivity.
Qed.
Section Euler.
Context (p1 p2 p3 a1 a2 a3 : num) (pr ar : list num) (p : eulerpt).
Hypothesis (Hp : new_eulerpt (p1 :: p2 :: p3 :: pr) (a1 :: a2 :: a3 :: ar) = Ok p).
Let six := [p1; p2; p3; a1; a2; a3].
Lemma euler_fields : e_pos p = p1 :: p2 :: p3 :: pr /\ e_rpy p = a1 :: a2 :: a3 :: ar /\ e_nominal p = map nominal_of six.
Proof. injection Hp as <-. auto. Qed.
Lemma euler_spec : Forall sampled six -> exists l, euler_samples p = Ok l /\
  length l = fold_right Nat.mul 1%nat (map count six) /\
  (forall T, In T l <-> exists x y z a b c, Forall2 on_grid six [x; y; z; a; b; c] /\ T = frame6 x y z a b c).
Proof.
  intros H. destruct euler_fields as (E1 & E2 & _). unfold euler_samples. rewrite E1, E2. cbn [firstn].
  destruct (grid_spec six ltac:(discriminate) H) as (r & E & L & G). change six with ([p1; p2; p3] ++ [a1; a2; a3]) in E. rewrite mapM_app in E.
  apply bind_Ok in E. destruct E as (r1 & F1 & E). apply bind_Ok in E. destruct E as (r2 & F2 & E). injection E as E. rewrite F1. cbn [bind]. rewrite F2. cbn [bind]. rewrite E.
  destruct (mapM_ex frame_of_row (fun row T => exists x y z a b c, row = [x; y; z; a; b; c] /\ T = frame6 x y z a b c) (create_grid r)) as (l & El & Fl).
  { intros row Ir. apply G in Ir. apply Forall2_6 in Ir. destruct Ir as (x & y & z & u & v & w & -> & _). eexists. split; [reflexivity|]. exists x, y, z, u, v, w. auto. }
  exists l. split; [auto|]. split; [rewrite <- L; symmetry; eapply Forall2_length; eauto|]. intros T. split.
  - intros I. destruct (Forall2_In_r _ _ _ _ Fl I) as (row & Ir & x & y & z & a & b & c & -> & ->). exists x, y, z, a, b, c. split; [apply G; auto|auto].
  - intros (x & y & z & a & b & c & F & ->). apply G in F. destruct (Forall2_In_l _ _ _ _ Fl F) as (T & I & x' & y' & z' & a' & b' & c' & Er & ->). injection Er as <- <- <- <- <- <-. auto.
Qed.
Lemma euler_within : Forall proper six -> exists l, euler_samples p = Ok l /\ forall T, In T l ->
  rigid T /\ exists x y z a b c, Forall2 within six [x; y; z; a; b; c] /\ T = frame6 x y z a b c.
Proof.
  intros H. destruct euler_spec as (l & E & _ & G).
  { eapply Forall_impl; [|exact H]. intros [y|t]; cbn; tauto. }
  exists l. split; [auto|]. intros T I. apply G in I. destruct I as (x & y & z & a & b & c & F & ->). split; [apply frame6_rigid|]. exists x, y, z, a, b, c. split; auto.
  clear - H F. induction F; constructor; inversion H; subst; auto using on_grid_within.
Qed.
Lemma euler_nominal : nominal_transform p = Ok (frame6 (nominal_of p1) (nominal_of p2) (nominal_of p3) (nominal_of a1) (nominal_of a2) (nominal_of a3)) /\
  nominal_transform p = point_to_frame (e_nominal p).
Proof. unfold nominal_transform. destruct euler_fields as (_ & _ & ->). split; reflexivity. Qed.
End Euler.
Lemma new_eulerpt_Ok pos rpy : (exists p, new_eulerpt pos rpy = Ok p) <-> (3 <= length pos /\ 3 <= length rpy)%nat.
Proof.
  unfold new_eulerpt, check_for_tolerance. split.
  - intros (p & E). destruct pos as [|? [|? [|? ?]]]; try discriminate. destruct rpy as [|? [|? [|? ?]]]; try discriminate. cbn. lia.
  - intros [H1 H2]. destruct pos as [|? [|? [|? ?]]]; cbn in H1; try lia. destruct rpy as [|? [|? [|? ?]]]; cbn in H2; try lia. eexists. reflexivity.
Qed.

(** ** TolPositionPt *)
Section Pos.
Context (p1 p2 p3 : num) (pr : list num) (q : quat) (p : pospt).
Hypothesis (Hp : new_pospt (p1 :: p2 :: p3 :: pr) q = Ok p).
Lemma pos_fields : p_pos p = p1 :: p2 :: p3 :: pr /\ p_quat p = q /\ p_nom p = map nominal_of [p1; p2; p3].
Proof. injection Hp as <-. auto. Qed.
Lemma pos_spec : Forall sampled [p1; p2; p3] -> exists l, pos_samples p = Ok l /\
  length l = fold_right Nat.mul 1%nat (map count [p1; p2; p3]) /\
  (forall T, In T l <-> exists x y z, Forall2 on_grid [p1; p2; p3] [x; y; z] /\ T = M4 (qrot q) (V3 x y z) v0 1).
Proof.
  intros H. destruct pos_fields as (E1 & E2 & _). unfold pos_samples. rewrite E1, E2. cbn [firstn].
  destruct (grid_spec [p1; p2; p3] ltac:(discriminate) H) as (r & E & L & G). rewrite E. cbn [bind].
  destruct (mapM_ex (set_pos (qtransform q)) (fun row T => exists x y z, row = [x; y; z] /\ T = M4 (qrot q) (V3 x y z) v0 1) (create_grid r)) as (l & El & Fl).
  { intros row Ir. apply G in Ir. apply Forall2_3 in Ir. destruct Ir as (x & y & z & -> & _). eexists. split; [reflexivity|]. exists x, y, z. auto. }
  exists l. split; [auto|]. split; [rewrite <- L; symmetry; eapply Forall2_length; eauto|]. intros T. split.
  - intros I. destruct (Forall2_In_r _ _ _ _ Fl I) as (row & Ir & x & y & z & -> & ->). exists x, y, z. split; [apply G; auto|auto].
  - intros (x & y & z & F & ->). apply G in F. destruct (Forall2_In_l _ _ _ _ Fl F) as (T & I & x' & y' & z' & Er & ->). injection Er as <- <- <-. auto.
Qed.
Lemma pos_within : Forall proper [p1; p2; p3] -> qnorm2 q <> 0 -> exists l, pos_samples p = Ok l /\ forall T, In T l ->
  rigid T /\ rot T = qrot q /\ within p1 (vx (pos T)) /\ within p2 (vy (pos T)) /\ within p3 (vz (pos T)).
Proof.
  intros H Q. destruct pos_spec as (l & E & _ & G).
  { eapply Forall_impl; [|exact H]. intros [y|t]; cbn; tauto. }
  exists l. split; [auto|]. intros T I. apply G in I. destruct I as (x & y & z & F & ->). split; [split; cbn; auto; apply qrot_rotation; auto|]. split; [auto|]. cbn [pos vx vy vz].
  apply Forall2_3 in F. destruct F as (x' & y' & z' & E' & F1 & F2 & F3). injection E' as <- <- <-. inversion H as [|? ? H1 H']; subst. inversion H' as [|? ? H2 H'']; subst. inversion H'' as [|? ? H3 _]; subst.
  auto using on_grid_within.
Qed.
End Pos.

(** ** quaternions *)
Definition qscale k (q : quat) := Quat (k * qw q) (k * qx q) (k * qy q) (k * qz q).
Lemma quat_eq p q : qw p = qw q -> qx p = qx q -> qy p = qy q -> qz p = qz q -> p = q.
Proof. destruct p, q; cbn; congruence. Qed.
Lemma unit_rot_mul p q : unit_rot (qmul p q) = mmul (unit_rot p) (unit_rot q).
Proof. destruct p as [w1 x1 y1 z1], q as [w2 x2 y2 z2]. unfold unit_rot, qmul, mmul. cbn [qw qx qy qz m00 m01 m02 m10 m11 m12 m20 m21 m22]. f_equal; ring. Qed.
Lemma unit_rot_scale k q : unit_rot (qscale k q) = mscale (k * k) (unit_rot q).
Proof. destruct q as [w1 x1 y1 z1]. unfold unit_rot, qscale, mscale. cbn [qw qx qy qz m00 m01 m02 m10 m11 m12 m20 m21 m22]. f_equal; ring. Qed.
Lemma qnorm2_mul p q : qnorm2 (qmul p q) = qnorm2 p * qnorm2 q.
Proof. destruct p as [w1 x1 y1 z1], q as [w2 x2 y2 z2]. unfold qnorm2, qmul. cbn [qw qx qy qz]. ring. Qed.
Lemma qnorm2_pos q : 0 <= qnorm2 q.
Proof. unfold qnorm2. nra. Qed.
(** qrot is the homogeneous form divided by the norm *)
Lemma qrot_form q : qnorm2 q <> 0 -> qrot q = mscale (/ qnorm2 q) (unit_rot q).
Proof.
  intros H. pose proof (qnorm2_pos q) as P. unfold qrot, qnormalise. destruct (Req_EM_T (sqrt (qnorm2 q)) 0) as [E|E]; [exfalso; apply sqrt_eq_0 in E; auto|].
  set (n := sqrt (qnorm2 q)) in *. assert (N : n * n = qnorm2 q) by (apply sqrt_sqrt; auto).
  replace (Quat (qw q / n) (qx q / n) (qy q / n) (qz q / n)) with (qscale (/ n) q) by (apply quat_eq; cbn; unfold Rdiv; ring). rewrite unit_rot_scale. f_equal. rewrite <- N. field. auto.
Qed.
Lemma mmul_scale a b A B : mmul (mscale a A) (mscale b B) = mscale (a * b) (mmul A B).
Proof. destruct A as [x1 x2 x3 x4 x5 x6 x7 x8 x9], B as [y1 y2 y3 y4 y5 y6 y7 y8 y9]. unfold mmul, mscale. cbn [m00 m01 m02 m10 m11 m12 m20 m21 m22]. f_equal; ring. Qed.
Lemma qrot_mul p q : qnorm2 p <> 0 -> qnorm2 q <> 0 -> qrot (qmul p q) = mmul (qrot p) (qrot q).
Proof.
  intros P Q. assert (PQ : qnorm2 (qmul p q) <> 0) by (rewrite qnorm2_mul; apply Rmult_integral_contrapositive; auto).
  rewrite !qrot_form, unit_rot_mul, mmul_scale, qnorm2_mul by auto. f_equal. field. auto.
Qed.
Lemma qrot_normalise q : qrot (qnormalise q) = qrot q.
Proof.
  destruct (Req_EM_T (qnorm2 q) 0) as [Z|N].
  - unfold qrot, qnormalise at 2 3. rewrite Z, sqrt_0. destruct (Req_EM_T 0 0); [|lra]. unfold qnormalise. rewrite Z, sqrt_0. destruct (Req_EM_T 0 0); [auto|lra].
  - pose proof (qnormalise_unit q N) as U. rewrite qrot_form by lra. rewrite U, Rinv_1, mscale_1. reflexivity.
Qed.

(** ** AxisAnglePt *)
(** rotation about the unit vector e by the angle a (Rodrigues) *)
Definition rodrigues (e : vec3) (a : R) (v : vec3) : vec3 :=
  vadd (vadd (vscale (cos a) v) (vscale (sin a) (cross e v))) (vscale ((1 - cos a) * vdot e v) e).
Lemma axis_quat_rot e a v : norm2 e = 1 ->
  mapply (unit_rot (Quat (cos (a / 2)) (vx e * sin (a / 2)) (vy e * sin (a / 2)) (vz e * sin (a / 2)))) v = rodrigues e a v.
Proof.
  intros N. unfold rodrigues. set (c := cos (a / 2)). set (s := sin (a / 2)). assert (S : c * c + s * s = 1) by (pose proof (sin2_cos2 (a / 2)) as Z; unfold Rsqr in Z; fold c s in Z; lra).
  replace (cos a) with (c * c - s * s) by (unfold c, s; rewrite <- cos_plus; f_equal; field).
  replace (sin a) with (2 * s * c) by (unfold c, s; rewrite <- sin_2a; f_equal; field).
  destruct e as [x y z], v as [u w t]. unfold norm2, vdot in N. cbn [vx vy vz] in N. unfold unit_rot, mapply, vadd, vscale, cross, vdot. cbn [qw qx qy qz vx vy vz m00 m01 m02 m10 m11 m12 m20 m21 m22].
  replace (1 - (c * c - s * s)) with (2 * (s * s)) by (rewrite <- S; ring). assert (X : x * x = 1 - y * y - z * z) by lra. clear S N.
  f_equal; ring_simplify; replace (x ^ 2) with (1 - y * y - z * z) by (rewrite <- X; ring); ring.
Qed.
Definition unit_axis (v : vec3) : vec3 := vscale (/ sqrt (norm2 v)) v.
Lemma norm2_pos v : 0 <= norm2 v.
Proof. unfold norm2, vdot. nra. Qed.
Lemma unit_axis_unit v : norm2 v <> 0 -> norm2 (unit_axis v) = 1.
Proof.
  intros N. pose proof (norm2_pos v) as P. assert (Z : sqrt (norm2 v) <> 0) by (intros E; apply sqrt_eq_0 in E; auto).
  unfold unit_axis. replace (norm2 (vscale (/ sqrt (norm2 v)) v)) with (norm2 v / (sqrt (norm2 v) * sqrt (norm2 v))) by (unfold norm2 at 1 4, vdot, vscale; cbn [vx vy vz]; field; auto).
  rewrite sqrt_sqrt by auto. field. auto.
Qed.
Lemma unit_axis_id v : norm2 v = 1 -> unit_axis v = v.
Proof. intros N. unfold unit_axis. rewrite N, sqrt_1, Rinv_1. destruct v as [x y z]. unfold vscale. cbn [vx vy vz]. f_equal; ring. Qed.
(** the axis is exactly one long, or far enough from it to be normalised *)
Definition clear_axis (v : vec3) : Prop := norm2 v = 1 \/ / 10 ^ 12 < Rabs (1 - norm2 v).
Lemma axis_angle_clear v a : norm2 v <> 0 -> clear_axis v -> exists q, quat_axis_angle v a = Ok q /\ qnorm2 q = 1 /\ forall u, mapply (qrot q) u = rodrigues (unit_axis v) a u.
Proof.
  intros N C. unfold quat_axis_angle. destruct (Req_EM_T (norm2 v) 0); [lra|]. eexists. split; [reflexivity|].
  assert (E : (if Rlt_dec (/ 10 ^ 12) (Rabs (1 - norm2 v)) then vscale (/ sqrt (norm2 v)) v else v) = unit_axis v).
  { destruct (Rlt_dec _ _); [reflexivity|]. destruct C as [C|C]; [|lra]. symmetry. apply unit_axis_id. auto. }
  rewrite E. pose proof (unit_axis_unit v N) as U. set (e := unit_axis v) in *.
  match goal with |- qnorm2 ?q = 1 /\ _ => assert (Q : qnorm2 q = 1) end.
  { unfold qnorm2. cbn [qw qx qy qz]. set (c := cos (a / 2)). set (s := sin (a / 2)). assert (S : c * c + s * s = 1) by (pose proof (sin2_cos2 (a / 2)) as Z; unfold Rsqr in Z; fold c s in Z; lra).
    unfold norm2, vdot in U. replace (c * c + vx e * s * (vx e * s) + vy e * s * (vy e * s) + vz e * s * (vz e * s)) with (c * c + (vx e * vx e + vy e * vy e + vz e * vz e) * (s * s)) by ring. rewrite U. lra. }
  split; [auto|]. intros u. rewrite qrot_form by lra. rewrite Q, Rinv_1, mscale_1. apply axis_quat_rot. auto.
Qed.
(** angle of sample k out of n *)
Definition angle_at (t : tolnum) (k n : nat) : R :=
  if Nat.leb 2 n then t_lower t + INR k / INR (n - 1) * (t_upper t - t_lower t) else t_lower t.
Lemma angle_at_within t k n : t_lower t <= t_upper t -> (k < n)%nat -> t_lower t <= angle_at t k n <= t_upper t.
Proof.
  intros B K. unfold angle_at. destruct (Nat.leb_spec 2 n); [|lra]. eapply linspace_range; [auto|]. eapply nth_error_In. apply (linspace_nth _ _ n k); auto.
Qed.
Lemma Forall2_nth_r {A B} (P : A -> B -> Prop) l l' k y : Forall2 P l l' -> nth_error l' k = Some y -> exists x, nth_error l k = Some x /\ P x y.
Proof. intros F. revert k. induction F as [|a b l l' Hp Hf IH]; intros [|k] E; cbn in *; try discriminate; [injection E as <-; eauto|auto]. Qed.
Lemma axis_spec pt l : axis_samples pt = Ok l -> qnorm2 (a_quat pt) <> 0 -> clear_axis (a_axis pt) ->
  Z.of_nat (length l) = t_samples (a_angle pt) /\ forall k T, nth_error l k = Some T -> rigid T /\
  (forall x y z, a_pos pt = [x; y; z] -> pos T = V3 x y z) /\
  forall u, mapply (rot T) u = rodrigues (unit_axis (a_axis pt)) (angle_at (a_angle pt) k (length l)) (mapply (qrot (a_quat pt)) u).
Proof.
  intros E Q C. unfold axis_samples in E. apply bind_Ok in E. destruct E as (angles & Ea & E). destruct (discretise_spec _ _ Ea) as (L & _ & R1 & _ & R2).
  pose proof (mapM_Ok_length _ _ _ E) as Ll. split; [rewrite <- L, Ll; auto|]. intros k T I. apply mapM_Ok_Forall2 in E. destruct (Forall2_nth_r _ _ _ _ _ E I) as (a & Ia & Et).
  assert (K : (k < length angles)%nat) by (apply nth_error_Some; congruence).
  assert (Ha : a = angle_at (a_angle pt) k (length l)).
  { unfold angle_at. rewrite Ll. destruct (Nat.leb_spec 2 (length angles)) as [G|G]; [rewrite R2 in Ia by auto|assert (k = 0)%nat by lia; subst k; rewrite R1 in Ia by lia]; congruence. }
  rewrite <- Ha. clear Ha.
  apply bind_Ok in Et. destruct Et as (qa & Eq & Et).
  assert (N : norm2 (a_axis pt) <> 0) by (unfold quat_axis_angle in Eq; destruct (Req_EM_T (norm2 (a_axis pt)) 0); [discriminate|auto]).
  destruct (axis_angle_clear (a_axis pt) a N C) as (q & Eq' & U & A). rewrite Eq in Eq'. injection Eq' as <-.
  assert (M : qnorm2 (qmul qa (a_quat pt)) <> 0) by (rewrite qnorm2_mul, U, Rmult_1_l; auto).
  assert (F : exists v, T = M4 (qrot (qmul qa (a_quat pt))) v v0 1 /\ forall x y z, a_pos pt = [x; y; z] -> v = V3 x y z).
  { unfold set_pos in Et. destruct (a_pos pt) as [|x [|y [|z [|]]]]; try discriminate; injection Et as <-; (eexists; split; [reflexivity|]); intros ? ? ? G; [discriminate|injection G as <- <- <-; auto]. }
  destruct F as (v & -> & V). split; [split; cbn; auto; apply qrot_rotation; auto|]. split; [exact V|]. intros u. cbn [rot]. rewrite qrot_mul, mapply_mmul by lra. apply A.
Qed.
Lemma axis_returns x y z axis t q : norm2 axis <> 0 -> (0 <= t_samples t)%Z -> exists l, axis_samples (AxisPt [x; y; z] axis t q) = Ok l.
Proof.
  intros N S. unfold axis_samples. cbn [a_angle a_axis a_quat a_pos]. destruct (discretise_returns t S) as (l & ->). cbn [bind].
  destruct (mapM_ex (fun ai => qa <- quat_axis_angle axis ai ;; set_pos (qtransform (qmul qa q)) [x; y; z]) (fun _ _ => True) l) as (ys & E & _); [|eauto].
  intros a _. unfold quat_axis_angle. destruct (Req_EM_T (norm2 axis) 0); [lra|]. cbn [bind set_pos]. eauto.
Qed.
Lemma axis_zero p axis t q : norm2 axis = 0 -> (1 <= t_samples t)%Z -> axis_samples (AxisPt p axis t q) = Raise ZeroDivisionError.
Proof.
  intros N S. unfold axis_samples, tol_discretise. cbn [a_angle a_axis a_quat a_pos]. destruct (Z.ltb_spec (t_samples t) 0); [lia|]. cbn [bind].
  destruct (linspace (t_lower t) (t_upper t) (Z.to_nat (t_samples t))) as [|a l] eqn:E.
  - apply (f_equal (@length R)) in E. rewrite linspace_length in E. cbn in E. lia.
  - cbn [mapM]. unfold quat_axis_angle. destruct (Req_EM_T (norm2 axis) 0); [reflexivity|lra].
Qed.
(** rodrigues is the rotation about e by a: it fixes e, keeps lengths, and turns vectors orthogonal to e by a *)
Lemma rodrigues_axis e a : norm2 e = 1 -> rodrigues e a e = e.
Proof.
  intros N. unfold norm2 in N. unfold rodrigues. rewrite N. destruct e as [x y z]. unfold vadd, vscale, cross. cbn [vx vy vz]. f_equal; ring.
Qed.
Lemma rodrigues_turn e a v : norm2 e = 1 -> vdot e v = 0 -> rodrigues e a v = vadd (vscale (cos a) v) (vscale (sin a) (cross e v)).
Proof. intros _ D. unfold rodrigues. rewrite D. destruct v as [u w t], e as [x y z]. unfold vadd, vscale, cross. cbn [vx vy vz]. f_equal; ring. Qed.
Lemma rodrigues_norm e a v : norm2 e = 1 -> norm2 (rodrigues e a v) = norm2 v.
Proof. intros N. rewrite <- axis_quat_rot by auto. apply rotation_norm, unit_rotation.
  unfold qnorm2. cbn [qw qx qy qz]. set (c := cos (a / 2)). set (s := sin (a / 2)). assert (S : c * c + s * s = 1) by (pose proof (sin2_cos2 (a / 2)) as Z; unfold Rsqr in Z; fold c s in Z; lra).
  unfold norm2, vdot in N. replace (c * c + vx e * s * (vx e * s) + vy e * s * (vy e * s) + vz e * s * (vz e * s)) with (c * c + (vx e * vx e + vy e * vy e + vz e * vz e) * (s * s)) by ring. rewrite N. lra.
Qed.

(** ** FreeOrientationPt and TolOrientationPt *)
Definition meth_ok (ypr : quat -> vec3) (fuel : nat) (rnd : list (list R)) (n : nat) (meth : option string) : Prop :=
  forall rep, exists v, sample_SO3 ypr fuel rnd n rep (match meth with Some s => s | None => "random"%string end) = Ok v /\ so3_good n rep ypr v.
Lemma meth_random ypr fuel rnd n : (n <= length rnd)%nat -> Forall unit_row rnd -> meth_ok ypr fuel rnd n None /\ meth_ok ypr fuel rnd n (Some "random"%string).
Proof. intros L U. split; intros rep; apply so3_random; auto. Qed.
Lemma meth_halton ypr rnd n : exists F, forall fuel, (F <= fuel)%nat -> meth_ok ypr fuel rnd n (Some "halton"%string).
Proof.
  destruct (halton_init_fuel 3) as (F & h & E). exists (Nat.max F n). intros fuel Hf rep.
  unfold sample_SO3. cbn [String.eqb Ascii.eqb Bool.eqb bind].
  pose proof (E fuel ltac:(lia)) as Ei. rewrite Ei. cbn [bind].
  destruct (halton_rows fuel 3 h n Ei ltac:(lia) ltac:(lia)) as (rows & h' & Er & Hl & Hr). rewrite Er. cbn [bind].
  apply halton_init_Ok in Ei. destruct Ei as (L3 & Hp & _). apply fop_ge2 in Hp.
  rewrite <- Hl. apply so3_finish. apply Forall_forall. intros row Hin. apply In_nth_error in Hin. destruct Hin as (i & Hi). apply Hr in Hi.
  destruct (h_primes h) as [|p1 [|p2 [|p3 [|]]]]; try discriminate L3.
  inversion Hi as [|? r1 ? ? H1 T1]; subst. inversion T1 as [|? r2 ? ? H2 T2]; subst. inversion T2 as [|? r3 ? ? H3 T3]; subst. inversion T3; subst.
  exists r1, r2, r3. split; auto. destruct H1 as (f & H1). apply Forall_inv in Hp. pose proof (vdc_range (Z.of_nat p1) ltac:(lia) (Z.of_nat (i + 1)) f r1 ltac:(lia) H1). lra.
Qed.
Lemma free_transform ypr fuel rnd x y z n meth : meth_ok ypr fuel rnd n meth ->
  exists l, free_samples ypr fuel rnd [x; y; z] n (Some "transform"%string) meth = Ok (STfs l) /\ length l = n /\ Forall (fun T => rigid T /\ pos T = V3 x y z) l.
Proof.
  intros M. destruct (M "transform"%string) as (v & E & qs & Lq & Hq & G). unfold free_samples. cbn [String.eqb Ascii.eqb Bool.eqb].
  rewrite E. cbn [bind]. destruct v as [l|l|l|]; [destruct G; discriminate| |destruct G; discriminate|destruct G as (_ & G & _); congruence].
  destruct G as (_ & -> & Hr).
  destruct (mapM_ex (fun T => set_pos T [x; y; z]) (fun T U => (rigid T -> rigid U) /\ pos U = V3 x y z) (map qtransform qs)) as (ts & Et & Ft).
  { intros T _. eexists. split; [reflexivity|]. split; [|reflexivity]. intros [a b c]. split; cbn; auto. }
  rewrite Et. exists ts. split; [reflexivity|]. split; [rewrite <- (Forall2_length Ft), map_length; auto|].
  apply Forall_forall. intros T I. destruct (Forall2_In_r _ _ _ _ Ft I) as (U & IU & H1 & H2). split; [|auto]. apply H1. rewrite Forall_forall in Hr. auto.
Qed.
Lemma free_rpy ypr fuel rnd p n rep meth : meth_ok ypr fuel rnd n meth -> (1 <= n)%nat -> rep = None \/ rep = Some "rpy"%string ->
  exists l, free_samples ypr fuel rnd p n rep meth = Ok (SRows l) /\ length l = n /\ Forall (fun r => exists q, qnorm2 q = 1 /\ r = p ++ [vx (ypr q); vy (ypr q); vz (ypr q)]) l.
Proof.
  intros M N R. destruct (M "rpy"%string) as (v & E & qs & Lq & Hq & G). unfold free_samples.
  assert (W : match rep with Some s => s | None => "rpy"%string end = "rpy"%string) by (destruct R as [->| ->]; auto). rewrite W. cbn [String.eqb Ascii.eqb Bool.eqb].
  rewrite E. cbn [bind]. destruct v as [l|l|l|]; [destruct G; discriminate|destruct G; discriminate| |destruct G as (_ & _ & G); congruence].
  destruct G as (_ & ->). destruct (map ypr qs) as [|a l] eqn:El; [apply (f_equal (@length vec3)) in El; rewrite map_length in El; cbn in El; lia|].
  eexists. split; [reflexivity|]. split; [rewrite map_length, <- El, map_length; auto|]. apply Forall_map, Forall_forall. intros u I.
  rewrite <- El in I. apply in_map_iff in I. destruct I as (q & <- & I). exists q. split; [rewrite Forall_forall in Hq; auto|reflexivity].
Qed.
Lemma free_unknown ypr fuel rnd p n rep meth : rep <> "rpy"%string -> rep <> "transform"%string -> rep <> "quat"%string ->
  free_samples ypr fuel rnd p n (Some rep) meth = Raise ValueError.
Proof. intros H1 H2 H3. unfold free_samples. apply String.eqb_neq in H1, H2, H3. rewrite H1, H2, H3. reflexivity. Qed.
Lemma ori_spec near x y z n : (forall i, (i < n)%nat -> qnorm2 (near i) <> 0) ->
  exists l, ori_samples near [x; y; z] n = Ok l /\ length l = n /\ forall i T, nth_error l i = Some T -> rigid T /\ pos T = V3 x y z /\ rot T = qrot (near i).
Proof.
  intros H. unfold ori_samples.
  destruct (mapM_ex (fun i => set_pos (qtransform (near i)) [x; y; z]) (fun i T => T = M4 (qrot (near i)) (V3 x y z) v0 1) (seq 0 n)) as (l & E & F); [intros; eexists; split; reflexivity|].
  exists l. split; [auto|]. assert (L : length l = n) by (rewrite <- (Forall2_length F), seq_length; auto). split; [auto|]. intros i T Hi.
  assert (I : (i < n)%nat) by (rewrite <- L; apply nth_error_Some; congruence).
  assert (G : T = M4 (qrot (near i)) (V3 x y z) v0 1).
  { clear - F Hi I. assert (S : nth_error (seq 0 n) i = Some i) by (rewrite (nth_error_nth' _ 0%nat), seq_nth by (rewrite ?seq_length; lia); auto). revert S Hi. generalize i at 1 3. induction F; intros j; destruct j; cbn; try discriminate; [congruence|eauto]. }
  subst T. split; [split; cbn; auto; apply qrot_rotation; auto|]. auto.
Qed.
Lemma point_to_frame_spec x y z a b c r : exists T, point_to_frame (x :: y :: z :: a :: b :: c :: r) = Ok T /\ rigid T /\ pos T = V3 x y z /\
  rot T = mmul (rot_x a) (mmul (rot_y b) (rot_z c)).
Proof. eexists. split; [reflexivity|]. split; [apply frame6_rigid|]. split; reflexivity. Qed.
