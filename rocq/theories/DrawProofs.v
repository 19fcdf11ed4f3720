(** * Lemmas about Draw.v (C161-C166). *)
From Coq Require Import String List Arith Bool Lia Reals Lra Psatz.
From Verif Require Import PyBase Cost SpecPath Dp DpProofs Mat Util UtilProofs Geometry GeometryProofs Robot RobotProofs Path PathProofs Plot PlotProofs Io IoProofs Urdf UrdfProofs Tasks TasksProofs Examples HaltonProofs ExamplesProofs ErrorProofs4 Draw.
Import ListNotations.
Local Open Scope R_scope.

(** ** Reference frames *)
Definition axis_line (c : string) (p v : vec3) : artist := Art "-" c [p; vadd p v].
Ltac v3 := unfold vadd, vscale, vsub, mapply, vdot, cross, norm2, col0, col1, col2, v0 in *; cbn [vx vy vz] in *.
Lemma place_axis A p x y z : vadd (mapply A (V3 x y z)) p = vadd p (vadd (vscale x (col0 A)) (vadd (vscale y (col1 A)) (vscale z (col2 A)))).
Proof. destruct A, p. apply vec3_eq; v3; cbn; ring. Qed.
Lemma frame_axes T l : reference_frame (Some T) l =
  [axis_line "r" (pos T) (vscale l (col0 (rot T))); axis_line "g" (pos T) (vscale l (col1 (rot T))); axis_line "b" (pos T) (vscale l (col2 (rot T)))].
Proof.
  unfold reference_frame, axis_line. cbv zeta. cbn [map].
  assert (Z : vadd (mapply (rot T) (V3 0 0 0)) (pos T) = pos T) by (destruct T as [A p b w], A, p; apply vec3_eq; v3; cbn; ring). rewrite Z.
  rewrite !place_axis. repeat f_equal; destruct T as [A p b w], A, p; apply vec3_eq; v3; cbn; ring.
Qed.
Lemma frame_default l : reference_frame None l = reference_frame (Some eye4) l.
Proof. unfold reference_frame. cbv zeta. cbn [map]. assert (Z : forall v, vadd (mapply (rot eye4) v) (pos eye4) = v) by (intros []; apply vec3_eq; v3; cbn; ring). rewrite !Z. reflexivity. Qed.
Definition moved_artist (T : mat4) (a : artist) : artist := Art (a_style a) (a_colour a) (map (tapply T) (a_pts a)).
Lemma frame_moves A T l : rigid A -> rigid T -> reference_frame (Some (tmul A T)) l = map (moved_artist A) (reference_frame (Some T) l).
Proof.
  intros HA HT. unfold reference_frame, moved_artist. cbv zeta. cbn [map a_style a_colour a_pts].
  assert (E : forall v, vadd (mapply (rot (tmul A T)) v) (pos (tmul A T)) = tapply A (vadd (mapply (rot T) v) (pos T))) by (intros v; apply tapply_tmul; auto). rewrite !E. reflexivity.
Qed.
Lemma columns A : rotation A -> norm2 (col0 A) = 1 /\ norm2 (col1 A) = 1 /\ norm2 (col2 A) = 1 /\ vdot (col0 A) (col1 A) = 0 /\ vdot (col1 A) (col2 A) = 0 /\ vdot (col2 A) (col0 A) = 0 /\ cross (col0 A) (col1 A) = col2 A.
Proof.
  intros [O D]. assert (D0 : vdot (cross (col0 A) (col1 A)) (col2 A) = 1) by (rewrite <- D; destruct A; munf; ring).
  assert (N : norm2 (col0 A) = 1 /\ norm2 (col1 A) = 1 /\ norm2 (col2 A) = 1 /\ vdot (col0 A) (col1 A) = 0 /\ vdot (col1 A) (col2 A) = 0 /\ vdot (col2 A) (col0 A) = 0).
  { destruct A. munf. injection O. intros. repeat split; lra. }
  destruct N as (N0 & N1 & N2 & P01 & P12 & P20). repeat split; auto. set (w := vsub (cross (col0 A) (col1 A)) (col2 A)).
  assert (L : norm2 (cross (col0 A) (col1 A)) = 1).
  { replace (norm2 (cross (col0 A) (col1 A))) with (norm2 (col0 A) * norm2 (col1 A) - vdot (col0 A) (col1 A) ^ 2) by (destruct A; munf; ring). rewrite N0, N1, P01. ring. }
  assert (W : norm2 w = 0).
  { replace (norm2 w) with (norm2 (cross (col0 A) (col1 A)) + norm2 (col2 A) - 2 * vdot (cross (col0 A) (col1 A)) (col2 A)) by (unfold w; destruct A; munf; ring). lra. }
  assert (Z : forall v, norm2 v = 0 -> v = v0). { intros [x y z] H. unfold norm2, vdot in H. cbn [vx vy vz] in H. apply vec3_eq; cbn; nra. }
  apply Z in W. unfold w in W. assert (X := f_equal vx W). assert (Y := f_equal vy W). assert (V := f_equal vz W). apply vec3_eq; unfold vsub, v0 in *; cbn [vx vy vz] in *; lra.
Qed.
(** three arrows from one point *)
Definition tripod (o : vec3) (l : R) (as_ : list artist) : Prop := exists x y z,
  as_ = [axis_line "r" o x; axis_line "g" o y; axis_line "b" o z] /\ norm2 x = l ^ 2 /\ norm2 y = l ^ 2 /\ norm2 z = l ^ 2 /\
  vdot x y = 0 /\ vdot y z = 0 /\ vdot z x = 0 /\ cross x y = vscale l z.
Lemma frame_tripod T l : rigid T -> tripod (pos T) l (reference_frame (Some T) l).
Proof.
  intros [O _ _]. destruct (columns _ O) as (N0 & N1 & N2 & P01 & P12 & P20 & X). rewrite frame_axes. exists (vscale l (col0 (rot T))), (vscale l (col1 (rot T))), (vscale l (col2 (rot T))). split; [reflexivity|].
  assert (Q : forall v, norm2 (vscale l v) = l ^ 2 * norm2 v) by (intros []; munf; ring). assert (S2 : forall u v, vdot (vscale l u) (vscale l v) = l ^ 2 * vdot u v) by (intros [] []; munf; ring).
  rewrite !Q, !S2, N0, N1, N2, P01, P12, P20. repeat split; try ring. rewrite <- X. destruct (rot T). munf. apply vec3_eq; cbn; ring.
Qed.

(** ** Kinematic chains *)
Definition upto (r : robot) (q : list R) (k : nat) : mat4 := fold_left (fun T p => tmul T (lspec (fst p) (snd p))) (firstn k (combine (r_links r) q)) (r_tfb r).
Lemma firstn_S {A} : forall (l : list A) k x, nth_error l k = Some x -> firstn (S k) l = firstn k l ++ [x].
Proof. induction l as [|y l IH]; intros [|k] x H; cbn in *; try discriminate; [congruence|]. f_equal. apply IH, H. Qed.
Lemma nth_combine {A B} : forall (l : list A) (l' : list B) k x y, nth_error l k = Some x -> nth_error l' k = Some y -> nth_error (combine l l') k = Some (x, y).
Proof. induction l as [|a l IH]; intros [|b l'] [|k] x y H1 H2; cbn in *; try discriminate; [congruence|]. apply IH; auto. Qed.
Lemma upto_S r q k l qk : nth_error (r_links r) k = Some l -> nth_error q k = Some qk -> upto r q (S k) = tmul (upto r q k) (lspec l qk).
Proof. intros H1 H2. unfold upto. rewrite (firstn_S _ _ _ (nth_combine _ _ _ _ _ H1 H2)), fold_left_app. reflexivity. Qed.
(** how far a joint is from the next: offset along the axis, then the length *)
Definition reach2 (l : Robot.link) (qi : R) : R := da (l_dh l) ^ 2 + (match l_jt l with JP => qi | _ => dd (l_dh l) end) ^ 2.
Lemma dhm_pos a alpha d theta : norm2 (pos (dhm a alpha d theta)) = a ^ 2 + d ^ 2.
Proof. rewrite <- (write_T_dhm eye4) by (repeat split). unfold write_T. cbn [pos]. pose proof (sin2_cos2 theta) as S. unfold Rsqr in S. munf. replace (a ^ 2) with (a ^ 2 * (sin theta * sin theta + cos theta * cos theta)) by (rewrite S; ring). ring. Qed.
Lemma upto_rigid r q k : rigid (r_tfb r) -> rigid (upto r q k).
Proof. unfold upto. generalize (firstn k (combine (r_links r) q)) (r_tfb r). clear. induction l as [|p l IH]; intros T H; cbn [fold_left]; auto. apply IH, rigid_tmul; auto. apply lspec_rigid. Qed.
Lemma upto_step r q k l qk : rigid (r_tfb r) -> nth_error (r_links r) k = Some l -> nth_error q k = Some qk ->
  norm2 (vsub (pos (upto r q (S k))) (pos (upto r q k))) = reach2 l qk.
Proof.
  intros H H1 H2. rewrite (upto_S _ _ _ _ _ H1 H2). pose proof (upto_rigid r q k H) as Hk. pose proof (lspec_rigid l qk) as Hl. set (A := upto r q k) in *. set (B := lspec l qk) in *.
  replace (vsub (pos (tmul A B)) (pos A)) with (mapply (rot A) (pos B)).
  - rewrite rotation_norm by apply Hk. unfold B, lspec, reach2. destruct (l_jt l); rewrite dhm_pos; reflexivity.
  - rewrite tmul_blocks by (apply Hl || apply Hk). cbn [pos]. destruct (mapply (rot A) (pos B)), (pos A). munf. apply vec3_eq; cbn; ring.
Qed.
Definition chain_line (r : robot) (q : list R) : artist := Art "o-" "" (map (fun k => pos (upto r q k)) (seq 0 (S (ndof r)))).
Definition tool_frames (r : robot) (q : list R) : list artist :=
  match r_tool r with Some (_, tip) => reference_frame (Some (tmul (upto r q (ndof r)) tip)) arrow | None => [] end.
Lemma kinematics_ok r q : good r -> joints_ok r -> (1 <= ndof r <= length q)%nat ->
  snd (plot_kinematics r q) = Ok (reference_frame (Some (r_tfb r)) arrow ++ chain_line r q :: flat_map (fun k => reference_frame (Some (upto r q (S k))) arrow) (seq 0 (ndof r)) ++ tool_frames r q).
Proof.
  intros G J L. unfold plot_kinematics. cbv zeta. pose proof (frames_ok r q G J ltac:(lia)) as E. destruct (frames_fst r q G) as [_ Rr]. destruct (fk_all_links r q) as [r1 fs]. cbn [fst snd] in *. subst fs. cbn [bind].
  assert (Et : r_tool r1 = r_tool r) by (apply tool_reset; auto). assert (Eb : r_tfb r1 = r_tfb r) by (change (r_tfb (reset r1) = r_tfb r); rewrite Rr; reflexivity). rewrite Et, Eb.
  assert (Ef : map (frame r q) (seq 0 (ndof r)) = map (fun k => upto r q (S k)) (seq 0 (ndof r))) by reflexivity.
  pose proof (last_frames (frame r q) (ndof r) ltac:(lia)) as La. rewrite Ef in La |- *. remember (map (fun k => upto r q (S k)) (seq 0 (ndof r))) as F eqn:EF.
  assert (NF : F <> []) by (subst F; destruct (ndof r); [lia|discriminate]). destruct F as [|f F0]; [contradiction|]. clear NF. cbv iota beta. rewrite La, EF.
  assert (C : pos (r_tfb r) :: map pos (map (fun k => upto r q (S k)) (seq 0 (ndof r))) = a_pts (chain_line r q)).
  { unfold chain_line. cbn [a_pts seq]. rewrite <- seq_shift, map_cons, !map_map. reflexivity. }
  rewrite C. assert (Fl : flat_map (fun tfi => reference_frame (Some tfi) arrow) (map (fun k => upto r q (S k)) (seq 0 (ndof r))) = flat_map (fun k => reference_frame (Some (upto r q (S k))) arrow) (seq 0 (ndof r))).
  { rewrite !flat_map_concat_map, map_map. reflexivity. }
  rewrite Fl. unfold tool_frames. destruct (r_tool r) as [[g tip]|]; cbn [bind]; [|reflexivity]. replace (frame r q (ndof r - 1)) with (upto r q (ndof r)) by (unfold frame, upto; do 2 f_equal; lia). reflexivity.
Qed.
Lemma kinematics_last r q : good r -> joints_ok r -> (1 <= ndof r <= length q)%nat ->
  exists before T, snd (plot_kinematics r q) = Ok (before ++ reference_frame (Some T) arrow) /\ snd (fk r q) = Ok T.
Proof.
  intros G J L. rewrite kinematics_ok, fk_ok by (auto; lia). unfold tool_frames, tooled. destruct (ndof r) as [|n] eqn:N; [lia|]. change (frame r q n) with (upto r q (S n)).
  destruct (r_tool r) as [[g tip]|].
  - eexists (_ ++ _ :: _), _. split; [|reflexivity]. rewrite <- app_assoc. cbn [app]. reflexivity.
  - rewrite app_nil_r. rewrite seq_S, flat_map_app. cbn [flat_map plus]. rewrite app_nil_r. eexists (_ ++ _ :: _), _. split; [|reflexivity]. rewrite <- app_assoc. cbn [app]. reflexivity.
Qed.
Lemma kinematics_links r q k p p' l qk : good r -> joints_ok r -> rigid (r_tfb r) -> (ndof r <= length q)%nat ->
  nth_error (a_pts (chain_line r q)) k = Some p -> nth_error (a_pts (chain_line r q)) (S k) = Some p' -> nth_error (r_links r) k = Some l -> nth_error q k = Some qk ->
  norm2 (vsub p' p) = reach2 l qk.
Proof.
  intros G J H L E1 E2 El Eq. unfold chain_line in *. cbn [a_pts] in *. rewrite nth_error_map in E1, E2. assert (K : (k < ndof r)%nat) by (unfold ndof; apply nth_error_Some; congruence).
  assert (Sq : forall i, (i < S (ndof r))%nat -> nth_error (seq 0 (S (ndof r))) i = Some i). { intros i Hi. rewrite (nth_error_nth' _ 0%nat) by (rewrite seq_length; lia). rewrite seq_nth by lia. reflexivity. }
  rewrite Sq in E1, E2 by lia. cbn [option_map] in *. injection E1 as <-. injection E2 as <-. apply upto_step; auto.
Qed.
Lemma kinematics_state r q : fst (plot_kinematics r q) = fst (fk_all_links r q).
Proof. unfold plot_kinematics. destruct (fk_all_links r q). reflexivity. Qed.
Lemma kinematics_empty r q : ndof r = 0%nat -> snd (plot_kinematics r q) = Raise ValueError.
Proof. unfold ndof. intros H. destruct (r_links r) eqn:E; [|discriminate]. unfold plot_kinematics, fk_all_links. rewrite E. reflexivity. Qed.
Lemma kinematics_short r q : good r -> joints_ok r -> (length q < ndof r)%nat -> snd (plot_kinematics r q) = Raise IndexError.
Proof. intros G J L. unfold plot_kinematics. destruct (frames_short r q G J L) as [E _]. destruct (fk_all_links r q). cbn [snd] in *. rewrite E. reflexivity. Qed.
Lemma kinematics_again r q q' : good r -> joints_ok r -> snd (plot_kinematics (fst (plot_kinematics r q)) q') = snd (plot_kinematics r q').
Proof.
  intros G J. rewrite kinematics_state. destruct (frames_fst r q G) as [G1 R1]. set (r1 := fst (fk_all_links r q)) in *. assert (J1 : joints_ok r1) by (exact (joints_reset r r1 (eq_sym R1) J)).
  assert (N : ndof r1 = ndof r) by (apply ndof_reset; auto).
  destruct (Nat.eq_dec (ndof r) 0) as [Z|Z]; [rewrite !kinematics_empty by congruence; reflexivity|]. destruct (le_lt_dec (ndof r) (length q')) as [L|L]; [|rewrite !kinematics_short by (auto; lia); reflexivity].
  rewrite !kinematics_ok by (auto; lia). unfold chain_line, tool_frames. rewrite N, (tool_reset r1 r R1). assert (Eb : r_tfb r1 = r_tfb r) by (change (r_tfb (reset r1) = r_tfb r); rewrite R1; reflexivity).
  assert (U : forall k, upto r1 q' k = upto r q' k). { intros [|k]; [exact Eb|]. exact (frame_reset r1 r q' k R1). }
  rewrite Eb, U. do 2 f_equal. f_equal; [f_equal; apply map_ext; intros k; rewrite U; reflexivity|]. f_equal. rewrite !flat_map_concat_map. f_equal. apply map_ext. intros k. rewrite U. reflexivity.
Qed.

(** ** Tasks *)
(** the coordinates a point is drawn at *)
Definition coords (tp : anypt) : list R :=
  match tp with AEuler e => firstn 3 (e_nominal e) | APos p => p_nom p | AAxis p => a_pos p | AFree p | AOri p => p end.
Definition dot (v : vec3) : artist := Art "o" "r" [v].
Definition is_dot (a : artist) : bool := String.eqb (a_style a) "o".
Definition drawable (tp : anypt) : Prop := match tp with AEuler e => (6 <= length (e_nominal e))%nat | _ => (3 <= length (coords tp))%nat end.
Lemma marker_ok p : (3 <= length p)%nat -> exists v, marker p = Ok (dot v) /\ firstn 3 p = vlist v.
Proof. destruct p as [|x [|y [|z p]]]; cbn [length]; intros L; try lia. exists (V3 x y z). split; reflexivity. Qed.
Lemma marker_short p : (length p < 3)%nat -> marker p = Raise IndexError.
Proof. destruct p as [|x [|y [|z p]]]; cbn [length]; intros L; try lia; reflexivity. Qed.
Lemma row6 p : (6 <= length p)%nat -> exists x y z a b c, frame_of_row p = Ok (M4 (rot_xyz a b c) (V3 x y z) v0 1) /\ firstn 3 p = [x; y; z].
Proof. destruct p as [|x [|y [|z [|a [|b [|c p]]]]]]; cbn [length]; intros L; try lia. exists x, y, z, a, b, c. split; reflexivity. Qed.
Lemma frame_undot T l : filter is_dot (reference_frame T l) = [].
Proof. destruct T; reflexivity. Qed.
Lemma point_ok tp : drawable tp -> exists v as_, point_plot tp = Ok as_ /\ firstn 3 (coords tp) = vlist v /\ filter is_dot as_ = [dot v].
Proof.
  intros D. destruct tp as [e|p|p|p|p]; cbn [drawable coords point_plot] in *.
  - destruct (row6 _ D) as (x & y & z & a & b & c & E & F). rewrite F. unfold nominal_transform. rewrite E. exists (V3 x y z). eexists. split; [reflexivity|]. split; [reflexivity|]. cbn [filter is_dot a_style String.eqb Ascii.eqb Bool.eqb]. rewrite frame_undot. reflexivity.
  - destruct (marker_ok _ D) as (v & E & F). rewrite E. exists v, [dot v]. auto.
  - destruct (marker_ok _ D) as (v & E & F). rewrite E. exists v, [dot v]. auto.
  - destruct (marker_ok _ D) as (v & E & F). rewrite E. exists v, [dot v]. auto.
  - destruct (marker_ok _ D) as (v & E & F). rewrite E. exists v, [dot v]. auto.
Qed.
Lemma point_short tp : ~ drawable tp -> point_plot tp = Raise IndexError.
Proof.
  intros D. destruct tp as [e|p|p|p|p]; cbn [drawable coords point_plot] in *; try (rewrite marker_short by lia; reflexivity).
  unfold nominal_transform. destruct (e_nominal e) as [|x [|y [|z [|a [|b [|c l]]]]]]; cbn [length] in D; try lia; reflexivity.
Qed.
Lemma drawable_dec tp : {drawable tp} + {~ drawable tp}.
Proof. destruct tp; apply le_dec. Qed.
Lemma filter_concat {A} (f : A -> bool) : forall l, filter f (concat l) = concat (map (filter f) l).
Proof. induction l as [|x l IH]; [reflexivity|]. cbn [concat map]. rewrite filter_app, IH. reflexivity. Qed.
Definition scene_shows (scene : option coll) (ls : list line) : Prop :=
  match scene with Some sc => shows ls (member sc) | None => ls = [] end.
Lemma scene_ok scene : exists ls, (match scene with Some sc => coll_plot sc None | None => Ok [] end) = Ok ls /\ scene_shows scene ls.
Proof.
  destruct scene as [sc|]; [|exists []; split; reflexivity]. rewrite coll_plot_pic. eexists. split; [reflexivity|]. apply (shows_iff _ (fun s T => In (T, s) (cboxes sc None))); [|apply pic_shows].
  intros s T. rewrite cboxes_in. cbn [place]. split; [intros (T0 & H & ->); exact H|intros H; exists T; auto].
Qed.
Lemma points_ok path : Forall drawable path -> exists ps vs, mapM point_plot path = Ok ps /\ Forall2 (fun tp v => firstn 3 (coords tp) = vlist v) path vs /\ filter is_dot (concat ps) = map dot vs.
Proof.
  induction 1 as [|tp path D _ (ps & vs & E & F & Fi)]; [exists [], []; repeat split; constructor|]. destruct (point_ok tp D) as (v & as_ & E1 & F1 & Fi1).
  exists (as_ :: ps), (v :: vs). cbn [mapM]. rewrite E1. cbn [bind]. rewrite E. split; [reflexivity|]. split; [constructor; auto|]. cbn [concat map]. rewrite filter_app, Fi1, Fi. reflexivity.
Qed.
Lemma task_ok path scene : Forall drawable path -> exists as_ ls vs, task_plot path scene = Ok (as_, ls) /\
  Forall2 (fun tp v => firstn 3 (coords tp) = vlist v) path vs /\ filter is_dot as_ = map dot vs /\ scene_shows scene ls.
Proof.
  intros D. destruct (points_ok path D) as (ps & vs & E & F & Fi). destruct (scene_ok scene) as (ls & El & S). unfold task_plot. rewrite E. cbn [bind]. rewrite El. cbn [bind]. eauto 8.
Qed.
Lemma task_short path scene : ~ Forall drawable path -> task_plot path scene = Raise IndexError.
Proof.
  intros D. unfold task_plot. replace (mapM point_plot path) with (Raise IndexError : res (list (list artist))); [reflexivity|]. symmetry.
  induction path as [|tp path IH]; [destruct D; constructor|]. cbn [mapM]. destruct (drawable_dec tp) as [H|H]; [|rewrite (point_short tp H); reflexivity].
  destruct (point_ok tp H) as (v & as_ & -> & _). cbn [bind]. rewrite IH; [reflexivity|]. intros F. apply D. constructor; auto.
Qed.
(** a point with angles: the frame stands at the marker *)
Lemma euler_drawn pos_ rpy e : new_eulerpt pos_ rpy = Ok e -> exists T, nominal_transform e = Ok T /\ rigid T /\ firstn 3 (map nominal_of pos_) = vlist (pos T) /\
  point_plot (AEuler e) = Ok (dot (pos T) :: reference_frame (Some T) arrow).
Proof.
  destruct pos_ as [|a [|b [|c r]]], rpy as [|a' [|b' [|c' r']]]; cbn; try discriminate. intros H. injection H as <-. cbn. eexists. split; [reflexivity|]. split; [split; [apply rot_xyz_rotation|reflexivity|reflexivity]|]. split; reflexivity.
Qed.
(** the points of a task file *)
Definition nominals (tp : ppt) : list R := match tp with Io.PFree p => p | Io.PPos p => map nominal_of (p_pos p) | Io.PEuler e => map nominal_of (e_pos e) end.
Definition well_made (tp : ppt) : Prop :=
  match tp with Io.PFree _ => True | Io.PPos p => new_pospt (p_pos p) (p_quat p) = Ok p | Io.PEuler e => new_eulerpt (e_pos e) (e_rpy e) = Ok e end.
Lemma mapM_each {A B} (f : A -> res B) (P : B -> Prop) l l' : mapM f l = Ok l' -> (forall x y, f x = Ok y -> P y) -> Forall P l'.
Proof. intros H F. apply mapM_Ok_Forall2 in H. induction H; constructor; eauto. Qed.
Lemma parsed_made d path : parse_path d = Ok path -> Forall well_made path.
Proof.
  unfold parse_path. intros H. apply bind_Ok in H. destruct H as (pd & _ & H). apply bind_Ok in H. destruct H as (ps & _ & H). apply bind_Ok in H. destruct H as (tl & _ & H).
  destruct (is_str tl "orientation_free"). { injection H as <-. apply Forall_forall. intros tp I. apply in_map_iff in I. destruct I as (p & <- & _). exact I. }
  destruct (is_str tl "position_tolerance").
  { do 5 (apply bind_Ok in H; destruct H as (? & _ & H)). unfold create_symmetric_position_tolerance in H. apply bind_Ok in H. destruct H as (q & _ & H). eapply mapM_each; [exact H|]. cbn beta. clear. intros p tp H.
    apply bind_Ok in H. destruct H as (xyz & _ & H). apply bind_Ok in H. destruct H as (pt & E & H). injection H as <-. cbn [well_made]. destruct (new_pospt_inv _ _ _ E) as (_ & -> & ->). exact E. }
  destruct (is_str tl "euler_tolerance"); [|discriminate].
  do 5 (apply bind_Ok in H; destruct H as (? & _ & H)). unfold create_symmetric_euler_tolerance in H. cbv zeta in H. eapply mapM_each; [exact H|]. cbn beta. clear. intros p tp H.
  apply bind_Ok in H. destruct H as (r & _ & H). apply bind_Ok in H. destruct H as (pt & E & H). injection H as <-. cbn [well_made]. destruct (new_eulerpt_inv _ _ _ E) as (-> & ->). exact E.
Qed.
Lemma made_coords tp : well_made tp -> firstn 3 (coords (any_of tp)) = firstn 3 (nominals tp) /\ (drawable (any_of tp) <-> (3 <= length (nominals tp))%nat).
Proof.
  destruct tp as [p|p|e]; cbn [well_made any_of coords nominals drawable]; intros H.
  - tauto.
  - destruct p as [xs ns q]. cbn [p_pos p_quat p_nom] in *. destruct xs as [|a [|b [|c r]]]; cbn in H; try discriminate. injection H as <-. cbn. split; [reflexivity|]. rewrite map_length. split; intros; lia.
  - destruct e as [xs rs ns]. cbn [e_pos e_rpy e_nominal] in *. destruct xs as [|a [|b [|c r]]], rs as [|a' [|b' [|c' r']]]; cbn in H; try discriminate. injection H as <-. cbn. split; [reflexivity|]. rewrite map_length. split; intros; lia.
Qed.
Lemma task_drawn d path sc : parse_task_data d = Ok (path, sc) -> Forall (fun tp => (3 <= length (nominals tp))%nat) path ->
  exists as_ ls vs, draw_task d = Ok (as_, ls) /\ Forall2 (fun tp v => firstn 3 (nominals tp) = vlist v) path vs /\ filter is_dot as_ = map dot vs /\ shows ls (member sc).
Proof.
  intros H L. assert (W : Forall well_made path). { unfold parse_task_data in H. apply bind_Ok in H. destruct H as (p & E & H). apply bind_Ok in H. destruct H as (s & _ & H). injection H as <- _. eapply parsed_made; eauto. }
  unfold draw_task. rewrite H. cbn [bind fst snd]. destruct (task_ok (map any_of path) (Some sc)) as (as_ & ls & vs & E & F & Fi & S).
  { rewrite Forall_map. rewrite Forall_forall in *. intros tp I. apply (made_coords tp (W tp I)), L, I. }
  exists as_, ls, vs. split; [exact E|]. split; [|auto]. clear - F W. revert vs F. induction path as [|tp path IH]; intros vs F; inversion F as [|? v ? vs' F1 F2]; subst; constructor; inversion W as [|? ? W1 W2]; subst; auto.
  rewrite <- F1. symmetry. apply made_coords, W1.
Qed.
Lemma nth_error_same {A} : forall l l' : list A, (forall k, nth_error l k = nth_error l' k) -> l = l'.
Proof. induction l as [|x l IH]; intros [|y l'] H; [reflexivity|specialize (H 0%nat); discriminate|specialize (H 0%nat); discriminate|]. pose proof (H 0%nat) as H0. injection H0 as ->. f_equal. apply IH. intros k. exact (H (S k)). Qed.
Lemma multiple_paths : exists as_ ls, draw_task line_x_tol = Ok (as_, ls) /\
  as_ = map (fun k => dot (V3 0.8 (-0.2 + INR k / INR 9 * 0.4) 0.2)) (seq 0 10) /\ shows ls (fun s T => s = Shape 0.5 0.5 0.1 /\ T = M4 mid (V3 0.8 0 0.12) v0 1).
Proof.
  destruct path_x_tol as (path & P & Pl & Pk). destruct obstacles_line as [O1 O2]. rewrite O1 in O2. pose proof (parsed_made _ _ P) as W.
  unfold draw_task, parse_task_data. rewrite P. cbn [bind]. rewrite O2. cbn [bind fst snd]. unfold task_plot. destruct (scene_ok (Some (boxes [(Shape 0.5 0.5 0.1, V3 0.8 0 0.12)]))) as (ls & El & S).
  rewrite (mapM_pure _ (fun tp => [dot (match coords tp with [x; y; z] => V3 x y z | _ => v0 end)])).
  - cbn [bind]. rewrite El. cbn [bind]. do 2 eexists. split; [reflexivity|]. split.
    + rewrite map_map. assert (G : map (fun tp => dot (match coords (any_of tp) with [x; y; z] => V3 x y z | _ => v0 end)) path = map (fun k => dot (V3 0.8 (-0.2 + INR k / INR 9 * 0.4) 0.2)) (seq 0 10)).
      { apply nth_error_same. intros k. rewrite !nth_error_map. destruct (nth_error path k) as [tp|] eqn:E.
        - assert (K : (k < 10)%nat) by (rewrite <- Pl; apply nth_error_Some; congruence). rewrite (nth_error_nth' _ 0%nat) by (rewrite seq_length; auto). rewrite seq_nth by auto. cbn [option_map plus]. f_equal.
          destruct (Pk k tp E) as (p & -> & Ep & _). rewrite Forall_forall in W. specialize (W _ (nth_error_In _ _ E)). cbn [well_made any_of coords] in *. rewrite Ep in W. cbn in W. injection W as W. rewrite <- W. reflexivity.
        - apply nth_error_None in E. rewrite (proj2 (nth_error_None (seq 0 10) k)) by (rewrite seq_length; lia). reflexivity. }
      rewrite <- G. clear. induction path as [|tp path IH]; [reflexivity|]. cbn [map concat app]. f_equal. exact IH.
    + cbn [scene_shows] in S. eapply shows_iff; [|exact S]. intros s T. unfold member, boxes. cbn [c_s c_tf map fst snd]. split.
      * intros ([|[|i]] & H1 & H2); cbn in H1, H2; try discriminate. split; congruence.
      * intros [-> ->]. exists 0%nat. split; reflexivity.
  - intros tp I. apply in_map_iff in I. destruct I as (tp' & <- & I). apply In_nth_error in I. destruct I as (k & E). destruct (Pk k tp' E) as (p & -> & Ep & _). rewrite Forall_forall in W. specialize (W _ (nth_error_In _ _ E)).
    cbn [well_made any_of coords] in *. rewrite Ep in W. cbn in W. injection W as W. rewrite <- W. reflexivity.
Qed.

(** ** The alternative cost of small_passage.py *)
(** what the sum charges: every step, and every point but the last its turn from g *)
Fixpoint aim (g : quat) (p : list quat) : R :=
  match p with u :: ((v :: _) as p') => turn_cost u v ^ 2 + 0.5 * turn_cost u g ^ 2 + aim g p' | _ => 0 end.
(** every point charged *)
Fixpoint aim_all (g : quat) (p : list quat) : R :=
  match p with
  | u :: p' => match p' with v :: _ => turn_cost u v ^ 2 | [] => 0 end + 0.5 * turn_cost u g ^ 2 + aim_all g p'
  | [] => 0
  end.
Lemma combine_repeat {A B} (x : B) : forall l : list A, combine l (repeat x (length l)) = map (fun a => (a, x)) l.
Proof. induction l as [|a l IH]; [reflexivity|]. cbn [length repeat combine map]. f_equal. exact IH. Qed.
Lemma ref_rows g C1 C2 : m_rows (ref_costs g C1 C2) = map (fun u => map (fun v => Some (turn_cost u v ^ 2 + 0.5 * turn_cost u g ^ 2) : RCost) C2) C1.
Proof. unfold ref_costs. cbv zeta. cbn [m_rows]. apply map_ext. intros u. rewrite combine_repeat, map_map. reflexivity. Qed.
Lemma ref_shape g d1 d2 : m_cols (ref_costs g d1 d2) = length d2 /\ has_dims (m_rows (ref_costs g d1 d2)) (length d1) (length d2).
Proof. split; [reflexivity|]. rewrite ref_rows. split; [apply map_length|]. rewrite Forall_map. apply Forall_forall. intros u _. apply map_length. Qed.
Lemma aim_cost g : forall Q js p, picks Q js p -> stage_cost (fun d1 d2 => m_rows (ref_costs g d1 d2)) Q js = (Some (aim g p) : RCost).
Proof.
  induction Q as [|c1 Q IH]; intros [|j1 js] [|x1 p] H; cbn [picks] in H; try contradiction; [reflexivity|]. destruct H as [H1 H2].
  destruct Q as [|c2 Q], js as [|j2 js], p as [|x2 p]; cbn [picks] in H2; try contradiction; [reflexivity|].
  change (stage_cost _ (c1 :: c2 :: Q) (j1 :: j2 :: js)) with (xradd (SpecPath.entry (m_rows (ref_costs g c1 c2)) j1 j2) (stage_cost (fun d1 d2 => m_rows (ref_costs g d1 d2)) (c2 :: Q) (j2 :: js))).
  rewrite (IH (j2 :: js) (x2 :: p) H2). destruct H2 as [H2 _]. change (aim g (x1 :: x2 :: p)) with (turn_cost x1 x2 ^ 2 + 0.5 * turn_cost x1 g ^ 2 + aim g (x2 :: p)).
  replace (SpecPath.entry (m_rows (ref_costs g c1 c2)) j1 j2) with (Some (turn_cost x1 x2 ^ 2 + 0.5 * turn_cost x1 g ^ 2)); [reflexivity|]. rewrite ref_rows. unfold SpecPath.entry.
  symmetry. erewrite (nth_error_nth (map _ c1) j1) by (rewrite nth_error_map, H1; reflexivity). erewrite (nth_error_nth (map _ c2) j2) by (rewrite nth_error_map, H2; reflexivity). reflexivity.
Qed.
Definition goal : quat := Quat (cos 0.75) 0 (sin 0.75) 0.
Lemma goal_ok : goal_quat = Ok goal.
Proof.
  unfold goal_quat, quat_axis_angle, goal. cbv zeta. assert (N : norm2 (V3 0 1 0) = 1) by (munf; ring). rewrite N. destruct (Req_EM_T 1 0); [lra|].
  replace (1 - 1) with 0 by ring. rewrite Rabs_R0. destruct (Rlt_dec (/ 10 ^ 12) 0) as [H|_]; [assert (0 < / 10 ^ 12) by (apply Rinv_0_lt_compat; lra); lra|]. cbn [vx vy vz].
  replace (1.5 / 2) with 0.75 by lra. do 2 f_equal; ring.
Qed.
Lemma ref_sound data r : ref_plan data = Ok r -> Forall (fun col => col <> []) data ->
  Forall2 (fun col q => In q col) data (dp_path _ r) /\ dp_length _ r = Some (aim goal (dp_path _ r)) /\
  forall qs, Forall2 (fun col q => In q col) data qs -> aim goal (dp_path _ r) <= aim goal qs.
Proof.
  unfold ref_plan. rewrite goal_ok. cbn [bind]. intros H E. destruct (le_lt_dec (length data) 1) as [L|L].
  { rewrite (proj1 (dp_rejects RCost quat data (ref_costs goal))) in H by auto. discriminate. }
  destruct (dp_realises RCost quat data (ref_costs goal) r L E) as (js & R1 & R2 & R3); auto. { intros d1 d2 _ _; apply ref_shape. }
  destruct (dp_optimal RCost quat data (ref_costs goal) L E) as (r' & H' & _ & O). { intros d1 d2 _ _; apply ref_shape. }
  rewrite H in H'. injection H' as <-. assert (R3' : Some (aim goal (dp_path _ r)) = dp_length _ r) by (rewrite <- R3; symmetry; exact (aim_cost _ _ _ _ R2)). clear R3. rename R3' into R3.
  split; [eapply picks_of; eauto|]. split; [symmetry; exact R3|]. intros qs F. apply picks_ex in F. destruct F as (js' & F).
  assert (G : cle (dp_length _ r) (Some (aim goal qs) : RCost)) by (rewrite <- (aim_cost _ _ _ _ F); exact (O js' (proj1 (picks_of _ _ _ F)))). rewrite <- R3 in G. unfold cle in G. cbn in G. apply rltb_false in G. lra.
Qed.
Lemma ref_returns data : (2 <= length data)%nat -> Forall (fun col => col <> []) data -> exists r, ref_plan data = Ok r /\ dp_success _ r = true.
Proof.
  intros L E. unfold ref_plan. rewrite goal_ok. cbn [bind]. destruct (dp_optimal RCost quat data (ref_costs goal) L E) as (r & H & S & _); eauto. intros d1 d2 _ _; apply ref_shape.
Qed.
(** quaternions around the y axis *)
Definition about_y (a : R) : quat := Quat (cos a) 0 (sin a) 0.
Lemma about_y_unit a : qnorm2 (about_y a) = 1.
Proof. unfold qnorm2, about_y. cbn [qw qx qy qz]. pose proof (sin2_cos2 a) as H. unfold Rsqr in H. lra. Qed.
Lemma about_y_turn a b : 0 <= a - b <= 3 / 2 -> turn_cost (about_y a) (about_y b) = a - b.
Proof.
  intros H. pose proof PI2_3_2. rewrite turn_unit by apply about_y_unit. replace (qdot (about_y a) (about_y b)) with (cos (a - b)) by (rewrite cos_minus; unfold qdot, about_y; cbn [qw qx qy qz]; ring).
  rewrite Rabs_pos_eq by (apply cos_ge_0; lra). apply acos_cos. lra.
Qed.
Lemma turn_sym u v : turn_cost u v = turn_cost v u.
Proof. unfold turn_cost. do 3 f_equal. unfold qdot. ring. Qed.
(** the last point is free of charge: the plan stays 0.6 away although 0.4 is cheaper for the sum over all points *)
Lemma last_free : exists data r qs, ref_plan data = Ok r /\ Forall (Forall (fun q => qnorm2 q = 1)) data /\ Forall2 (fun col q => In q col) data qs /\ aim_all goal qs < aim_all goal (dp_path _ r).
Proof.
  set (u := about_y 1.35). set (w := about_y 1.15). set (data := [[u]; [u; w]]).
  assert (Tuu : turn_cost u u = 0) by (unfold u; rewrite about_y_turn by lra; lra). assert (Tuw : turn_cost u w = 0.2) by (unfold u, w; rewrite about_y_turn by lra; lra).
  assert (Tug : turn_cost u goal = 0.6) by (unfold u; change goal with (about_y 0.75); rewrite about_y_turn by lra; lra). assert (Twg : turn_cost w goal = 0.4) by (unfold w; change goal with (about_y 0.75); rewrite about_y_turn by lra; lra).
  destruct (ref_returns data) as (r & E & _); [cbn; lia|repeat constructor; discriminate|]. exists data, r, [u; w].
  destruct (ref_sound data r E) as (F & _ & O); [repeat constructor; discriminate|]. split; [exact E|]. split; [repeat constructor; apply about_y_unit|]. split; [unfold data; constructor; [left; reflexivity|constructor; [right; left; reflexivity|constructor]]|].
  specialize (O [u; u] ltac:(unfold data; constructor; [left; reflexivity|constructor; [left; reflexivity|constructor]])). unfold data in F.
  assert (P : dp_path _ r = [u; u] \/ dp_path _ r = [u; w]).
  { destruct (dp_path _ r) as [|x [|y [|z p]]]; try (apply Forall2_length in F; discriminate). inversion F as [|? ? ? ? Hx F1]; subst. inversion F1 as [|? ? ? ? Hy _]; subst. destruct Hx as [<-|[]]. destruct Hy as [<-|[<-|[]]]; auto. }
  destruct P as [P|P]; rewrite P in O |- *; cbn [aim aim_all] in *.
  - rewrite Tuu, Tuw, Tug, Twg. lra.
  - rewrite Tuu, Tuw, Tug in O. lra.
Qed.
Lemma aim_pos g : forall p, 0 <= aim g p.
Proof. induction p as [|u [|v p] IH]; cbn; try lra. cbn in IH. nra. Qed.
Lemma goal_unit : qnorm2 goal = 1. Proof. exact (about_y_unit 0.75). Qed.
Lemma goal_rot : qrot goal = rot_y 1.5.
Proof.
  rewrite qrot_unit by apply goal_unit. unfold unit_rot, goal, rot_y. cbv zeta. cbn [qw qx qy qz]. replace 1.5 with (2 * 0.75) by lra. rewrite sin_2a, cos_2a. pose proof (sin2_cos2 0.75) as H. unfold Rsqr in H. f_equal; try ring; nra.
Qed.
(** a goal that is free everywhere is taken everywhere *)
Lemma goal_taken data r : ref_plan data = Ok r -> Forall (Forall (fun q => qnorm2 q = 1)) data -> Forall (fun col => exists q, In q col /\ qrot q = rot_y 1.5) data ->
  dp_length _ r = Some 0 /\ Forall (fun q => qrot q = rot_y 1.5) (dp_path _ r).
Proof.
  intros H U G. assert (Ne : Forall (fun col => col <> []) data) by (eapply Forall_impl; [|exact G]; intros col (q & I & _) ->; destruct I).
  destruct (ref_sound data r H Ne) as (F & Le & O).
  assert (Ex : exists qs, Forall2 (fun col q => In q col) data qs /\ Forall (fun q => qnorm2 q = 1 /\ qrot q = rot_y 1.5) qs).
  { clear - U G. induction data as [|col data IH]; [exists []; split; constructor|]. inversion U as [|? ? U1 U2]; subst. inversion G as [|? ? (q & I & Q) G2]; subst. destruct (IH U2 G2) as (qs & A & B). exists (q :: qs). rewrite Forall_forall in U1. split; constructor; auto. }
  destruct Ex as (qs & A & B). assert (Z : aim goal qs = 0).
  { clear - B. induction B as [|q qs [U Q] B IH]; [reflexivity|]. destruct qs as [|q2 qs]; [reflexivity|]. change (aim goal (q :: q2 :: qs)) with (turn_cost q q2 ^ 2 + 0.5 * turn_cost q goal ^ 2 + aim goal (q2 :: qs)). rewrite IH.
    inversion B as [|? ? [U2 Q2] _]; subst. rewrite (proj1 (qrot_inj q q2 U U2)) by congruence. rewrite (proj1 (qrot_inj q goal U goal_unit)) by (rewrite goal_rot; auto). ring. }
  assert (E : aim goal (dp_path _ r) = 0) by (apply Rle_antisym; [rewrite <- Z; apply O, A|apply aim_pos]). rewrite Le, E. split; [reflexivity|].
  assert (N : Forall (fun q => qnorm2 q = 1) (dp_path _ r)). { clear - F U. induction F as [|col q data p I _ IH]; constructor; inversion U as [|? ? U1 U2]; subst; auto. rewrite Forall_forall in U1. auto. }
  assert (L : (2 <= length (dp_path _ r))%nat).
  { rewrite <- (Forall2_length F). destruct (le_lt_dec 2 (length data)) as [|L]; auto. unfold ref_plan in H. rewrite goal_ok in H. cbn [bind] in H. rewrite (proj1 (dp_rejects RCost quat data (ref_costs goal))) in H by lia. discriminate. }
  clear - E N L. destruct (dp_path _ r) as [|u [|v p]]; cbn [length] in L; try lia. clear L. revert u v E N. induction p as [|w p IH]; intros u v E N.
  - cbn [aim] in E. inversion N as [|? ? Nu N']; subst. inversion N' as [|? ? Nv _]; subst. assert (T1 : turn_cost u v = 0) by nra. assert (T2 : turn_cost u goal = 0) by nra. apply qrot_inj in T1; auto. apply qrot_inj in T2; auto using goal_unit. rewrite goal_rot in T2. repeat constructor; congruence.
  - change (aim goal (u :: v :: w :: p)) with (turn_cost u v ^ 2 + 0.5 * turn_cost u goal ^ 2 + aim goal (v :: w :: p)) in E. pose proof (aim_pos goal (v :: w :: p)). inversion N as [|? ? Nu N']; subst. assert (T2 : turn_cost u goal = 0) by nra. apply qrot_inj in T2; auto using goal_unit. rewrite goal_rot in T2.
    constructor; auto. apply IH; auto. nra.
Qed.

(** ** task_to_urdf.py *)
Lemma urdf_export N d s f path sc : parse_task_data d = Ok (path, sc) -> coll_of N s = sc -> c_s sc <> [] -> length (c_s sc) = length (c_tf sc) -> Forall (fun T => rot T = mid) (c_tf sc) ->
  exists f', task_to_urdf N d s f = Ok f' /\ import_urdf N f' = Ok sc.
Proof.
  intros H <- Ne L U. unfold task_to_urdf. rewrite H. cbn [bind]. eexists. split; [reflexivity|]. unfold coll_of in *. cbn [c_s c_tf] in *. apply export_unrotated.
  - unfold even. rewrite !map_length in L. exact L.
  - intros E. rewrite E in Ne. apply Ne. reflexivity.
  - unfold unrotated. rewrite Forall_map in U. exact U.
Qed.
Lemma passage_export N s f : decimal_reader N -> parse_obstacles small_passage_2 = Ok (coll_of N s) ->
  exists f', task_to_urdf N small_passage_2 s f = Ok f' /\ import_urdf N f' = parse_obstacles small_passage_2 /\ import_urdf N f' = import_doc N scene_small_passage.
Proof.
  intros D H. assert (C : coll_of N s = passage_boxes 0.8) by (rewrite (proj2 obstacles_passage) in H; congruence). destruct path_passage_2 as (path & P & _). destruct (urdf_export N small_passage_2 s f path (coll_of N s)) as (f' & E & I).
  - unfold parse_task_data. rewrite P. cbn [bind]. rewrite H. reflexivity.
  - reflexivity.
  - rewrite C. discriminate.
  - rewrite C. reflexivity.
  - rewrite C. repeat constructor.
  - exists f'. split; [exact E|]. split; [congruence|]. rewrite import_passage by auto. congruence.
Qed.

(** ** The picture of small_passage.py *)
Lemma every_second {A} : forall n (l : list A) a k, (length l <= n)%nat -> (a mod 2 = 0)%nat ->
  nth_error (filter (fun p => Nat.eqb (fst p mod 2) 0) (combine (seq a (length l)) l)) k = option_map (fun x => ((a + 2 * k)%nat, x)) (nth_error l (2 * k)).
Proof.
  induction n as [|n IH]; intros l a k L Ea; (destruct l as [|x [|y l]]; [destruct k; reflexivity| |]); try (cbn in L; lia).
  - cbn [length seq combine filter fst]. rewrite Ea. cbn [Nat.eqb]. destruct k as [|k]; cbn [nth_error Nat.mul plus option_map]; [repeat f_equal; lia|]. replace (k + S (k + 0))%nat with (S (2 * k)) by lia. destruct k; reflexivity.
  - cbn [length seq combine filter fst]. rewrite Ea. assert (Eb : (S a mod 2 = 1)%nat). { rewrite <- Nat.add_1_r, Nat.add_mod, Ea by lia. reflexivity. } rewrite Eb. cbn [Nat.eqb].
    destruct k as [|k]; [cbn [nth_error Nat.mul plus option_map]; repeat f_equal; lia|]. replace (2 * S k)%nat with (S (S (2 * k))) by lia. cbn [nth_error]. cbn [length] in L. rewrite (IH l (S (S a)) k); [|lia|].
    + destruct (nth_error l (2 * k)); cbn [option_map]; [|reflexivity]. do 2 f_equal. lia.
    + replace (S (S a)) with (a + 1 * 2)%nat by lia. rewrite Nat.mod_add by lia. exact Ea.
Qed.
Lemma drawn_ok tool sol : exists pics, pass_drawn tool sol = Ok pics /\ (forall k, nth_error pics k <> None <-> nth_error sol (2 * k) <> None) /\
  forall k F, nth_error sol (2 * k) = Some F -> exists ls, nth_error pics k = Some ls /\ shows ls (fun s T => exists T0, member (fst tool) s T0 /\ T = tmul (tmul F (tf_inverse (snd tool))) T0).
Proof.
  unfold pass_drawn. set (sel := filter _ _). assert (Se : forall k, nth_error sel k = option_map (fun x => ((0 + 2 * k)%nat, x)) (nth_error sol (2 * k))) by (intros k; apply (every_second (length sol)); auto).
  rewrite (mapM_pure _ (fun itf => pic (cboxes (fst tool) (Some (tmul (snd itf) (tf_inverse (snd tool))))))) by (intros; apply coll_plot_pic).
  eexists. split; [reflexivity|]. split.
  - intros k. rewrite nth_error_map, Se. destruct (nth_error sol (2 * k)); cbn; split; congruence.
  - intros k F E. rewrite nth_error_map, Se, E. cbn [option_map snd]. eexists. split; [reflexivity|]. eapply shows_iff; [|apply pic_shows]. intros s T. rewrite cboxes_in. cbn [GeometryProofs.place]. reflexivity.
Qed.
Lemma passage_picture prim tool scene path r : exact_prim prim -> rigid_coll (fst tool) -> rigid (snd tool) -> rigid_coll scene -> Forall unit_samples path ->
  pass_plan prim tool scene path = Ok r ->
  exists pics, pass_drawn tool (pass_frames (dp_path _ r) path) = Ok pics /\ length pics = ((length path + 1) / 2)%nat /\
  forall k tp, nth_error path (2 * k) = Some tp -> exists ls F, nth_error pics k = Some ls /\ rigid F /\ tapply F (pos (snd tool)) = pp_p tp /\
    shows ls (fun s T => exists T0, member (fst tool) s T0 /\ T = tmul F T0) /\ forall x, ~ (in_coll (fst tool) (Some F) x /\ in_coll scene None x).
Proof.
  intros X Ht Htt Hs U H. pose proof (pass_poses prim tool scene path r X Ht Htt Hs U H) as P. set (fs := pass_frames (dp_path _ r) path) in *. destruct (drawn_ok tool fs) as (pics & E & N & D). exists pics. split; [exact E|]. split.
  - pose proof (Forall2_length P) as L. assert (G : forall k, (k < length pics)%nat <-> (2 * k < length path)%nat). { intros k. rewrite L, <- !nth_error_Some. apply N. }
    pose proof (Nat.div_mod (length path + 1) 2 ltac:(lia)) as M. pose proof (Nat.mod_upper_bound (length path + 1) 2 ltac:(lia)). set (h := ((length path + 1) / 2)%nat) in *.
    destruct (lt_eq_lt_dec (length pics) h) as [[Lt|]|Gt]; auto; exfalso; [pose proof (proj2 (G (length pics)))|pose proof (proj1 (G h) Gt)]; lia.
  - intros k tp Ek. destruct (nth_error fs (2 * k)) as [F|] eqn:EF.
    + destruct (D k F EF) as (ls & El & S). exists ls, (tmul F (tf_inverse (snd tool))). assert (Q : rigid F /\ pos F = pp_p tp /\ (exists q, In q (pp_s tp) /\ rot F = qrot q) /\ tmul (tmul F (tf_inverse (snd tool))) (snd tool) = F /\ forall x, ~ (in_coll (fst tool) (Some (tmul F (tf_inverse (snd tool)))) x /\ in_coll scene None x)).
      { clear - P Ek EF. revert Ek EF. generalize (2 * k)%nat. clear k. induction P as [|tp' F' path fs Q P IH]; intros [|k] E1 E2; try discriminate; [cbn in E1, E2; injection E1 as <-; injection E2 as <-; exact Q|]. eapply IH; eauto. }
      destruct Q as (Q1 & Q2 & _ & Q3 & Q4). split; [exact El|]. assert (Ri : rigid (tmul F (tf_inverse (snd tool)))) by (apply rigid_tmul; auto using tf_inverse_rigid). split; [exact Ri|]. split; [|split; [exact S|exact Q4]].
      apply (f_equal pos) in Q3. rewrite (tmul_blocks _ (snd tool)) in Q3 by (apply Ri || apply Htt). rewrite <- Q2. exact Q3.
    + exfalso. apply nth_error_None in EF. rewrite <- (Forall2_length P) in EF. assert (2 * k < length path)%nat by (apply nth_error_Some; congruence). lia.
Qed.
(** the scene of small_passage_2.json as decimal numbers *)
Definition dn (s : string) (H : okb s = true) : dnum := exist _ s H.
Definition passage_numbers : scene decimals_N :=
  let n (s : string) (H : okb s = true) : num decimals_N := dn s H in
  Scene decimals_N [(n "0.1"%string eq_refl, n "0.03"%string eq_refl, n "0.2"%string eq_refl); (n "0.1"%string eq_refl, n "0.03"%string eq_refl, n "0.2"%string eq_refl); (n "0.035"%string eq_refl, n "0.03"%string eq_refl, n "0.1"%string eq_refl)]
    [Tf decimals_N mid (n "0.7325"%string eq_refl, n "0.0"%string eq_refl, n "0.0"%string eq_refl); Tf decimals_N mid (n "0.8675"%string eq_refl, n "0.0"%string eq_refl, n "0.0"%string eq_refl); Tf decimals_N mid (n "0.8"%string eq_refl, n "0.0"%string eq_refl, n "0.05"%string eq_refl)].
Lemma passage_scene : parse_obstacles small_passage_2 = Ok (coll_of decimals_N passage_numbers).
Proof.
  rewrite (proj2 obstacles_passage). f_equal. unfold passage_boxes, boxes, coll_of, passage_numbers. cbv zeta. cbn [map fst snd sc_sizes sc_tfs f_rot f_pos shape_of vec_of value decimals_N]. unfold dvalue, dn. cbn [proj1_sig].
  repeat match goal with |- context [dec_parts ?s] => let v := eval vm_compute in (dec_parts s) in change (dec_parts s) with v end. cbv iota beta.
  f_equal; repeat (apply f_equal2; [f_equal; try (apply vec3_eq; cbn [vx vy vz]); lra|]); reflexivity.
Qed.
(** the texts of the numbers of a scene *)
Definition texts {N} (l : list (num N * num N * num N)) : list string := map (fun p => list_to_string N (triple N p)) l.
Lemma passage_text N s f : texts (sc_sizes N s) = ["0.1 0.03 0.2"; "0.1 0.03 0.2"; "0.035 0.03 0.1"]%string -> texts (map (f_pos N) (sc_tfs N s)) = ["0.7325 0.0 0.0"; "0.8675 0.0 0.0"; "0.8 0.0 0.05"]%string ->
  task_to_urdf N small_passage_2 s f = Ok (DocFile scene_small_passage).
Proof.
  destruct s as [sizes tfs]. cbn [sc_sizes sc_tfs]. destruct sizes as [|s1 [|s2 [|s3 [|]]]]; try discriminate. destruct tfs as [|t1 [|t2 [|t3 [|]]]]; try discriminate. intros A B. injection A as A1 A2 A3. injection B as B1 B2 B3.
  destruct path_passage_2 as (path & P & _). unfold task_to_urdf, parse_task_data. rewrite P. cbn [bind]. rewrite (proj2 obstacles_passage). cbn [bind]. f_equal.
  unfold export_urdf, create_urdf_data. cbn -[list_to_string triple]. rewrite A1, A2, A3, B1, B2, B3. reflexivity.
Qed.
