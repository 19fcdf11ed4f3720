(** * Lemmas about the task and scene files of examples/ (C156). *)
From Coq Require Import String Ascii Reals Lra Lia List Bool Arith ZArith.
From Verif Require Import PyBase Mat Util UtilProofs Geometry GeometryProofs Path PathProofs TaskProofs Extents Io IoProofs Kingpin Urdf UrdfProofs Tasks.
Import ListNotations.
Local Open Scope R_scope.
(** upright boxes: size and middle *)
Definition boxes (l : list (shape * vec3)) : coll := Coll (map fst l) (map (fun b => M4 mid (snd b) v0 1) l).
(** the three numbers of a text *)
Definition parts3 (s : string) : option (Z * Z * (Z * Z) * (Z * Z)) :=
  match map dec_parts (tokens s "") with [Some a; Some b; Some c] => Some (a, b, c) | _ => None end.
Lemma reads N s na da nb db nc dc : decimal_reader N -> parts3 s = Some (na, da, (nb, db), (nc, dc)) ->
  exists p, read3 N s = Ok p /\ vec_of N p = V3 (IZR na / IZR da) (IZR nb / IZR db) (IZR nc / IZR dc) /\ shape_of N p = Shape (IZR na / IZR da) (IZR nb / IZR db) (IZR nc / IZR dc).
Proof.
  intros D T. unfold parts3 in T. unfold read3. destruct (tokens s "") as [|a [|b [|c [|d l]]]]; cbn [map] in *;
    repeat match type of T with context [dec_parts ?x] => destruct (dec_parts x) as [[]|] eqn:? end; try discriminate T.
  injection T as -> -> -> -> -> ->. destruct (D a _ _ ltac:(eassumption)) as (x & X & Vx). destruct (D b _ _ ltac:(eassumption)) as (y & Y & Vy). destruct (D c _ _ ltac:(eassumption)) as (z & Z & Vz).
  exists (x, y, z). rewrite X, Y, Z. cbn [vec_of shape_of]. rewrite Vx, Vy, Vz. auto.
Qed.
Lemma origin_reads N s na da nb db nc dc : decimal_reader N -> parts3 s = Some (na, da, (nb, db), (nc, dc)) ->
  origin N s "0 0 0" = Ok (M4 mid (V3 (IZR na / IZR da) (IZR nb / IZR db) (IZR nc / IZR dc)) v0 1).
Proof.
  intros D T. destruct (reads N s na da nb db nc dc D T) as (p & E & V & _). unfold origin. rewrite E. cbn [bind]. destruct (read3_zero N) as (z & Z & Vz). rewrite Z. cbn [bind vec_of]. rewrite Vz. cbn [vx vy vz]. rewrite rpy_to_matrix_0, V. auto.
Qed.
Ltac with_parts s k := let v := eval vm_compute in (parts3 s) in match v with Some (?a, ?b, (?c, ?d), (?e, ?f)) => k a b c d e f end.
Ltac size D := match goal with |- context [read3 ?N ?s] => with_parts s ltac:(fun a b c d e f => let p := fresh "p" in let E := fresh "E" in let S := fresh "S" in 
   destruct (reads N s a b c d e f D eq_refl) as (p & E & _ & S); rewrite ?E; cbn [bind]) end.
Ltac orig D := match goal with |- context [origin ?N ?s "0 0 0"] => with_parts s ltac:(fun a b c d e f => rewrite !(origin_reads N s a b c d e f D eq_refl); cbn [bind]) end.
Ltac import D := unfold import_doc, load, urdf_doc; cbn [map d_links d_joints mapM]; unfold load_link, load_joint, box_link, box_joint; cbn [n_name n_size n_xyz mapM l_name l_coll j_name j_parent j_child j_xyz j_rpy c_xyz c_rpy c_geom]; unfold load_coll; cbn [c_xyz c_rpy c_geom];
  repeat orig D; repeat size D; cbn; repeat match goal with E : shape_of _ _ = _ |- _ => rewrite !E; clear E end; unfold boxes; cbn [map fst snd]; repeat (f_equal; try lra).

(** ** A reader of decimals *)
Definition okb (s : string) : bool := match dec_parts s with Some _ => true | None => false end.
Lemma digit_space : digit space = None. Proof. reflexivity. Qed.
Lemma decimals_nospace s : forall fr n d p, decimals s fr n d = Some p -> ~ In space (list_ascii_of_string s).
Proof.
  induction s as [|c s IH]; cbn [decimals list_ascii_of_string]; intros fr n d p H; [intros []|]. intros [->|I].
  - rewrite digit_space in H. discriminate.
  - destruct (digit c); [apply (IH _ _ _ _ H I)|]. destruct (_ && _); [apply (IH _ _ _ _ H I)|discriminate].
Qed.
Lemma dec_plain s : okb s = true -> plain s.
Proof.
  unfold okb. intros H. split; [intros ->; discriminate|]. destruct (dec_parts s) as [p|] eqn:E; [|discriminate]. clear H. destruct s as [|c s]; [discriminate|].
  destruct (Ascii.eqb c "-") eqn:Ec.
  - apply Ascii.eqb_eq in Ec. subst. destruct s as [|c s]; [discriminate|]. unfold dec_parts in E. destruct (digit c) eqn:Dc; [|discriminate].
    destruct (decimals (String c s) false 0 1) eqn:E'; [|discriminate]. apply decimals_nospace in E'. intros [I|I]; [discriminate|exact (E' I)].
  - assert (E' : decimals (String c s) false 0 1 = Some p).
    { unfold dec_parts in E. destruct c as [[] [] [] [] [] [] [] []]; try discriminate Ec; try discriminate E; exact E. }
    apply decimals_nospace in E'. exact E'.
Qed.
Definition dnum : Type := {s : string | okb s = true}.
Definition dread (s : string) : option dnum := match bool_dec (okb s) true with left H => Some (exist _ s H) | right _ => None end.
Definition dvalue (x : dnum) : R := match dec_parts (proj1_sig x) with Some (n, d) => IZR n / IZR d | None => 0 end.
Lemma dread_show (x : dnum) : dread (proj1_sig x) = Some x.
Proof. destruct x as [s H]. unfold dread. cbn [proj1_sig]. destruct (bool_dec (okb s) true) as [H'|N]; [|contradiction]. rewrite (Eqdep_dec.UIP_dec bool_dec H' H). reflexivity. Qed.
Lemma dshow_plain (x : dnum) : plain (proj1_sig x).
Proof. apply dec_plain, proj2_sig. Qed.
Lemma dread_0 : exists z, dread "0" = Some z /\ dvalue z = 0.
Proof. exists (exist (fun s => okb s = true) "0"%string eq_refl). split; [apply (dread_show (exist _ "0"%string eq_refl))|]. unfold dvalue. cbn [proj1_sig]. change (dec_parts "0") with (Some (0, 1)%Z). lra. Qed.
Definition decimals_N : numbers := Numbers dnum (@proj1_sig _ _) dread dvalue dread_show dshow_plain dread_0.
Lemma decimals_read : decimal_reader decimals_N.
Proof.
  intros s n d E. assert (H : okb s = true) by (unfold okb; rewrite E; reflexivity). exists (exist (fun s => okb s = true) s H). split; [apply (dread_show (exist _ s H))|]. cbn. unfold dvalue. cbn [proj1_sig]. rewrite E. reflexivity.
Qed.

(** ** The scenes *)
Definition circle_boxes : coll := boxes [(Shape 0.5 0.5 0.1, V3 0.8 0 0.02)].
Definition industrial_boxes : coll := boxes
  [(Shape 0.2 0.5 0.1, V3 1.1 0 0.05); (Shape 0.2 0.0833333333333 0.01, V3 0.85 0 0.005); (Shape 0.7 0.7 0.01, V3 0.85 0 (-0.005));
   (Shape 0.3 0.1 0.055, V3 0.85 0.2 0.0275); (Shape 0.3 0.1 0.055, V3 0.85 (-0.2) 0.0275); (Shape 0.2 0.5 0.1, V3 0.6 0 0.05)].
Definition box_boxes : coll := boxes
  [(Shape 1.6 0.8 0.01, V3 0 0 0.005); (Shape 1.6 0.8 0.01, V3 0 0 1.015); (Shape 1.58 0.01 1, V3 0 0.395 0.51); (Shape 0.01 0.8 1, V3 0.795 0 0.51); (Shape 0.01 0.8 1, V3 (-0.795) 0 0.51)].
Definition passage_boxes (x : R) : coll := boxes [(Shape 0.1 0.03 0.2, V3 (x - 0.0675) 0 0); (Shape 0.1 0.03 0.2, V3 (x + 0.0675) 0 0); (Shape 0.035 0.03 0.1, V3 x 0 0.05)].
Definition obstacle_boxes (e : R) : coll := boxes
  [(Shape 0.5 0.5 0.1, V3 (0.6 + e) 0 0.05); (Shape 0.1 0.5 0.01, V3 0.8 0 (0.105 + 0.1 * e)); (Shape 0.01 0.5 0.1, V3 (0.845 + e) 0 (0.16 + 0.3 * e)); (Shape 0.05 0.1 0.05, V3 0.775 0 0.135)].
Lemma import_circle N : decimal_reader N -> import_doc N scene_circle = Ok circle_boxes.
Proof. intros D. unfold scene_circle, circle_boxes. import D. Qed.
Lemma import_industrial N : decimal_reader N -> import_doc N scene_industrial = Ok industrial_boxes.
Proof. intros D. unfold scene_industrial, industrial_boxes. import D. Qed.
Lemma import_box N : decimal_reader N -> import_doc N scene_path_in_box = Ok box_boxes.
Proof. intros D. unfold scene_path_in_box, box_boxes. import D. Qed.
Lemma import_passage N : decimal_reader N -> import_doc N scene_small_passage = Ok (passage_boxes 0.8).
Proof. intros D. unfold scene_small_passage, passage_boxes. import D. Qed.
(** 0.0000000000000001: what the printed floats of kingpin.py's scene are off *)
Definition ulp : R := / 10000000000000000.
Lemma import_obstacle N : decimal_reader N -> import_doc N scene_torch_obstacle = Ok (obstacle_boxes ulp).
Proof. intros D. unfold scene_torch_obstacle, obstacle_boxes, ulp. import D. Qed.
Lemma boxes_fill l : fills (boxes l) (map (fun b => (V3 (vx (snd b) - dx (fst b) / 2) (vy (snd b) - dy (fst b) / 2) (vz (snd b) - dz (fst b) / 2), V3 (vx (snd b) + dx (fst b) / 2) (vy (snd b) + dy (fst b) / 2) (vz (snd b) + dz (fst b) / 2))) l).
Proof. unfold boxes. apply fills_intro; [induction l; cbn [map]; constructor; auto; reflexivity|]. induction l as [|b l IH]; [reflexivity|]. cbn [map combine fst snd]. rewrite IH. reflexivity. Qed.
Lemma boxes_rigid l : rigid_coll (boxes l).
Proof. unfold rigid_coll, boxes. cbn [c_tf]. induction l; cbn [map]; constructor; auto. split; cbn; auto. apply mid_rotation. Qed.
Lemma fills_conv c l l' : fills c l -> l = l' -> fills c l'. Proof. intros H <-. exact H. Qed.
Ltac filled := eapply fills_conv; [apply boxes_fill|]; cbn [map fst snd vx vy vz dx dy dz]; repeat (f_equal; try lra).
Lemma circle_fills : fills circle_boxes [(V3 0.55 (-0.25) (-0.03), V3 1.05 0.25 0.07)].
Proof. filled. Qed.
Lemma industrial_fills : fills industrial_boxes
  [(V3 1 (-0.25) 0, V3 1.2 0.25 0.1); (V3 0.75 (-0.04166666666665) 0, V3 0.95 0.04166666666665 0.01); (V3 0.5 (-0.35) (-0.01), V3 1.2 0.35 0);
   (V3 0.7 0.15 0, V3 1 0.25 0.055); (V3 0.7 (-0.25) 0, V3 1 (-0.15) 0.055); (V3 0.5 (-0.25) 0, V3 0.7 0.25 0.1)].
Proof. filled. Qed.
Lemma box_fills : fills box_boxes
  [(V3 (-0.8) (-0.4) 0, V3 0.8 0.4 0.01); (V3 (-0.8) (-0.4) 1.01, V3 0.8 0.4 1.02); (V3 (-0.79) 0.39 0.01, V3 0.79 0.4 1.01);
   (V3 0.79 (-0.4) 0.01, V3 0.8 0.4 1.01); (V3 (-0.8) (-0.4) 0.01, V3 (-0.79) 0.4 1.01)].
Proof. filled. Qed.
Lemma passage_fills x : fills (passage_boxes x)
  [(V3 (x - 0.1175) (-0.015) (-0.1), V3 (x - 0.0175) 0.015 0.1); (V3 (x + 0.0175) (-0.015) (-0.1), V3 (x + 0.1175) 0.015 0.1); (V3 (x - 0.0175) (-0.015) 0, V3 (x + 0.0175) 0.015 0.1)].
Proof. filled. Qed.
Lemma obstacle_fills e : fills (obstacle_boxes e)
  [(V3 (0.35 + e) (-0.25) 0, V3 (0.85 + e) 0.25 0.1); (V3 0.75 (-0.25) (0.1 + 0.1 * e), V3 0.85 0.25 (0.11 + 0.1 * e));
   (V3 (0.84 + e) (-0.25) (0.11 + 0.3 * e), V3 (0.85 + e) 0.25 (0.21 + 0.3 * e)); (V3 0.75 (-0.05) 0.11, V3 0.8 0.05 0.16)].
Proof. filled. Qed.

(** ** Obstacles of the json files *)
Lemma rot3_0 : rot3 [0; 0; 0] = Ok mid.
Proof. unfold rot3. cbn [py_index nth_error bind]. unfold rot_x, rot_y, rot_z. rewrite sin_0, cos_0. f_equal. unfold mmul, mid. cbn [m00 m01 m02 m10 m11 m12 m20 m21 m22]. f_equal; ring. Qed.
Definition jvec (x y z : R) : json := JList [JFloat x; JFloat y; JFloat z].
Definition jbox (s p : R * R * R) : json := let '(a, b, c) := s in let '(x, y, z) := p in
  JObj [("type"%string, JStr "box"); ("size"%string, jvec a b c); ("xyz"%string, jvec x y z); ("rpy"%string, jvec 0 0 0)].
Lemma parse_jbox a b c x y z : parse_shape (jbox (a, b, c) (x, y, z)) = Ok (Shape a b c, M4 mid (V3 x y z) v0 1).
Proof.
  unfold parse_shape, jbox, jvec. cbn [getitem assoc String.eqb Ascii.eqb Bool.eqb bind is_str]. unfold create_box. cbn [getitem assoc String.eqb Ascii.eqb Bool.eqb bind nums mapM num_of].
  unfold create_transform, set_pos. rewrite rot3_0. reflexivity.
Qed.
Lemma zero_dec : 0.0 = 0. Proof. lra. Qed.
Ltac obst := unfold parse_obstacles; cbn [getitem assoc String.eqb Ascii.eqb Bool.eqb bind iterate]; rewrite ?zero_dec;
  repeat match goal with |- context [JObj [("type"%string, JStr "box"); ("size"%string, JList [JFloat ?a; JFloat ?b; JFloat ?c]); ("xyz"%string, JList [JFloat ?x; JFloat ?y; JFloat ?z]); ("rpy"%string, JList [JFloat 0; JFloat 0; JFloat 0])]] =>
    change (JObj [("type"%string, JStr "box"); ("size"%string, JList [JFloat a; JFloat b; JFloat c]); ("xyz"%string, JList [JFloat x; JFloat y; JFloat z]); ("rpy"%string, JList [JFloat 0; JFloat 0; JFloat 0])]) with (jbox (a, b, c) (x, y, z)) end;
  cbn [mapM]; rewrite !parse_jbox; cbn [bind map fst snd].
Lemma obstacles_line : parse_obstacles line_orient_free = Ok (boxes [(Shape 0.5 0.5 0.1, V3 0.8 0 0.12)]) /\ parse_obstacles line_x_tol = parse_obstacles line_orient_free.
Proof. split; [unfold line_orient_free|unfold line_orient_free, line_x_tol]; obst; reflexivity. Qed.
Lemma obstacles_passage : parse_obstacles small_passage = Ok (passage_boxes 0) /\ parse_obstacles small_passage_2 = Ok (passage_boxes 0.8).
Proof. split; [unfold small_passage|unfold small_passage_2]; obst; unfold passage_boxes, boxes; cbn [map fst snd]; repeat (f_equal; try lra). Qed.
Lemma obstacles_circle : parse_obstacles weld_circle = Ok circle_boxes.
Proof. unfold weld_circle. obst. reflexivity. Qed.

(** ** Paths of the json files *)
(** n points, the k-th as P k says *)
Definition points (path : list ppt) (n : nat) (P : nat -> ppt -> Prop) : Prop := length path = n /\ forall k tp, nth_error path k = Some tp -> P k tp.
(** a point with fixed position and these values of the angles *)
Definition euler_at (p : list R) (rpy : list Path.num) (tp : ppt) : Prop := exists e, tp = Io.PEuler e /\ new_eulerpt (map Fix p) rpy = Ok e.
(** +- w around m, ten samples *)
Definition around (m w : R) : Path.num := Tol (TN (m - w) (m + w) m 10).
(** the k-th of n + 1 places between a and b *)
Definition on_line (a b : vec3) (n k : nat) : list R := [vx a + INR k / INR n * (vx b - vx a); vy a + INR k / INR n * (vy b - vy a); vz a + INR k / INR n * (vz b - vz a)].
Lemma rows_line a b n k row : (1 <= n)%nat -> nth_error (linspace_rows (combine (vlist a) (vlist b)) (S n)) k = Some row -> row = on_line a b n k.
Proof.
  intros Hn E. assert (K : (k < S n)%nat) by (rewrite <- (rows_length (combine (vlist a) (vlist b)) (S n)); apply nth_error_Some; congruence).
  destruct (line_rows (vlist a) (vlist b) (S n) eq_refl) as (H & _). replace (S n - 1)%nat with n in H by lia. rewrite (H k) in E by lia. injection E as <-. reflexivity.
Qed.
Lemma free_rows a b n : (1 <= n)%nat -> points (map Io.PFree (linspace_rows (combine (vlist a) (vlist b)) (S n))) (S n) (fun k tp => tp = Io.PFree (on_line a b n k)).
Proof. intros Hn. split; [rewrite map_length; apply rows_length|]. intros k tp E. rewrite nth_error_map in E. destruct (nth_error (linspace_rows _ _) k) eqn:E'; [|discriminate]. injection E as <-. f_equal. eapply rows_line; eauto. Qed.
Lemma sym_fix x t : t <= 0 -> sym_coord (x, t) = Ok (Fix x).
Proof. intros H. unfold sym_coord. cbn [fst snd]. destruct (Rlt_dec 0 t); [lra|reflexivity]. Qed.
Lemma sym_tol x t : 0 < t -> sym_coord (x, t) = Ok (around x t).
Proof. intros H. unfold sym_coord. cbn [fst snd]. destruct (Rlt_dec 0 t); [|lra]. cbn [new_tol bind]. unfold around. do 3 f_equal. field. Qed.
Lemma euler_rows a b n rpy tol rs : (1 <= n)%nat -> mapM sym_coord (combine (map guess_angle_unit rpy) (map guess_angle_unit tol)) = Ok rs -> length rs = 3%nat ->
  exists path, create_symmetric_euler_tolerance (linspace_rows (combine (vlist a) (vlist b)) (S n)) rpy tol = Ok path /\ points path (S n) (fun k tp => euler_at (on_line a b n k) rs tp).
Proof.
  intros Hn E L. unfold create_symmetric_euler_tolerance. cbv zeta. rewrite E. cbn [bind].
  destruct (mapM_ex (fun p => pt <- new_eulerpt (map Fix p) rs ;; Ok (PEuler pt)) (fun p tp => euler_at p rs tp) (linspace_rows (combine (vlist a) (vlist b)) (S n))) as (path & P & F).
  { intros p I. apply In_nth_error in I. destruct I as [k I]. apply rows_line in I; auto. subst p.
    destruct (proj2 (new_eulerpt_Ok (map Fix (on_line a b n k)) rs)) as (e & Ee); [rewrite L; cbn; lia|]. rewrite Ee. cbn [bind]. eexists. split; [reflexivity|]. exists e. auto. }
  exists path. split; [exact P|]. split; [rewrite <- (Forall2_length F); apply rows_length|]. intros k tp Ek. destruct (Forall2_nth_r _ _ _ _ _ F Ek) as (p & Ep & H). apply rows_line in Ep; auto. subst p. exact H.
Qed.
Lemma guess_deg v : 10 < v -> guess_angle_unit v = v * PI / 180. Proof. intros H. unfold guess_angle_unit. destruct (Rlt_dec 10 v); [auto|lra]. Qed.
Lemma guess_rad v : v <= 10 -> guess_angle_unit v = v. Proof. intros H. unfold guess_angle_unit. destruct (Rlt_dec 10 v); [lra|auto]. Qed.

Lemma path_line : exists path, parse_path line_orient_free = Ok path /\ points path 10 (fun k tp => tp = Io.PFree (on_line (V3 0.8 (-0.2) 0.2) (V3 0.8 0.2 0.2) 9 k)).
Proof. exists (map Io.PFree (linspace_rows (combine (vlist (V3 0.8 (-0.2) 0.2)) (vlist (V3 0.8 0.2 0.2))) 10)). split; [reflexivity|apply free_rows; lia]. Qed.
Lemma path_passage : exists path, parse_path small_passage = Ok path /\ points path 15 (fun k tp => tp = Io.PFree (on_line (V3 0 (-0.1) 0) (V3 0 0.1 0) 14 k)).
Proof. exists (map Io.PFree (linspace_rows (combine (vlist (V3 0.0 (-0.1) 0.0)) (vlist (V3 0.0 0.1 0.0))) 15)). split; [reflexivity|]. rewrite zero_dec. apply free_rows; lia. Qed.
Lemma path_passage_2 : exists path, parse_path small_passage_2 = Ok path /\ points path 15 (fun k tp => tp = Io.PFree (on_line (V3 0.8 (-0.1) 0) (V3 0.8 0.1 0) 14 k)).
Proof. exists (map Io.PFree (linspace_rows (combine (vlist (V3 0.8 (-0.1) 0.0)) (vlist (V3 0.8 0.1 0.0))) 15)). split; [reflexivity|]. rewrite zero_dec. apply free_rows; lia. Qed.
(** the tasks/ files hold the same paths *)
Lemma same_passage : import_paths task_small_passage = (p <- parse_path small_passage_2 ;; Ok [p]).
Proof. reflexivity. Qed.
Lemma same_circle : import_paths task_circle = (p <- parse_path weld_circle ;; Ok [p]).
Proof. reflexivity. Qed.
Lemma path_x_tol : exists path, parse_path line_x_tol = Ok path /\ points path 10 (fun k tp => exists p, tp = Io.PPos p /\
  p_pos p = [around 0.8 0.2; Fix (-0.2 + INR k / INR 9 * 0.4); Fix 0.2] /\ qrot (p_quat p) = mid).
Proof.
  set (a := V3 0.8 (-0.2) 0.2). set (b := V3 0.8 0.2 0.2). set (ps := linspace_rows (combine (vlist a) (vlist b)) 10).
  destruct (rpy_quat 0 0 0 []) as (q & Q & U & V).
  assert (E : parse_path line_x_tol = create_symmetric_position_tolerance ps [0; 0; 0] [0.2; 0; 0]) by (rewrite <- zero_dec; reflexivity). rewrite E. clear E.
  unfold create_symmetric_position_tolerance. rewrite Q. cbn [bind].
  destruct (mapM_ex (fun p => xyz <- mapM sym_coord (combine p [0.2; 0; 0]) ;; pt <- new_pospt xyz q ;; Ok (Io.PPos pt)) (fun p tp => exists x y z pt, p = [x; y; z] /\ tp = Io.PPos pt /\ p_pos pt = [around x 0.2; Fix y; Fix z] /\ p_quat pt = q) ps) as (path & P & F).
  { intros p I. apply In_nth_error in I. destruct I as [k I]. apply rows_line in I; [|lia]. subst p. unfold on_line. cbn [combine mapM]. rewrite sym_tol, !sym_fix by lra. cbn [bind].
    match goal with |- context [new_pospt ?l q] => destruct (new_pospt_Ok l q) as (pt & Ept & _); [cbn; lia|]; rewrite Ept end. cbn [bind]. eexists. split; [reflexivity|]. do 4 eexists. split; [reflexivity|]. split; [reflexivity|]. apply new_pospt_inv in Ept. destruct Ept as (_ & A & B). auto. }
  exists path. split; [exact P|]. split; [rewrite <- (Forall2_length F); apply rows_length|]. intros k tp Ek. destruct (Forall2_nth_r _ _ _ _ _ F Ek) as (p & Ep & x & y & z & pt & -> & -> & B & C). apply rows_line in Ep; [|lia]. unfold on_line, a, b in Ep. cbn [vx vy vz] in Ep. injection Ep as Ex Ey Ez.
  exists pt. split; auto. split; [rewrite B; rewrite Ex, Ey, Ez; repeat f_equal; lra|]. rewrite C, V. unfold rot_xyz, rot_x, rot_y, rot_z. rewrite sin_0, cos_0. unfold mmul, mid. cbn [m00 m01 m02 m10 m11 m12 m20 m21 m22]. f_equal; ring.
Qed.
Lemma path_circle : exists path, parse_path weld_circle = Ok path /\ points path 15 (fun k tp => tp = Io.PFree [0.8 - 0.2 * cos (INR k / INR 14 * (2 * PI)); - 0.2 * sin (INR k / INR 14 * (2 * PI)); 0.1]).
Proof.
  assert (E : parse_path weld_circle = (ps <- create_circle (jvec 0.8 0 0.1) (jvec 0.6 0 0.1) (jvec 0 0 1) (JInt 15) ;; Ok (map Io.PFree ps))) by (rewrite <- zero_dec; replace (jvec 0.0 0.0 1) with (jvec 0.0 0.0 1.0) by (unfold jvec; do 6 f_equal; lra); reflexivity). rewrite E. clear E.
  unfold create_circle, jvec. cbn [nums mapM num_of bind]. cbn [map fold_right]. replace (sqrt (0 * 0 + (0 * 0 + (1 * 1 + 0)))) with 1 by (replace (0 * 0 + (0 * 0 + (1 * 1 + 0))) with 1 by ring; symmetry; apply sqrt_1).
  destruct (Req_EM_T 1 0); [lra|]. cbn [map]. cbn [bcast2 length Nat.eqb combine bind map fst snd int_of Z.ltb Z.compare].
  set (f := circle_point _ _ _).
  assert (F : forall t, f t = Ok [0.8 - 0.2 * cos t; - 0.2 * sin t; 0.1]).
  { intros t. unfold f, circle_point. cbv zeta. unfold vlist, vadd, vscale, cross, vdot. cbn [vx vy vz bcast2 length Nat.eqb combine bind map fst snd]. replace (0 / 1) with 0 by lra. replace (1 / 1) with 1 by lra. f_equal. f_equal; [lra|f_equal; [lra|f_equal; lra]]. }
  destruct (mapM_ex f (fun t p => p = [0.8 - 0.2 * cos t; - 0.2 * sin t; 0.1]) (linspace 0 (2 * PI) 15)) as (ps & P & H); [intros t _; eexists; split; [apply F|reflexivity]|].
  change (Z.to_nat 15) with 15%nat. rewrite P. cbn [bind]. eexists. split; [reflexivity|]. split; [rewrite map_length, <- (Forall2_length H); apply linspace_length|].
  intros k tp Ek. rewrite nth_error_map in Ek. destruct (nth_error ps k) as [p|] eqn:Ep; [|discriminate]. injection Ek as <-. destruct (Forall2_nth_r _ _ _ _ _ H Ep) as (t & Et & ->).
  assert (K : (k < 15)%nat) by (rewrite <- (linspace_length 0 (2 * PI) 15); apply nth_error_Some; congruence). rewrite linspace_nth in Et by lia. injection Et as <-. replace (15 - 1)%nat with 14%nat by lia. rewrite Rminus_0_r, Rplus_0_l. reflexivity.
Qed.

Ltac guesses := cbn [map]; repeat first [rewrite guess_deg by lra|rewrite guess_rad by lra]; cbn [combine mapM]; repeat first [rewrite sym_fix by (pose proof PI_RGT_0; lra)|rewrite sym_tol by (pose proof PI_RGT_0; lra)]; cbn [bind].
Ltac euler_file a b r t := match goal with |- context [parse_path (JObj [("path"%string, ?p)])] =>
  let E := fresh "E" in let path := fresh "path" in let Ep := fresh "Ep" in let P := fresh "P" in
  assert (E : parse_path (JObj [("path"%string, p)]) = create_symmetric_euler_tolerance (linspace_rows (combine (vlist a) (vlist b)) 10) r t) by reflexivity; rewrite E; clear E;
  let G := fresh "G" in assert (G : exists rs, mapM sym_coord (combine (map guess_angle_unit r) (map guess_angle_unit t)) = Ok rs /\ length rs = 3%nat) by (guesses; eexists; split; reflexivity);
  destruct G as (rs & G & L);
  destruct (euler_rows a b 9 r t rs ltac:(lia) G L) as (path & Ep & P); rewrite Ep; cbn [bind]; clear Ep L; revert G P; guesses; intros G P; injection G as <- end.
Lemma paths_industrial : exists p1 p2 p3, import_paths task_industrial = Ok [p1; p2; p3] /\
  points p1 10 (fun k => euler_at (on_line (V3 0.98 (-0.1) 0.05) (V3 0.99 (-0.15) 0) 9 k) [Fix (3 * PI / 4); Fix (PI / 9); around 0 PI]) /\
  points p2 10 (fun k => euler_at (on_line (V3 0.99 (-0.15) 0) (V3 0.72 (-0.1) 0.05) 9 k) [Fix (-2.35619449); Fix 0; around 3.14159265 PI]) /\
  points p3 10 (fun k => euler_at (on_line (V3 0.71 (-0.15) 0) (V3 0.72 (-0.1) 0.05) 9 k) [Fix (3 * PI / 4); Fix (-20); around 0 PI]).
Proof.
  unfold import_paths, task_industrial. cbn [getitem assoc String.eqb Ascii.eqb Bool.eqb bind iterate mapM].
  euler_file (V3 0.98 (-0.1) 0.05) (V3 0.99 (-0.15) 0) [135; 20; 0] [0.0; 0.0; 180].
  euler_file (V3 0.99 (-0.15) 0) (V3 0.72 (-0.1) 0.05) [-2.35619449; 0; 3.14159265] [0.0; 0.0; 180].
  euler_file (V3 0.71 (-0.15) 0) (V3 0.72 (-0.1) 0.05) [135; -20; 0] [0.0; 0.0; 180].
  replace (180 * PI / 180) with PI in * by field. replace (135 * PI / 180) with (3 * PI / 4) in * by field. replace (20 * PI / 180) with (PI / 9) in * by field.
  do 3 eexists. split; [reflexivity|]. auto.
Qed.
Lemma paths_box : exists p, import_paths task_path_in_box = Ok [p] /\
  points p 10 (fun k => euler_at (on_line (V3 (-0.69) 0.35 0.05) (V3 0.69 0.35 0.05) 9 k) [around (-2.35619449) 0.5; Fix 0; around 3.14159265 3.1415]).
Proof.
  unfold import_paths, task_path_in_box. cbn [getitem assoc String.eqb Ascii.eqb Bool.eqb bind iterate mapM].
  euler_file (V3 (-0.69) 0.35 0.05) (V3 0.69 0.35 0.05) [-2.35619449; 0; 3.14159265] [0.5; 0; 3.1415]. eexists. split; [reflexivity|]. auto.
Qed.
Lemma paths_obstacle : exists p, import_paths task_torch_obstacle = Ok [p] /\
  points p 10 (fun k => euler_at (on_line (V3 0.82585786 (-0.25) 0.12414214) (V3 0.82585786 0.25 0.12414214) 9 k) [around 0 1.5707963267948966; Fix 2.356194490192345; around 0 1.5707963267948966]).
Proof.
  unfold import_paths, task_torch_obstacle. cbn [getitem assoc String.eqb Ascii.eqb Bool.eqb bind iterate mapM].
  euler_file (V3 0.82585786 (-0.25) 0.12414214) (V3 0.82585786 0.25 0.12414214) [0; 2.356194490192345; 0] [1.5707963267948966; 0; 1.5707963267948966]. eexists. split; [reflexivity|]. auto.
Qed.
