(** * The extent of the bundled link boxes, workpiece and scenes; the roll of the welding frames. *)
From Coq Require Import Reals Lra Lia List Bool Arith ZArith.
From Verif Require Import PyBase Mat Util Geometry GeometryProofs Robot Ik Path Resources ResourcesProofs TaskProofs.
Import ListNotations.
Local Open Scope R_scope.

Definition between (lo hi x : vec3) : Prop := vx lo <= vx x <= vx hi /\ vy lo <= vy x <= vy hi /\ vz lo <= vz x <= vz hi.
(** the collection fills exactly the given boxes *)
Definition fills (c : coll) (l : list (vec3 * vec3)) : Prop := forall x, in_coll c None x <-> Exists (fun b => between (fst b) (snd b) x) l.
Definition lower (s : shape) (T : mat4) : vec3 := V3 (vx (pos T) - dx s / 2) (vy (pos T) - dy s / 2) (vz (pos T) - dz s / 2).
Definition upper (s : shape) (T : mat4) : vec3 := V3 (vx (pos T) + dx s / 2) (vy (pos T) + dy s / 2) (vz (pos T) + dz s / 2).
Definition upright (T : mat4) : Prop := rot T = mid.
Lemma box_between s T x : upright T -> in_box s T x <-> between (lower s T) (upper s T) x.
Proof.
  intros U. unfold in_box, between, lower, upper, local_in, tapply. rewrite U. destruct T as [A [px py pz] ? ?]. destruct x as [a b c]. cbn [vx vy vz pos]. split.
  - intros ([u v w] & (H1 & H2 & H3) & E). unfold mid, mapply, vadd in E. cbn [m00 m01 m02 m10 m11 m12 m20 m21 m22 vx vy vz] in *. injection E as -> -> ->.
    pose proof (Rle_abs u). pose proof (Rle_abs v). pose proof (Rle_abs w). pose proof (Rle_abs (- u)). pose proof (Rle_abs (- v)). pose proof (Rle_abs (- w)). rewrite Rabs_Ropp in *. repeat split; lra.
  - intros (H1 & H2 & H3). exists (V3 (a - px) (b - py) (c - pz)). cbn [vx vy vz]. split; [repeat split; apply Rabs_le; lra|].
    unfold mid, mapply, vadd. cbn [m00 m01 m02 m10 m11 m12 m20 m21 m22 vx vy vz]. f_equal; ring.
Qed.
Lemma nth_combine {A B} : forall (l : list A) (m : list B) i a b, nth_error (combine l m) i = Some (a, b) <-> nth_error l i = Some a /\ nth_error m i = Some b.
Proof.
  induction l as [|x l IH]; intros m i a b; [destruct i; cbn; split; [discriminate|intros [? ?]; discriminate|discriminate|intros [? ?]; discriminate]|].
  destruct m as [|y m]; [destruct i; cbn; split; [discriminate|intros [? ?]; discriminate|discriminate|intros [? ?]; discriminate]|].
  destruct i as [|i]; cbn [combine nth_error]; [split; [intros E; injection E as -> ->; auto|intros [E1 E2]; congruence]|apply IH].
Qed.
Lemma fills_intro ss ts l : Forall upright ts -> map (fun p => (lower (fst p) (snd p), upper (fst p) (snd p))) (combine ss ts) = l -> fills (Coll ss ts) l.
Proof.
  intros U <- x. rewrite Exists_exists. unfold in_coll, member. cbn [c_s c_tf place]. rewrite Forall_forall in U. split.
  - intros (s & T & (i & Es & ET) & B). assert (I : In (s, T) (combine ss ts)) by (apply (nth_error_In _ i), nth_combine; auto).
    exists (lower s T, upper s T). split; [apply (in_map (fun p => (lower (fst p) (snd p), upper (fst p) (snd p))) _ (s, T)); auto|]. cbn [fst snd]. apply box_between; auto. apply U. apply in_combine_r in I. auto.
  - intros (b & I & H). apply in_map_iff in I. destruct I as ((s & T) & <- & I). cbn [fst snd] in H. exists s, T. pose proof (U T (in_combine_r _ _ _ _ I)). apply In_nth_error in I. destruct I as [i I]. apply nth_combine in I. split; [exists i; auto|]. apply box_between; auto.
Qed.
Lemma upright_pose x y z : upright (pose_x 0 x y z).
Proof. unfold upright, pose_x, rot_x, mid. cbn [rot]. rewrite sin_0, cos_0. f_equal; ring. Qed.
Ltac extent := apply fills_intro; [repeat constructor; apply upright_pose|cbn [map combine fst snd]; unfold lower, upper, pose_x; cbn [pos vx vy vz dx dy dz]; repeat (f_equal; try lra)].
Lemma rail_extents : Forall2 fills rail_geom
  [[(V3 (-0.1) (-0.1) (-0.2), V3 0.1 0.1 (-0.1))]; [(V3 (-0.24) (-0.1) 0, V3 0.06 0.1 0.1)]; [(V3 (-0.7) (-0.1) (-0.1), V3 0.1 0.1 0)];
   [(V3 (-0.1) 0 (-0.08), V3 0.1 0.1 0.42)]; [(V3 (-0.05) 0 (-0.05), V3 0.05 0.2 0.05)]; [(V3 (-0.05) (-0.05) 0, V3 0.05 0.05 0.085)]; [(V3 (-0.05) (-0.05) (-0.03), V3 0.05 0.05 0)]].
Proof. unfold rail_geom, kuka_geom, coll1. repeat apply Forall2_cons; try apply Forall2_nil; extent. Qed.
Lemma kuka_extents : Forall2 fills kuka_geom
  [[(V3 (-0.24) (-0.1) 0, V3 0.06 0.1 0.1)]; [(V3 (-0.7) (-0.1) (-0.1), V3 0.1 0.1 0)];
   [(V3 (-0.1) 0 (-0.08), V3 0.1 0.1 0.42)]; [(V3 (-0.05) 0 (-0.05), V3 0.05 0.2 0.05)]; [(V3 (-0.05) (-0.05) 0, V3 0.05 0.05 0.085)]; [(V3 (-0.05) (-0.05) (-0.03), V3 0.05 0.05 0)]].
Proof. pose proof rail_extents as H. inversion H; subst. assumption. Qed.
Lemma anthro_extents a2 a3 : Forall2 fills (anthro_geom a2 a3)
  [[(V3 (-0.1) (-0.15) (-0.15), V3 0 0.15 0.15)]; [(V3 (- a2) (-0.05) (-0.05), V3 0 0.05 0.05)]; [(V3 (- a3) (-0.05) (-0.05), V3 0 0.05 0.05)]].
Proof. unfold anthro_geom, coll1. repeat apply Forall2_cons; try apply Forall2_nil; (apply fills_intro; [repeat constructor|cbn [map combine fst snd]; unfold lower, upper, translation; cbn [pos vx vy vz dx dy dz]; repeat (f_equal; try lra)]). Qed.
Lemma workpiece_extent : fills workpiece
  [(V3 (-0.8) (-0.4) 0, V3 0.8 0.4 0.01); (V3 (-0.8) (-0.4) 1.01, V3 0.8 0.4 1.02); (V3 (-0.79) 0.39 0.01, V3 0.79 0.4 1.01);
   (V3 0.79 (-0.4) 0.01, V3 0.8 0.4 1.01); (V3 (-0.8) (-0.4) 0.01, V3 (-0.79) 0.4 1.01)].
Proof. unfold workpiece, wp_h, wp_w, wp_l, wp_t. cbv zeta. extent. Qed.
Lemma scene1_extent : fills scene1 [(V3 0.55 (-0.25) 0.07, V3 1.05 0.25 0.17)].
Proof. apply fills_intro; [repeat constructor|cbn [map combine fst snd]; unfold lower, upper, table, table_tf; cbn [pos vx vy vz dx dy dz]; repeat (f_equal; try lra)]. Qed.
Lemma scene2_extent : fills scene2 [(V3 0.55 0.125 0.08, V3 1.05 0.375 0.18); (V3 0.75 (-0.15) 0.27, V3 0.85 (-0.05) 0.37); (V3 0.75 (-0.15) 0.03, V3 0.85 (-0.05) 0.13)].
Proof. apply fills_intro; [repeat constructor|cbn [map combine fst snd]; unfold lower, upper; cbn [pos vx vy vz dx dy dz]; repeat (f_equal; try lra)]. Qed.

(** the x axis of every nominal frame *)
Definition nominal_x (path : nat -> res (list eulerpt)) (N : nat) (u : vec3) : Prop :=
  exists l, path N = Ok l /\ length l = N /\ forall p, In p l -> exists T, nominal_transform p = Ok T /\ col0 (rot T) = u.
Lemma line_x ps pg r0 r1 r2 off N u : col0 (rot_xyz r0 r1 r2) = u -> nominal_x (create_weld_line ps pg r0 r1 r2 off) N u.
Proof.
  intros E. destruct (weld_line_ok ps pg r0 r1 r2 off N) as (l & El & L & H). exists l. split; auto. split; auto. intros p I. apply In_nth_error in I. destruct I as [k Ek]. destruct (H k p Ek) as (En & _). eexists. split; [exact En|]. exact E.
Qed.
Lemma rot_xyz_col0 a b c : col0 (rot_xyz a b c) = V3 (cos b * cos c) (cos a * sin c + sin a * sin b * cos c) (sin a * sin c - cos a * sin b * cos c).
Proof. unfold rot_xyz, rot_x, rot_y, rot_z. munf. apply vec3_eq; cbn [vx vy vz]; ring. Qed.
Lemma weld_path1_x N : nominal_x weld_path1 N (V3 (-1) 0 0).
Proof. apply line_x. rewrite rot_xyz_col0, cos_0, sin_0, cos_PI, sin_PI. f_equal; ring. Qed.
Lemma weld_path2_x N : nominal_x weld_path2 N (V3 0 1 0).
Proof. apply line_x. rewrite rot_xyz_col0, cos_0, sin_0, cos_PI2, sin_PI2. f_equal; ring. Qed.
Lemma weld_path3_x N : nominal_x weld_path3 N (V3 0 1 0).
Proof. apply line_x. rewrite rot_xyz_col0, cos_0, sin_0, cos_PI2, sin_PI2. f_equal; ring. Qed.
