(** * Exceptions of drawing and animation, of the Puma, the rotating table, the rail,
    the scene import and the iterative planner; the boxes of the torch; overflow of
    costs. *)
From Coq Require Import String Reals Lra Psatz Lia List Bool Arith ZArith.
From Flocq Require Import Core.
From Verif Require Import PyBase Cost CostFloat Dp Mat Util UtilProofs Geometry GeometryProofs Robot RobotProofs Plot PlotProofs Puma Ik Path Planning Resources Mount Pipeline Examples.
From Verif Require Urdf.
Import ListNotations.
Local Open Scope R_scope.

(** ** Too few joint values *)
Lemma frames_short r q : good r -> joints_ok r -> (length q < ndof r)%nat -> snd (fk_all_links r q) = Raise IndexError /\ snd (fk r q) = Raise IndexError.
Proof.
  intros G J L. rewrite frames_snd, fk_snd by auto. unfold joints_ok, ndof in *. revert q L. generalize (r_tfb r). induction (r_links r) as [|l ls IH]; intros T q L; [cbn in L; lia|].
  destruct q as [|qi q]; [split; reflexivity|]. inversion J as [|? ? Hl Hs]; subst. cbn [framesp fkp]. cbn [length] in L. assert (L' : (length q < length ls)%nat) by lia. destruct (IH Hs (tmul T (lspec l qi)) q L') as [E1 E2].
  destruct (l_jt l); try congruence; rewrite E1, E2; split; reflexivity.
Qed.
Lemma animate_short r qs k q ks : good r -> joints_ok r -> nth_error qs k = Some q -> (length q < ndof r)%nat -> snd (animate_path r qs (k :: ks)) = Raise IndexError.
Proof.
  intros G J E L. unfold animate_path. cbn [animate]. unfold anim_update, py_index. rewrite E. destruct (frames_short r q G J L) as [F _]. destruct (fk_all_links r q) as [r1 fs]. cbn [snd] in F. subst fs. reflexivity.
Qed.
Lemma puma_short prim gs rest r q scene : good r -> joints_ok r -> r_base r = None -> (length q < ndof r)%nat -> snd (geoms_collision prim gs rest r q scene) = Raise IndexError.
Proof. intros G J B L. unfold geoms_collision. rewrite B. destruct (frames_short r q G J L) as [F _]. destruct (fk_all_links r q) as [r1 fs]. cbn [snd] in F. subst fs. reflexivity. Qed.
Lemma turns_short {O} (get : O -> robot) put prim ik scene s qt q_table qf tb o acc : good tb -> joints_ok tb -> (length qt < ndof tb)%nat ->
  snd (table_turns get put prim ik scene s (qt :: q_table) qf tb o acc) = Raise IndexError.
Proof. intros G J L. cbn [table_turns]. destruct (frames_short tb qt G J L) as [_ F]. destruct (fk tb qt) as [tb' R0]. cbn [snd] in F. subst R0. reflexivity. Qed.
Lemma plot_each qs : forall r, good r -> joints_ok r -> Forall (fun q => (1 <= ndof r <= length q)%nat) qs ->
  exists ps, snd (plot_path r qs) = Ok ps /\ Forall2 (fun q p => snd (robot_plot r q) = Ok p) qs ps.
Proof.
  assert (P : forall qs r r', reset r' = reset r -> good r' -> joints_ok r -> Forall (fun q => (1 <= ndof r <= length q)%nat) qs -> snd (plot_path r' qs) = Ok (map (fun q => base_pic r' ++ pic (rboxes r q)) qs)).
  { clear. induction qs as [|q qs IH]; intros r r' Er G J F; [reflexivity|]. inversion F as [|? ? F1 F2]; subst. cbn [plot_path map].
    pose proof (robot_plot_pic r' q G (joints_reset _ _ (eq_sym Er) J) ltac:(rewrite (ndof_reset _ _ Er); auto)) as E. pose proof (frames_fst r' q G) as [G1 E1].
    assert (Ep : robot_plot r' q = (fst (fk_all_links r' q), snd (robot_plot r' q))).
    { unfold robot_plot in *. destruct (match r_base r' with Some b => coll_plot b None | None => Ok [] end) as [b| |]; [|discriminate E|discriminate E]. destruct (fk_all_links r' q). reflexivity. }
    rewrite Ep, E. specialize (IH r (fst (fk_all_links r' q)) ltac:(congruence) G1 J F2). destruct (plot_path _ qs) as [r2 ps]. cbn [snd] in *. subst ps. cbn [bind].
    assert (B : base_pic (fst (fk_all_links r' q)) = base_pic r') by (clear - E1; unfold base_pic; apply (f_equal r_base) in E1; cbn in E1; rewrite E1; reflexivity).
    rewrite B, (rboxes_reset r' r q Er). reflexivity. }
  intros r G J F. rewrite (P qs r r eq_refl G J F). eexists. split; [reflexivity|]. clear P. induction F as [|q qs F1 F2 IH]; constructor; auto. apply robot_plot_pic; auto.
Qed.
(** the first link of a rail robot of an unknown joint type *)
Lemma rail_unknown rl T q l ls : r_links (rl_rob rl) = l :: ls -> l_jt l = JOther -> snd (rail_ik rl T q) = Raise UnboundLocalError.
Proof. intros E J. unfold rail_ik. rewrite E. unfold link_transform. rewrite J. reflexivity. Qed.

(** ** Import of a scene *)
Lemma dict_missing {A} k (l : list (string * A)) : ~ In k (map fst l) -> Urdf.dict_get k l = Raise KeyError.
Proof. induction l as [|[k' v] l IH]; intros H; [reflexivity|]. cbn [Urdf.dict_get]. destruct (String.eqb k k') eqn:E; [apply String.eqb_eq in E; exfalso; apply H; left; auto|]. apply IH. intros I. apply H. right; auto. Qed.
Lemma shapes_names N : forall ls sh, Urdf.link_shapes N ls = Ok sh -> forall k, In k (map fst sh) -> exists l, In l ls /\ Urdf.rl_name N l = k /\ Urdf.rl_coll N l <> [].
Proof.
  induction ls as [|l ls IH]; intros sh H k I; cbn [Urdf.link_shapes] in H; [injection H as <-; destruct I|]. destruct (Urdf.rl_coll N l) as [|c cs] eqn:C.
  - destruct (IH sh H k I) as (l' & A & B). exists l'. split; [right; auto|exact B].
  - apply bind_Ok in H. destruct H as (p & E & H). apply bind_Ok in H. destruct H as (sh' & E' & H). injection H as <-. destruct I as [<-|I]; [exists l; split; [left; auto|]; split; [reflexivity|congruence]|]. destruct (IH sh' E' k I) as (l' & A & B). exists l'. split; [right; auto|exact B].
Qed.
Lemma import_bare N d u sh j : Urdf.load N d = Ok u -> Urdf.link_shapes N (Urdf.u_links N u) = Ok sh -> In j (Urdf.u_joints N u) -> Urdf.rj_parent j = Urdf.u_base N u ->
  (forall l, In l (Urdf.u_links N u) -> Urdf.rl_name N l = Urdf.rj_child j -> Urdf.rl_coll N l = []) -> Urdf.import_doc N d = Raise KeyError.
Proof.
  intros L Es Ij Ep H. unfold Urdf.import_doc. rewrite L. cbn [bind]. rewrite Es. cbn [bind]. unfold Urdf.root_boxes.
  assert (F : In j (filter (fun j => String.eqb (Urdf.rj_parent j) (Urdf.u_base N u)) (Urdf.u_joints N u))) by (apply filter_In; split; auto; apply String.eqb_eq; auto).
  revert F. generalize (filter (fun j => String.eqb (Urdf.rj_parent j) (Urdf.u_base N u)) (Urdf.u_joints N u)). intros js F.
  assert (G : mapM (fun j => p <- Urdf.dict_get (Urdf.rj_child j) sh ;; Ok (Urdf.shape_of N p, Urdf.rj_origin j)) js = Raise KeyError); [|rewrite G; reflexivity].
  induction js as [|j' js IH]; [destruct F|]. cbn [mapM].
  assert (Q : (exists p, Urdf.dict_get (Urdf.rj_child j') sh = Ok p) \/ Urdf.dict_get (Urdf.rj_child j') sh = Raise KeyError).
  { clear. induction sh as [|[k v] sh IH]; [right; reflexivity|]. cbn [Urdf.dict_get]. destruct (String.eqb _ _); eauto. }
  destruct F as [->|F].
  - rewrite dict_missing; [reflexivity|]. intros I. destruct (shapes_names N _ _ Es _ I) as (l & A & B & C). apply C, (H l A B).
  - destruct Q as [(p & ->)| ->]; [|reflexivity]. cbn [bind]. rewrite (IH F). reflexivity.
Qed.

(** ** Joint solutions of different lengths *)
Lemma ragged {T S F} (ik : T -> option (list (list F))) coll to32 Ts (st : S) (q q' : list F) l st' : collect ik coll Ts st [] = (l, st') -> In q l -> In q' l -> length q <> length q' ->
  calc_joint_solutions to32 ik coll true Ts st = Raise ValueError.
Proof.
  intros E I I' N. unfold calc_joint_solutions. rewrite E. destruct l as [|q0 l]; [destruct I|]. destruct (forallb _ (q0 :: l)) eqn:Fa; [|reflexivity]. exfalso. rewrite forallb_forall in Fa.
  pose proof (Fa q I) as A. pose proof (Fa q' I') as B. apply Nat.eqb_eq in A, B. congruence.
Qed.

(** ** Broadcasting in dp.py *)
Lemma broadcast {K : CostStruct} (x : K) (v row : list K) y : row_add [x] v = Ok (map (fun z => cadd x z) v) /\ row_add row [y] = Ok (map (fun z => cadd z y) row) /\
  (length row <> length v -> length row <> 1%nat -> length v <> 1%nat -> row_add row v = Raise ValueError).
Proof.
  unfold row_add. split; [|split].
  - destruct v as [|a [|b v]]; [reflexivity|reflexivity|reflexivity].
  - destruct row as [|a [|b r]]; reflexivity.
  - intros A B C. destruct (Nat.eqb_spec (length row) (length v)); [congruence|]. destruct row as [|a [|b r]], v as [|c [|d w]]; cbn in *; try lia; reflexivity.
Qed.

(** ** Overflow *)
Lemma overflow_two prec emin emax (Hp : Prec_gt_0 prec) x y : fladd emin prec emax (Some x) (Some y) = None <-> bpow radix2 emax <= rnd emin prec (x + y).
Proof.
  unfold fladd. cbv zeta. destruct (rltb (rnd emin prec (x + y)) (bpow radix2 emax)) eqn:E; [apply rltb_true in E|apply rltb_false in E]; split; intros H; try discriminate; auto; lra.
Qed.
Lemma rnd_bpow emin prec e : (0 < prec)%Z -> (emin <= e)%Z -> rnd emin prec (bpow radix2 e) = bpow radix2 e.
Proof. intros P H. unfold rnd. apply round_generic; [typeclasses eauto|]. apply generic_format_FLT_bpow; auto. Qed.
Lemma doubles emin prec emax (P : (1 < prec)%Z) (H : (emin + prec <= emax)%Z) (Hp : Prec_gt_0 prec) :
  let top := bpow radix2 emax - bpow radix2 (emax - prec) in
  fladd emin prec emax (Some top) (Some 0) = Some top /\ fladd emin prec emax (Some (bpow radix2 (emax - 1))) (Some (bpow radix2 (emax - 1))) = None.
Proof.
  cbv zeta. split.
  - assert (E : bpow radix2 emax - bpow radix2 (emax - prec) = F2R (Float radix2 (2 ^ prec - 1) (emax - prec))).
    { unfold F2R. cbn [Fnum Fexp]. rewrite minus_IZR. change (2 ^ prec)%Z with (Zpower radix2 prec). rewrite IZR_Zpower by lia. rewrite Rmult_minus_distr_r, <- bpow_plus. replace (prec + (emax - prec))%Z with emax by lia. lra. }
    assert (G : generic_format radix2 (FLT_exp emin prec) (bpow radix2 emax - bpow radix2 (emax - prec))).
    { apply generic_format_FLT. eapply FLT_spec; [exact E| |]; cbn [Fnum Fexp]; [|lia]. rewrite Z.abs_eq by (pose proof (Z.pow_pos_nonneg 2 prec ltac:(lia) ltac:(lia)); lia). change (radix_val radix2) with 2%Z. lia. }
    unfold fladd. cbv zeta. rewrite Rplus_0_r. unfold rnd. rewrite round_generic by (try typeclasses eauto; auto). destruct (rltb _ _) eqn:L; [reflexivity|]. apply rltb_false in L. pose proof (bpow_gt_0 radix2 (emax - prec)). lra.
  - apply overflow_two; auto. replace (bpow radix2 (emax - 1) + bpow radix2 (emax - 1)) with (bpow radix2 emax); [rewrite rnd_bpow by lia; lra|]. replace emax with ((emax - 1) + 1)%Z at 1 by lia. rewrite bpow_plus. cbn [bpow]. change (Z.pow_pos radix2 1) with 2%Z. lra.
Qed.
Lemma overflow64 : let top := bpow radix2 1024 - bpow radix2 971 in
  cadd (c0 := Float64Cost) (Some top) (Some 0) = Some top /\ cadd (c0 := Float64Cost) (Some (bpow radix2 1023)) (Some (bpow radix2 1023)) = None.
Proof. exact (doubles (-1074) 53 1024 ltac:(lia) ltac:(lia) ltac:(reflexivity)). Qed.
Lemma overflow32 : let top := bpow radix2 128 - bpow radix2 104 in
  cadd (c0 := Float32Cost) (Some top) (Some 0) = Some top /\ cadd (c0 := Float32Cost) (Some (bpow radix2 127)) (Some (bpow radix2 127)) = None.
Proof. exact (doubles (-149) 24 128 ltac:(lia) ltac:(lia) ltac:(reflexivity)). Qed.

(** ** The torch *)
Lemma torch_boxes x : in_coll (fst torch) None x <->
  (exists a b c, Rabs (a - 0.035) <= 0.04 /\ Rabs b <= 0.04 /\ Rabs c <= 0.04 /\ x = V3 b c a) \/
  (exists a b c, Rabs (a + 0.02) <= 0.09 /\ Rabs (b - 0.15) <= 0.0375 /\ Rabs c <= 0.0375 /\ x = in_plane a b c) \/
  (exists a b c, Rabs (a - 0.085) <= 0.015 /\ Rabs (b - 0.075) <= 0.11 /\ Rabs c <= 0.035 /\ x = in_plane a b c) \/
  (exists a b c, Rabs (a - 0.15) <= 0.05 /\ Rabs (b - 0.15) <= 0.0125 /\ Rabs c <= 0.0125 /\ x = in_plane a b c) \/
  (exists s t c, Rabs s <= 0.05 /\ Rabs t <= 0.0125 /\ Rabs c <= 0.0125 /\
     x = in_plane (0.25 + s * cos angle2 - t * sin angle2) (0.15 + sin angle2 * 0.05 + s * sin angle2 + t * cos angle2) c).
Proof.
  assert (RA : forall A p, rotation A -> rigid (tf_at A p)) by (intros A p H; split; cbn; auto).
  assert (Rt : rigid tf_tool) by (apply RA, rotation_mmul; [apply rot_y_rotation|apply rot_x_rotation]). assert (Rr : rigid tf_rotate) by (apply RA, rot_z_rotation).
  assert (T : forall A p u, rotation A -> tapply (tmul tf_tool (tmul tf_rotate (tf_at A p))) u = let v := vadd (mapply A u) p in in_plane (vx v) (vy v) (vz v)).
  { intros A p u H. rewrite !tapply_tmul by (auto; apply rigid_tmul; auto). change (tapply (tf_at A p) u) with (vadd (mapply A u) p). destruct (vadd (mapply A u) p) as [a b c]. apply turn_axes. }
  assert (T0 : forall p u, tapply (tmul tf_tool (tf_at mid p)) u = let v := vadd u p in V3 (vy v) (vz v) (vx v)).
  { intros p u. rewrite tapply_tmul by (auto; apply RA, rotation_mid). change (tapply (tf_at mid p) u) with (vadd (mapply mid u) p). rewrite mapply_1. destruct (vadd u p) as [a b c]. apply mount_axes. }
  pose proof rotation_mid as R0. pose proof (rot_z_rotation angle2) as R2.
  split.
  - intros (s & M & (k & E1 & E2) & u & Hu & ->). cbn [place]. destruct k as [|[|[|[|[|k]]]]]; [| | | | |destruct k; discriminate E1]; injection E1 as <-; injection E2 as <-; rewrite ?T, ?T0 by auto; destruct u as [a b c]; unfold local_in in Hu; cbn [vx vy vz dx dy dz] in Hu;
      rewrite ?mapply_1; cbn [pos_data vadd vx vy vz].
    + left. exists (a + 0.035), (b + 0), (c + 0). rewrite !Rplus_0_r. replace (a + 0.035 - 0.035) with a by ring. repeat split; lra.
    + right; left. exists (a + -0.02), (b + 0.15), (c + 0). rewrite !Rplus_0_r. replace (a + -0.02 + 0.02) with a by lra. replace (b + 0.15 - 0.15) with b by ring. repeat split; lra.
    + do 2 right; left. exists (a + 0.085), (b + 0.075), (c + 0). rewrite !Rplus_0_r. replace (a + 0.085 - 0.085) with a by ring. replace (b + 0.075 - 0.075) with b by ring. repeat split; lra.
    + do 3 right; left. exists (a + 0.15), (b + 0.15), (c + 0). rewrite !Rplus_0_r. replace (a + 0.15 - 0.15) with a by ring. replace (b + 0.15 - 0.15) with b by ring. repeat split; lra.
    + do 4 right. exists a, b, c. split; [lra|]. split; [lra|]. split; [lra|]. unfold rot_z, mapply. cbn [vx vy vz m00 m01 m02 m10 m11 m12 m20 m21 m22]. f_equal; ring.
  - intros [(a & b & c & A & B & C & ->)|[(a & b & c & A & B & C & ->)|[(a & b & c & A & B & C & ->)|[(a & b & c & A & B & C & ->)|(a & b & c & A & B & C & ->)]]]].
    + exists (Shape 0.08 0.08 0.08). eexists. split; [exists 0%nat; split; reflexivity|]. exists (V3 (a - 0.035) b c). split; [unfold local_in; cbn [vx vy vz dx dy dz]; lra|]. cbn [place]. rewrite T0. cbn [pos_data vadd vx vy vz]. apply vec3_eq; cbn [vx vy vz]; ring.
    + exists (Shape 0.18 0.075 0.075). eexists. split; [exists 1%nat; split; reflexivity|]. exists (V3 (a + 0.02) (b - 0.15) c). split; [unfold local_in; cbn [vx vy vz dx dy dz]; lra|]. cbn [place]. rewrite T, mapply_1 by auto. cbn [pos_data vadd vx vy vz]. f_equal; lra.
    + exists (Shape 0.03 0.22 0.07). eexists. split; [exists 2%nat; split; reflexivity|]. exists (V3 (a - 0.085) (b - 0.075) c). split; [unfold local_in; cbn [vx vy vz dx dy dz]; lra|]. cbn [place]. rewrite T, mapply_1 by auto. cbn [pos_data vadd vx vy vz]. f_equal; lra.
    + exists (Shape 0.10 0.025 0.025). eexists. split; [exists 3%nat; split; reflexivity|]. exists (V3 (a - 0.15) (b - 0.15) c). split; [unfold local_in; cbn [vx vy vz dx dy dz]; lra|]. cbn [place]. rewrite T, mapply_1 by auto. cbn [pos_data vadd vx vy vz]. f_equal; lra.
    + exists (Shape 0.10 0.025 0.025). eexists. split; [exists 4%nat; split; reflexivity|]. exists (V3 a b c). split; [unfold local_in; cbn [vx vy vz dx dy dz]; lra|]. cbn [place]. rewrite T by auto. cbn [pos_data]. unfold rot_z, mapply. cbn [vadd vx vy vz m00 m01 m02 m10 m11 m12 m20 m21 m22]. f_equal; ring.
Qed.
Lemma planar_short_case : good (PlanarArm 1 1 1) /\ joints_ok (PlanarArm 1 1 1) /\ r_base (PlanarArm 1 1 1) = None /\ (length [0; 0] < ndof (PlanarArm 1 1 1))%nat.
Proof. split; [apply robot_init_good; repeat constructor|]. split; [repeat constructor; discriminate|]. split; [reflexivity|cbn; lia]. Qed.
