(** * Proofs about robot.py. *)
From Coq Require Import Reals Lra List Bool Arith Lia Permutation.
From Verif Require Import PyBase Mat Util UtilProofs Geometry GeometryProofs Robot.
Import ListNotations.
Local Open Scope R_scope.

(** ** Specification of one link *)
(** Rz(theta) Tz(d) Tx(a) Rx(alpha) *)
Definition dhm (a alpha d theta : R) : mat4 :=
  tmul (tmul (tmul (pose_z theta 0 0 0) (translation 0 0 d)) (translation a 0 0)) (pose_x alpha 0 0 0).
Definition lspec (l : link) (q : R) : mat4 :=
  match l_jt l with
  | JP => dhm (da (l_dh l)) (dalpha (l_dh l)) q (dtheta (l_dh l))
  | _ => dhm (da (l_dh l)) (dalpha (l_dh l)) (dd (l_dh l)) q
  end.
Lemma pose_x_rigid a x y z : rigid (pose_x a x y z). Proof. apply poses. Qed.
Lemma pose_z_rigid a x y z : rigid (pose_z a x y z). Proof. apply poses. Qed.
Lemma translation_rigid x y z : rigid (translation x y z). Proof. apply (poses 0). Qed.
Lemma dhm_rigid a alpha d theta : rigid (dhm a alpha d theta).
Proof. unfold dhm. repeat apply rigid_tmul; auto using pose_x_rigid, pose_z_rigid, translation_rigid. Qed.
Lemma lspec_rigid l q : rigid (lspec l q).
Proof. unfold lspec. destruct (l_jt l); apply dhm_rigid. Qed.

(** the entries a call never writes *)
Definition clean_T (T : mat4) : Prop := m20 (rot T) = 0 /\ brow T = v0 /\ bww T = 1.
Definition clean_link (l : link) : Prop := clean_T (l_T l).
Lemma write_T_dhm T a alpha d theta : clean_T T -> write_T T a alpha d theta = dhm a alpha d theta.
Proof.
  intros (H1 & H2 & H3). unfold dhm.
  assert (E1 : tmul (pose_z theta 0 0 0) (translation 0 0 d) = pose_z theta 0 0 d).
  { rewrite tmul_blocks by reflexivity. unfold pose_z, translation, rot_z. munf. apply mat4_eq; [apply mat3_eq|apply vec3_eq|apply vec3_eq|]; cbn; ring. }
  assert (E2 : tmul (pose_z theta 0 0 d) (translation a 0 0) = pose_z theta (a * cos theta) (a * sin theta) d).
  { rewrite tmul_blocks by reflexivity. unfold pose_z, translation, rot_z. munf. apply mat4_eq; [apply mat3_eq|apply vec3_eq|apply vec3_eq|]; cbn; ring. }
  rewrite E1, E2, tmul_blocks by reflexivity. unfold write_T, pose_z, pose_x, rot_z, rot_x. rewrite H1, H2, H3. munf.
  apply mat4_eq; [apply mat3_eq|apply vec3_eq|apply vec3_eq|]; cbn; ring.
Qed.
Lemma write_T_clean T a alpha d theta : clean_T T -> clean_T (write_T T a alpha d theta).
Proof. intros (H1 & H2 & H3). unfold clean_T, write_T. cbn. auto. Qed.
Definition reset_link (l : link) : link := set_T l eye4.
Lemma link_transform_fst l q : clean_link l -> clean_link (fst (link_transform l q)) /\ reset_link (fst (link_transform l q)) = reset_link l.
Proof. intros H. unfold link_transform. destruct (l_jt l) eqn:E; cbn; unfold reset_link, set_T, clean_link; cbn; auto using write_T_clean. Qed.
Lemma link_transform_snd l q : clean_link l -> snd (link_transform l q) = match l_jt l with JOther => Raise UnboundLocalError | _ => Ok (lspec l q) end.
Proof.
  intros H. unfold link_transform, lspec. destruct (l_jt l) eqn:E; cbn [snd]; auto; rewrite write_T_dhm by auto; auto.
Qed.

(** ** Pure forward kinematics *)
Fixpoint fkp (ls : list link) (q : list R) (T : mat4) : res mat4 :=
  match ls, q with
  | [], _ => Ok T
  | _ :: _, [] => Raise IndexError
  | l :: ls', qi :: q' => match l_jt l with JOther => Raise UnboundLocalError | _ => fkp ls' q' (tmul T (lspec l qi)) end
  end.
Fixpoint framesp (ls : list link) (q : list R) (T : mat4) : res (list mat4) :=
  match ls, q with
  | [], _ => Ok []
  | _ :: _, [] => Raise IndexError
  | l :: ls', qi :: q' =>
      match l_jt l with
      | JOther => Raise UnboundLocalError
      | _ => let T1 := tmul T (lspec l qi) in fs <- framesp ls' q' T1 ;; Ok (T1 :: fs)
      end
  end.
Lemma fkp_reset : forall ls q T, fkp (map reset_link ls) q T = fkp ls q T.
Proof. induction ls as [|l ls IH]; intros [|qi q] T; cbn [map fkp]; auto. rewrite IH. reflexivity. Qed.
Lemma framesp_reset : forall ls q T, framesp (map reset_link ls) q T = framesp ls q T.
Proof. induction ls as [|l ls IH]; intros [|qi q] T; cbn [map framesp]; auto. rewrite IH. reflexivity. Qed.

Lemma fk_loop_spec : forall ls q T, Forall clean_link ls ->
  snd (fk_loop ls q T) = fkp ls q T /\ Forall clean_link (fst (fk_loop ls q T)) /\ map reset_link (fst (fk_loop ls q T)) = map reset_link ls.
Proof.
  induction ls as [|l ls IH]; intros q T H; cbn [fk_loop fkp]; [auto|]. destruct q as [|qi q]; [auto|].
  inversion H as [|? ? Hl Hls]; subst. pose proof (link_transform_fst l qi Hl) as [F1 F2]. pose proof (link_transform_snd l qi Hl) as F3.
  destruct (link_transform l qi) as [l1 r1]. cbn [fst snd] in *. subst r1.
  destruct (l_jt l) eqn:E; cbn [fst snd].
  - destruct (IH q (tmul T (lspec l qi)) Hls) as (A & B & C). destruct (fk_loop ls q (tmul T (lspec l qi))) as [ls1 r]. cbn [fst snd map] in *. rewrite F2, C. auto.
  - destruct (IH q (tmul T (lspec l qi)) Hls) as (A & B & C). destruct (fk_loop ls q (tmul T (lspec l qi))) as [ls1 r]. cbn [fst snd map] in *. rewrite F2, C. auto.
  - cbn [map]. rewrite F2. auto.
Qed.
Lemma frames_loop_spec : forall ls q T, Forall clean_link ls ->
  snd (frames_loop ls q T) = framesp ls q T /\ Forall clean_link (fst (frames_loop ls q T)) /\ map reset_link (fst (frames_loop ls q T)) = map reset_link ls.
Proof.
  induction ls as [|l ls IH]; intros q T H; cbn [frames_loop framesp]; [auto|]. destruct q as [|qi q]; [auto|].
  inversion H as [|? ? Hl Hls]; subst. pose proof (link_transform_fst l qi Hl) as [F1 F2]. pose proof (link_transform_snd l qi Hl) as F3.
  destruct (link_transform l qi) as [l1 r1]. cbn [fst snd] in *. subst r1.
  destruct (l_jt l) eqn:E; cbn [fst snd]; cbv zeta.
  - destruct (IH q (tmul T (lspec l qi)) Hls) as (A & B & C). destruct (frames_loop ls q (tmul T (lspec l qi))) as [ls1 r]. cbn [fst snd map] in *. rewrite F2, C, A. auto.
  - destruct (IH q (tmul T (lspec l qi)) Hls) as (A & B & C). destruct (frames_loop ls q (tmul T (lspec l qi))) as [ls1 r]. cbn [fst snd map] in *. rewrite F2, C, A. auto.
  - cbn [map]. rewrite F2. auto.
Qed.

(** ** Robots between calls *)
Record good (r : robot) : Prop := {
  good_clean : Forall clean_link (r_links r);
  good_prio : Permutation (r_prio r) (seq 0 (ndof r)) }.
(** the description: everything except caches and priority order *)
Definition reset (r : robot) : robot :=
  Rb (map reset_link (r_links r)) (r_limits r) (r_base r) (r_tool r) (r_tfb r) (r_mat r) (r_self r) (seq 0 (ndof r)).
Lemma new_link_clean dh jt g : clean_link (new_link dh jt g).
Proof. repeat split. Qed.
Lemma robot_init_good ls : Forall clean_link ls -> good (robot_init ls).
Proof. intros H. split; auto. Qed.
Definition tooled (r : robot) (T : mat4) : mat4 := match r_tool r with Some (_, tip) => tmul T tip | None => T end.
Lemma ndof_reset r : ndof (reset r) = ndof r.
Proof. unfold ndof, reset. cbn. apply map_length. Qed.
Lemma set_links_keep r ls : good r -> Forall clean_link ls -> map reset_link ls = map reset_link (r_links r) -> good (set_links r ls) /\ reset (set_links r ls) = reset r.
Proof.
  intros [G1 G2] H1 H2. assert (L : length ls = length (r_links r)) by (apply (f_equal (@length link)) in H2; rewrite !map_length in H2; auto).
  split; [split; auto; unfold ndof in *; cbn; rewrite L; auto|]. unfold reset, ndof. cbn. rewrite H2, L. reflexivity.
Qed.
Lemma fk_snd r q : good r -> snd (fk r q) = (T <- fkp (r_links r) q (r_tfb r) ;; Ok (tooled r T)).
Proof.
  intros [G _]. unfold fk. destruct (fk_loop_spec (r_links r) q (r_tfb r) G) as (A & _). destruct (fk_loop _ _ _) as [ls T]. cbn [snd] in *. rewrite A. reflexivity.
Qed.
Lemma fk_fst r q : good r -> good (fst (fk r q)) /\ reset (fst (fk r q)) = reset r.
Proof.
  intros G. unfold fk. destruct (fk_loop_spec (r_links r) q (r_tfb r) (good_clean r G)) as (_ & B & C). destruct (fk_loop _ _ _) as [ls T]. cbn [fst] in *. apply set_links_keep; auto.
Qed.
Lemma frames_snd r q : good r -> snd (fk_all_links r q) = framesp (r_links r) q (r_tfb r).
Proof.
  intros [G _]. unfold fk_all_links. destruct (frames_loop_spec (r_links r) q (r_tfb r) G) as (A & _). destruct (frames_loop _ _ _) as [ls T]. exact A.
Qed.
Lemma frames_fst r q : good r -> good (fst (fk_all_links r q)) /\ reset (fst (fk_all_links r q)) = reset r.
Proof.
  intros G. unfold fk_all_links. destruct (frames_loop_spec (r_links r) q (r_tfb r) (good_clean r G)) as (_ & B & C). destruct (frames_loop _ _ _) as [ls T]. cbn [fst] in *. apply set_links_keep; auto.
Qed.

Section Prim.
Context (prim : shape -> mat3 -> vec3 -> shape -> mat3 -> vec3 -> bool).
Notation collide := (is_in_collision prim).

Lemma remove_first_perm i l : In i l -> Permutation (i :: remove_first i l) l.
Proof.
  induction l as [|x l IH]; intros H; [destruct H|]. cbn [remove_first]. destruct (Nat.eqb_spec x i) as [->|Hne]; [reflexivity|].
  destruct H as [->|H]; [congruence|]. rewrite perm_swap. constructor. auto.
Qed.
Lemma prio_loop_In gs tfs scene p i : prio_loop prim gs tfs scene p = Ok (Some i) -> In i p.
Proof.
  induction p as [|x p IH]; cbn [prio_loop]; [discriminate|]. intros H. apply bind_Ok in H. destruct H as (g & _ & H). apply bind_Ok in H. destruct H as (tf & _ & H).
  destruct (collide g scene (Some tf) None); [injection H as <-; left; auto|right; auto].
Qed.
Lemma robot_collision_fst r q scene : good r -> good (fst (robot_collision prim r q scene)) /\ reset (fst (robot_collision prim r q scene)) = reset r.
Proof.
  intros G. unfold robot_collision. destruct (match r_base r with Some _ => _ | None => _ end); [auto|].
  destruct (frames_fst r q G) as [G1 E1]. destruct (fk_all_links r q) as [r1 fs]. cbn [fst] in *.
  destruct fs as [tfs| |]; cbn [fst]; auto. destruct (prio_loop _ _ _ _ _) as [[i|]| |] eqn:E; cbn [fst]; auto.
  apply prio_loop_In in E. split.
  - destruct G1 as [C P]. split; auto. cbn [r_prio]. unfold ndof, set_prio. cbn. rewrite remove_first_perm by auto. exact P.
  - exact E1.
Qed.
Lemma link_op_keep r i qi : good r -> good (link_op r i qi) /\ reset (link_op r i qi) = reset r.
Proof.
  intros G. unfold link_op. destruct (nth_error (r_links r) i) as [l|] eqn:E; [|auto]. 
  apply set_links_keep; auto.
  - pose proof (good_clean r G) as C. clear G. revert i E. induction C as [|x ls Hx C IH]; intros [|i] E; cbn in *; try discriminate; constructor; auto.
    injection E as ->. apply link_transform_fst; auto.
  - pose proof (good_clean r G) as C. clear G. revert i E. induction C as [|x ls Hx C IH]; intros [|i] E; cbn in *; try discriminate.
    + injection E as ->. f_equal. apply link_transform_fst; auto.
    + f_equal. auto.
Qed.
Lemma run_op_keep r o : good r -> good (run_op prim r o) /\ reset (run_op prim r o) = reset r.
Proof.
  intros G. destruct o; cbn [run_op]; [apply fk_fst; auto|apply frames_fst; auto| |apply robot_collision_fst; auto|apply link_op_keep; auto].
  unfold is_in_self_collision. pose proof (frames_fst r q G) as F. destruct (fk_all_links r q). exact F.
Qed.
Lemma run_ops_keep : forall os r, good r -> good (run_ops prim r os) /\ reset (run_ops prim r os) = reset r.
Proof.
  induction os as [|o os IH]; intros r G; [auto|]. unfold run_ops. cbn [fold_left]. destruct (run_op_keep r o G) as [G1 E1].
  destruct (IH _ G1) as [G2 E2]. split; [exact G2|]. unfold run_ops in E2. congruence.
Qed.

(** results depend on the description only *)
Lemma fk_reset r r' q : good r -> good r' -> reset r = reset r' -> snd (fk r q) = snd (fk r' q).
Proof.
  intros G G' E. rewrite !fk_snd by auto. rewrite <- (fkp_reset (r_links r)), <- (fkp_reset (r_links r')). unfold tooled.
  unfold reset in E. injection E as E1 E2 E3 E4 E5 E6 E7 E8. rewrite E1, E4, E5. reflexivity.
Qed.
Lemma frames_reset r r' q : good r -> good r' -> reset r = reset r' -> snd (fk_all_links r q) = snd (fk_all_links r' q).
Proof.
  intros G G' E. rewrite !frames_snd by auto. rewrite <- (framesp_reset (r_links r)), <- (framesp_reset (r_links r')).
  unfold reset in E. injection E as E1 E2 E3 E4 E5 E6 E7 E8. rewrite E1, E5. reflexivity.
Qed.
Lemma geom_reset ls : map l_geom (map reset_link ls) = map l_geom ls.
Proof. rewrite map_map. reflexivity. Qed.

(** the order of the priorities does not matter *)
Definition any_hit (gs : list coll) (tfs : list mat4) (scene : coll) : Prop :=
  exists i g tf, nth_error gs i = Some g /\ nth_error tfs i = Some tf /\ collide g scene (Some tf) None = true.
Lemma prio_loop_total gs tfs scene : length tfs = length gs -> forall p, (forall i, In i p -> (i < length gs)%nat) ->
  exists o, prio_loop prim gs tfs scene p = Ok o /\
    (match o with Some _ => True | None => False end <-> exists i g tf, In i p /\ nth_error gs i = Some g /\ nth_error tfs i = Some tf /\ collide g scene (Some tf) None = true).
Proof.
  intros L. induction p as [|x p IH]; intros H.
  - exists None. split; auto. split; [intros []|]. intros (i & g & tf & [] & _).
  - cbn [prio_loop]. pose proof (H x (or_introl eq_refl)) as Hx.
    destruct (nth_error gs x) as [g|] eqn:Eg; [|apply nth_error_None in Eg; lia].
    destruct (nth_error tfs x) as [tf|] eqn:Et; [|apply nth_error_None in Et; lia].
    unfold py_index. rewrite Eg, Et. cbn [bind]. destruct (collide g scene (Some tf) None) eqn:Ec.
    + exists (Some x). split; auto. split; auto. intros _. exists x, g, tf. auto with datatypes.
    + destruct IH as (o & Eo & Ho); [intros; apply H; right; auto|]. exists o. split; auto. rewrite Ho. split.
      * intros (i & g' & tf' & Hin & E). exists i, g', tf'. split; auto. right; auto.
      * intros (i & g' & tf' & [->|Hin] & E1 & E2 & E3); [congruence|]. exists i, g', tf'. auto.
Qed.
Lemma prio_loop_hit gs tfs scene p : length tfs = length gs -> Permutation p (seq 0 (length gs)) ->
  exists o, prio_loop prim gs tfs scene p = Ok o /\ (match o with Some _ => True | None => False end <-> any_hit gs tfs scene).
Proof.
  intros L P. destruct (prio_loop_total gs tfs scene L p) as (o & E & H).
  - intros i Hi. apply (Permutation_in _ P) in Hi. apply in_seq in Hi. lia.
  - exists o. split; auto. rewrite H. unfold any_hit. split.
    + intros (i & g & tf & _ & E'). eauto.
    + intros (i & g & tf & E1 & E'). exists i, g, tf. split; auto. apply (Permutation_in _ (Permutation_sym P)). apply in_seq.
      assert (i < length gs)%nat by (apply nth_error_Some; congruence). lia.
Qed.
Lemma framesp_length : forall ls q T fs, framesp ls q T = Ok fs -> length fs = length ls.
Proof.
  induction ls as [|l ls IH]; intros [|qi q] T fs H; cbn [framesp] in H; try (injection H as <-; reflexivity); try discriminate.
  destruct (l_jt l); try discriminate; apply bind_Ok in H; destruct H as (fs' & E & H); injection H as <-; cbn; f_equal; eapply IH; eauto.
Qed.

(** the answer of robot_collision, with the priority loop as one question *)
Definition collision_value (r : robot) (q : list R) (scene : coll) : res bool :=
  if match r_base r with Some b => collide b scene (Some (r_tfb r)) None | None => false end then Ok true
  else tfs <- framesp (r_links r) q (r_tfb r) ;;
       o <- prio_loop prim (map l_geom (r_links r)) tfs scene (r_prio r) ;;
       match o with
       | Some _ => Ok true
       | None => hit <- match r_tool r with
                        | Some (tool, _) => tf_tool <- py_last tfs ;; Ok (collide tool scene (Some tf_tool) None)
                        | None => Ok false
                        end ;;
                 if hit then Ok true else if r_self r then check_self prim r tfs (map l_geom (r_links r)) else Ok false
       end.
Lemma robot_collision_snd r q scene : good r -> snd (robot_collision prim r q scene) = collision_value r q scene.
Proof.
  intros G. unfold robot_collision, collision_value. destruct (match r_base r with Some _ => _ | None => _ end); [auto|].
  pose proof (frames_snd r q G) as E. destruct (frames_fst r q G) as [_ R]. pose proof (fun ls => eq_refl (r_prio (set_links r ls))) as Hp.
  unfold fk_all_links in *. destruct (frames_loop (r_links r) q (r_tfb r)) as [ls fs] eqn:EL. cbn [fst snd] in *. subst fs.
  destruct (framesp (r_links r) q (r_tfb r)) as [tfs| |]; cbn [bind snd]; auto. cbn [r_prio set_links r_tool r_self].
  destruct (prio_loop _ _ _ _ _) as [[i|]| |]; cbn [bind snd]; auto.
  destruct (match r_tool r with Some _ => _ | None => _ end) as [hit| |]; cbn [bind]; auto. destruct hit; auto. destruct (r_self r); auto.
  unfold check_self. cbn [r_mat r_tool set_links]. assert (L : ndof (set_links r ls) = ndof r) by (apply (f_equal ndof) in R; rewrite !ndof_reset in R; exact R).
  rewrite L. reflexivity.
Qed.
Lemma collision_reset r r' q scene : good r -> good r' -> reset r = reset r' -> snd (robot_collision prim r q scene) = snd (robot_collision prim r' q scene).
Proof.
  intros G G' E. rewrite !robot_collision_snd by auto. unfold collision_value.
  rewrite <- (framesp_reset (r_links r)), <- (framesp_reset (r_links r')), <- (geom_reset (r_links r)), <- (geom_reset (r_links r')).
  pose proof (ndof_reset r) as N. pose proof (ndof_reset r') as N'. rewrite E in N.
  pose proof (good_prio r G) as P. pose proof (good_prio r' G') as P'.
  unfold reset in E. injection E as E1 E2 E3 E4 E5 E6 E7 E8. rewrite E1, E3, E4, E5, E7.
  destruct (match r_base r' with Some _ => _ | None => _ end); auto.
  destruct (framesp (map reset_link (r_links r')) q (r_tfb r')) as [tfs| |] eqn:Ef; cbn [bind]; auto.
  set (gs := map l_geom (map reset_link (r_links r'))).
  assert (Lg : length gs = ndof r') by (unfold gs, ndof; rewrite !map_length; auto).
  assert (L : length tfs = length gs) by (apply framesp_length in Ef; unfold gs; rewrite !map_length in *; auto).
  assert (Pr : Permutation (r_prio r) (seq 0 (length gs))) by (rewrite Lg, <- N'; congruence).
  assert (Pr' : Permutation (r_prio r') (seq 0 (length gs))) by (rewrite Lg; auto).
  destruct (prio_loop_hit gs tfs scene _ L Pr) as (o & Eo & Ho). destruct (prio_loop_hit gs tfs scene _ L Pr') as (o' & Eo' & Ho').
  rewrite Eo, Eo'. cbn [bind]. destruct o, o'; cbn in *; auto; try (exfalso; tauto).
  unfold check_self. rewrite E4, E6, <- N, N'. reflexivity.
Qed.
Lemma self_reset r r' q : good r -> good r' -> reset r = reset r' -> snd (is_in_self_collision prim r q) = snd (is_in_self_collision prim r' q).
Proof.
  intros G G' E. assert (H : forall r, good r -> snd (is_in_self_collision prim r q) = (tfs <- framesp (map reset_link (r_links r)) q (r_tfb r) ;; check_self prim (reset r) tfs (map l_geom (map reset_link (r_links r))))).
  { clear. intros r G. unfold is_in_self_collision. pose proof (frames_snd r q G) as F. destruct (frames_fst r q G) as [G1 R]. unfold fk_all_links in *.
    destruct (frames_loop _ _ _) as [ls fs]. cbn [fst snd] in *. subst fs. rewrite framesp_reset, geom_reset. destruct (framesp _ _ _); cbn [bind]; auto.
    unfold check_self. rewrite <- R, ndof_reset. reflexivity. }
  rewrite !H by auto. rewrite E. unfold reset in E. injection E as E1 E2 E3 E4 E5 E6 E7 E8. rewrite E1, E5. reflexivity.
Qed.

(** ** History independence (C37, C39, C40) *)
Lemma history r os : good r -> let r' := run_ops prim r os in
  (forall q scene, snd (robot_collision prim r' q scene) = snd (robot_collision prim r q scene)) /\
  (forall q, snd (fk r' q) = snd (fk r q)) /\ (forall q, snd (fk_all_links r' q) = snd (fk_all_links r q)) /\
  (forall q, snd (is_in_self_collision prim r' q) = snd (is_in_self_collision prim r q)) /\
  Permutation (r_prio r') (seq 0 (ndof r)).
Proof.
  intros G r'. destruct (run_ops_keep os r G) as [G' E]. fold r' in G', E. split; [|split; [|split; [|split]]]; intros.
  - apply collision_reset; auto.
  - apply fk_reset; auto.
  - apply frames_reset; auto.
  - apply self_reset; auto.
  - pose proof (good_prio _ G') as P. apply (f_equal ndof) in E. rewrite !ndof_reset in E. rewrite E in P. exact P.
Qed.

(** ** Frames *)
Definition frame (r : robot) (q : list R) (i : nat) : mat4 :=
  fold_left (fun T p => tmul T (lspec (fst p) (snd p))) (firstn (S i) (combine (r_links r) q)) (r_tfb r).
Definition joints_ok (r : robot) : Prop := Forall (fun l => l_jt l <> JOther) (r_links r).
Lemma framesp_spec : forall ls q T, Forall (fun l => l_jt l <> JOther) ls -> (length ls <= length q)%nat ->
  framesp ls q T = Ok (map (fun i => fold_left (fun T p => tmul T (lspec (fst p) (snd p))) (firstn (S i) (combine ls q)) T) (seq 0 (length ls))).
Proof.
  induction ls as [|l ls IH]; intros q T H L; [reflexivity|]. destruct q as [|qi q]; [cbn in L; lia|]. inversion H as [|? ? Hl Hls]; subst. cbn [framesp].
  assert (E : (fs <- framesp ls q (tmul T (lspec l qi)) ;; Ok (tmul T (lspec l qi) :: fs)) =
    Ok (map (fun i => fold_left (fun T p => tmul T (lspec (fst p) (snd p))) (firstn (S i) (combine (l :: ls) (qi :: q))) T) (seq 0 (length (l :: ls))))).
  { rewrite IH by (auto; cbn in L; lia). cbn [bind length seq map]. rewrite <- seq_shift, map_map. reflexivity. }
  destruct (l_jt l); auto. congruence.
Qed.
Lemma frames_ok r q : good r -> joints_ok r -> (ndof r <= length q)%nat -> snd (fk_all_links r q) = Ok (map (frame r q) (seq 0 (ndof r))).
Proof. intros G J L. rewrite frames_snd by auto. apply framesp_spec; auto. Qed.
Lemma fkp_spec : forall ls q T, Forall (fun l => l_jt l <> JOther) ls -> (length ls <= length q)%nat ->
  fkp ls q T = Ok (fold_left (fun T p => tmul T (lspec (fst p) (snd p))) (combine ls q) T).
Proof.
  induction ls as [|l ls IH]; intros q T H L; [reflexivity|]. destruct q as [|qi q]; [cbn in L; lia|]. inversion H as [|? ? Hl Hls]; subst. cbn [fkp combine fold_left fst snd].
  rewrite IH by (auto; cbn in L; lia). destruct (l_jt l); auto. congruence.
Qed.
Lemma fk_ok r q : good r -> joints_ok r -> (ndof r <= length q)%nat ->
  snd (fk r q) = Ok (tooled r (match ndof r with O => r_tfb r | S n => frame r q n end)).
Proof.
  intros G J L. rewrite fk_snd by auto. rewrite fkp_spec by auto. cbn [bind]. do 2 f_equal. unfold frame, ndof in *.
  destruct (r_links r) as [|l ls] eqn:E; [reflexivity|]. cbn [length]. rewrite firstn_all2; [reflexivity|]. rewrite combine_length. cbn [length]. lia.
Qed.
Lemma frame_rigid r q i : rigid (r_tfb r) -> rigid (frame r q i).
Proof.
  unfold frame. generalize (firstn (S i) (combine (r_links r) q)) (r_tfb r). clear. induction l as [|p l IH]; intros T H; cbn [fold_left]; auto.
  apply IH, rigid_tmul; auto. apply lspec_rigid.
Qed.
Definition rigid_tool (r : robot) : Prop := match r_tool r with Some (_, tip) => rigid tip | None => True end.
Lemma fk_rigid r q T : good r -> rigid (r_tfb r) -> rigid_tool r -> snd (fk r q) = Ok T -> rigid T.
Proof.
  intros G Hb Ht H. rewrite fk_snd in H by auto. apply bind_Ok in H. destruct H as (T0 & E & H). injection H as <-.
  assert (R0 : rigid T0). { revert E Hb. generalize (r_links r) q (r_tfb r). clear. induction l as [|l ls IH]; intros [|qi q] T H Hb; cbn [fkp] in H; try (injection H as <-; auto); try discriminate.
    destruct (l_jt l) eqn:Ej; try discriminate; (eapply IH; [exact H|]); apply rigid_tmul; auto; apply lspec_rigid. }
  unfold tooled, rigid_tool in *. destruct (r_tool r) as [[c tip]|]; auto. apply rigid_tmul; auto.
Qed.
(** when fk raises, it is for these reasons only *)
Lemma fk_raises r q e : good r -> snd (fk r q) = Raise e ->
  (e = IndexError /\ (length q < ndof r)%nat) \/ (e = UnboundLocalError /\ ~ joints_ok r).
Proof.
  intros G H. rewrite fk_snd in H by auto. unfold ndof, joints_ok. destruct (fkp (r_links r) q (r_tfb r)) as [T| e'|] eqn:E; try discriminate. injection H as ->.
  revert E. generalize (r_tfb r). generalize (r_links r). revert q. clear. intros q ls. revert q. induction ls as [|l ls IH]; intros [|qi q] T E; cbn [fkp] in E; try discriminate.
  - injection E as <-. left. cbn. split; auto. lia.
  - destruct (l_jt l) eqn:Ej; (try (injection E as <-; right; split; auto; intros H; inversion H; congruence));
      (apply IH in E; destruct E as [[-> L]|[-> N]]; [left; cbn; split; auto; lia|right; split; auto; intros H; inversion H; auto]).
Qed.

(** ** C38 *)
Definition self_spec (r : robot) (q : list R) : Prop :=
  (exists i j li lj, nth_error (r_links r) i = Some li /\ nth_error (r_links r) j = Some lj /\ r_mat r i j = true /\
     collide (l_geom li) (l_geom lj) (Some (frame r q i)) (Some (frame r q j)) = true) \/
  (exists tool tip i l, r_tool r = Some (tool, tip) /\ (i + 1 < ndof r)%nat /\ nth_error (r_links r) i = Some l /\
     collide (l_geom l) tool (Some (frame r q i)) (Some (frame r q (ndof r - 1))) = true).
Definition collision_spec (r : robot) (q : list R) (scene : coll) : Prop :=
  (exists b, r_base r = Some b /\ collide b scene (Some (r_tfb r)) None = true) \/
  (exists i l, nth_error (r_links r) i = Some l /\ collide (l_geom l) scene (Some (frame r q i)) None = true) \/
  (exists tool tip, r_tool r = Some (tool, tip) /\ collide tool scene (Some (frame r q (ndof r - 1))) None = true) \/
  (r_self r = true /\ self_spec r q).

Lemma self_inner_true m i ti gi l : self_inner prim m i ti gi l = true <-> exists j tj gj, In (j, (tj, gj)) l /\ m i j = true /\ collide gi gj (Some ti) (Some tj) = true.
Proof.
  induction l as [|[j [tj gj]] l IH]; cbn [self_inner].
  - split; [discriminate|]. intros (? & ? & ? & [] & _).
  - assert (Hr : (exists j' tj' gj', In (j', (tj', gj')) ((j, (tj, gj)) :: l) /\ m i j' = true /\ collide gi gj' (Some ti) (Some tj') = true) <->
      (m i j = true /\ collide gi gj (Some ti) (Some tj) = true) \/ self_inner prim m i ti gi l = true).
    { rewrite IH. split.
      - intros (j' & tj' & gj' & [E|Hin] & H); [injection E as -> -> ->; auto|right; eauto].
      - intros [H|(j' & tj' & gj' & Hin & H)]; [exists j, tj, gj|exists j', tj', gj']; (split; [cbn; auto|auto]). }
    rewrite Hr. destruct (m i j), (collide gi gj (Some ti) (Some tj)); intuition congruence.
Qed.
Lemma self_outer_true m l l2 : self_outer prim m l l2 = true <-> exists i ti gi j tj gj, In (i, (ti, gi)) l /\ In (j, (tj, gj)) l2 /\ m i j = true /\ collide gi gj (Some ti) (Some tj) = true.
Proof.
  induction l as [|[i [ti gi]] l IH]; cbn [self_outer].
  - split; [discriminate|]. intros (? & ? & ? & ? & ? & ? & [] & _).
  - destruct (self_inner prim m i ti gi l2) eqn:E.
    + split; auto. intros _. apply self_inner_true in E. destruct E as (j & tj & gj & Hin & H). exists i, ti, gi, j, tj, gj. cbn. auto.
    + rewrite IH. split.
      * intros (i' & ti' & gi' & j & tj & gj & Hin & H). exists i', ti', gi', j, tj, gj. cbn. auto.
      * intros (i' & ti' & gi' & j & tj & gj & [Eq|Hin] & Hin2 & H).
        -- injection Eq as -> -> ->. assert (self_inner prim m i' ti' gi' l2 = true) by (apply self_inner_true; eauto). congruence.
        -- exists i', ti', gi', j, tj, gj. auto.
Qed.
Lemma tool_loop_true tool tf l : tool_loop prim tool tf l = true <-> exists t g, In (t, g) l /\ collide g tool (Some t) (Some tf) = true.
Proof.
  induction l as [|[t g] l IH]; cbn [tool_loop].
  - split; [discriminate|]. intros (? & ? & [] & _).
  - destruct (collide g tool (Some t) (Some tf)) eqn:E.
    + split; auto. intros _. exists t, g. cbn. auto.
    + rewrite IH. split; [intros (t' & g' & Hin & H); exists t', g'; cbn; auto|]. intros (t' & g' & [Eq|Hin] & H); [injection Eq as -> ->; congruence|eauto].
Qed.
Lemma nth_error_seq n i j : nth_error (seq 0 n) i = Some j <-> i = j /\ (i < n)%nat.
Proof.
  split.
  - intros H. assert (i < n)%nat by (rewrite <- (seq_length n 0); apply nth_error_Some; congruence).
    apply (nth_error_nth _ _ 0%nat) in H. rewrite seq_nth in H by auto. split; auto.
  - intros [-> H]. rewrite (nth_error_nth' _ 0%nat) by (rewrite seq_length; auto). rewrite seq_nth by auto. reflexivity.
Qed.
Lemma nth_error_frames (f : nat -> mat4) n i T : nth_error (map f (seq 0 n)) i = Some T <-> (i < n)%nat /\ T = f i.
Proof.
  rewrite nth_error_map. destruct (nth_error (seq 0 n) i) as [j|] eqn:E; cbn.
  - apply nth_error_seq in E. destruct E as [-> H]. split; [intros [= <-]; auto|]. intros [_ ->]. auto.
  - apply nth_error_None in E. rewrite seq_length in E. split; [discriminate|]. intros [H _]. lia.
Qed.
Lemma zip3_In n tfs gs i t g : In (i, (t, g)) (zip3 n tfs gs) <-> (i < n)%nat /\ nth_error tfs i = Some t /\ nth_error gs i = Some g.
Proof.
  unfold zip3. rewrite In_combine. split.
  - intros (k & E1 & E2). apply nth_error_seq in E1. destruct E1 as [-> H].
    assert (Hin : In (t, g) (combine tfs gs)) by (eapply nth_error_In; eauto).
    split; auto. revert gs E2 H Hin. revert i n. clear. induction tfs as [|a tfs IH]; intros [|i] n [|b gs] E H Hin; cbn in *; try discriminate.
    + injection E as -> ->. auto.
    + apply (IH i n); auto; [lia|]. eapply nth_error_In; eauto.
  - intros (H & E1 & E2). exists i. split; [apply nth_error_seq; auto|]. revert i n gs E1 E2 H. clear. induction tfs as [|a tfs IH]; intros [|i] n [|b gs] E1 E2 H; cbn in *; try discriminate.
    + congruence.
    + eapply (IH i (S i)); eauto.
Qed.
Lemma removelast_nth {A} (l : list A) i x : nth_error (removelast l) i = Some x <-> (i + 1 < length l)%nat /\ nth_error l i = Some x.
Proof.
  induction l as [|a [|b l] IH] in i |- *.
  - cbn. split; [destruct i; discriminate|]. intros [H _]. lia.
  - cbn. split; [destruct i; discriminate|]. intros [H _]. lia.
  - change (removelast (a :: b :: l)) with (a :: removelast (b :: l)). destruct i as [|i]; cbn [nth_error].
    + cbn [length]. split; [intros; split; [lia|auto]|tauto].
    + rewrite IH. cbn [length]. split; intros [H E]; split; auto; lia.
Qed.
Lemma py_last_frames (f : nat -> mat4) n : py_last (map f (seq 0 (S n))) = Ok (f n).
Proof. unfold py_last. rewrite seq_S, map_app, rev_app_distr. reflexivity. Qed.

Lemma check_self_spec r q : (r_tool r <> None -> (1 <= ndof r)%nat) ->
  exists b, check_self prim r (map (frame r q) (seq 0 (ndof r))) (map l_geom (r_links r)) = Ok b /\ (b = true <-> self_spec r q).
Proof.
  intros Ht. set (tfs := map (frame r q) (seq 0 (ndof r))). set (gs := map l_geom (r_links r)). unfold check_self.
  assert (H1 : self_outer prim (r_mat r) (zip3 (ndof r) tfs gs) (zip3 (ndof r) tfs gs) = true <->
    exists i j li lj, nth_error (r_links r) i = Some li /\ nth_error (r_links r) j = Some lj /\ r_mat r i j = true /\
     collide (l_geom li) (l_geom lj) (Some (frame r q i)) (Some (frame r q j)) = true).
  { rewrite self_outer_true. split.
    - intros (i & ti & gi & j & tj & gj & Hi & Hj & Hm & Hc). apply zip3_In in Hi, Hj. destruct Hi as (Li & Ei & Gi), Hj as (Lj & Ej & Gj).
      apply nth_error_frames in Ei, Ej. destruct Ei as [_ ->], Ej as [_ ->]. unfold gs in Gi, Gj. rewrite nth_error_map in Gi, Gj.
      destruct (nth_error (r_links r) i) as [li|] eqn:El; [|discriminate]. destruct (nth_error (r_links r) j) as [lj|] eqn:El'; [|discriminate].
      injection Gi as <-. injection Gj as <-. exists i, j, li, lj. auto.
    - intros (i & j & li & lj & Ei & Ej & Hm & Hc).
      assert (Li : (i < ndof r)%nat) by (apply nth_error_Some; congruence). assert (Lj : (j < ndof r)%nat) by (apply nth_error_Some; congruence).
      exists i, (frame r q i), (l_geom li), j, (frame r q j), (l_geom lj). rewrite !zip3_In. unfold gs. rewrite !nth_error_map, Ei, Ej.
      split; [split; [auto|split; [apply nth_error_frames; auto|auto]]|]. split; [split; [auto|split; [apply nth_error_frames; auto|auto]]|]. auto. }
  destruct (self_outer _ _ _ _).
  - exists true. split; auto. split; auto. intros _. left. apply H1. auto.
  - destruct (r_tool r) as [[tool tip]|] eqn:Et.
    + destruct (ndof r) as [|n] eqn:En; [exfalso; specialize (Ht ltac:(discriminate)); lia|].
      unfold tfs at 1. rewrite py_last_frames. cbn [bind]. eexists. split; [reflexivity|]. rewrite tool_loop_true. unfold self_spec. rewrite Et, En.
      replace (S n - 1)%nat with n by lia. split.
      * intros (t & g & Hin & Hc). apply In_combine in Hin. destruct Hin as (i & E1 & E2). apply removelast_nth in E1, E2. destruct E1 as [L1 E1], E2 as [L2 E2].
        apply nth_error_frames in E1. destruct E1 as [Li ->]. unfold gs in E2. rewrite nth_error_map in E2. destruct (nth_error (r_links r) i) as [l|] eqn:El; [|discriminate]. injection E2 as <-.
        right. exists tool, tip, i, l. unfold tfs in L1. rewrite map_length, seq_length in L1. auto.
      * intros [H|(tool' & tip' & i & l & E & L & El & Hc)]; [apply H1 in H; discriminate|]. injection E as <- <-.
        exists (frame r q i), (l_geom l). split; auto. apply In_combine. exists i. rewrite !removelast_nth. unfold tfs, gs. unfold ndof in En.
        split; [split; [rewrite map_length, seq_length; lia|apply nth_error_frames; split; [lia|auto]]|].
        split; [rewrite map_length; lia|rewrite nth_error_map, El; auto].
    + exists false. split; auto. unfold self_spec. rewrite Et. split; [discriminate|]. intros [H|(? & ? & ? & ? & E & _)]; [apply H1 in H; discriminate|discriminate].
Qed.
(** the part of is_in_collision after the base check *)
Lemma collision_rest r q scene : good r -> joints_ok r -> (ndof r <= length q)%nat -> (r_tool r <> None -> (1 <= ndof r)%nat) ->
  exists b, (tfs <- framesp (r_links r) q (r_tfb r) ;; o <- prio_loop prim (map l_geom (r_links r)) tfs scene (r_prio r) ;;
      match o with
      | Some _ => Ok true
      | None => hit <- match r_tool r with
                       | Some (tool, _) => tf_tool <- py_last tfs ;; Ok (collide tool scene (Some tf_tool) None)
                       | None => Ok false
                       end ;;
                if hit then Ok true else if r_self r then check_self prim r tfs (map l_geom (r_links r)) else Ok false
      end) = Ok b /\
    (b = true <->
      (exists i l, nth_error (r_links r) i = Some l /\ collide (l_geom l) scene (Some (frame r q i)) None = true) \/
      (exists tool tip, r_tool r = Some (tool, tip) /\ collide tool scene (Some (frame r q (ndof r - 1))) None = true) \/
      (r_self r = true /\ self_spec r q)).
Proof.
  intros G J L Ht. rewrite framesp_spec by auto. cbn [bind]. fold (frame r q). change (length (r_links r)) with (ndof r).
  change (map (fun i => frame r q i) (seq 0 (ndof r))) with (map (frame r q) (seq 0 (ndof r))).
  set (tfs := map (frame r q) (seq 0 (ndof r))). set (gs := map l_geom (r_links r)).
  assert (Lg : length gs = ndof r) by (unfold gs, ndof; apply map_length).
  assert (Lt : length tfs = length gs) by (unfold tfs; rewrite map_length, seq_length; auto).
  destruct (prio_loop_hit gs tfs scene (r_prio r) Lt) as (o & Eo & Ho); [rewrite Lg; apply good_prio; auto|]. rewrite Eo. cbn [bind].
  assert (Hh : any_hit gs tfs scene <-> exists i l, nth_error (r_links r) i = Some l /\ collide (l_geom l) scene (Some (frame r q i)) None = true).
  { unfold any_hit. split.
    - intros (i & g & tf & Eg & Et & Hc). unfold tfs in Et. apply nth_error_frames in Et. destruct Et as [_ ->]. unfold gs in Eg. rewrite nth_error_map in Eg.
      destruct (nth_error (r_links r) i) as [l|] eqn:El; [|discriminate]. injection Eg as <-. eauto.
    - intros (i & l & El & Hc). exists i, (l_geom l), (frame r q i). unfold gs, tfs. rewrite nth_error_map, El. split; auto. split; auto.
      apply nth_error_frames. split; auto. apply nth_error_Some. congruence. }
  destruct o as [i|]; [exists true; split; auto; tauto|].
  assert (Etool : exists hit, match r_tool r with Some (tool, _) => tf_tool <- py_last tfs ;; Ok (collide tool scene (Some tf_tool) None) | None => Ok false end = Ok hit /\
    (hit = true <-> exists tool tip, r_tool r = Some (tool, tip) /\ collide tool scene (Some (frame r q (ndof r - 1))) None = true)).
  { destruct (r_tool r) as [[tool tip]|].
    - destruct (ndof r) as [|n] eqn:En; [exfalso; specialize (Ht ltac:(discriminate)); lia|]. unfold tfs. rewrite py_last_frames. cbn [bind].
      eexists. split; [reflexivity|]. replace (S n - 1)%nat with n by lia. split; [intros; eauto|]. intros (? & ? & E & H). injection E as <- <-. auto.
    - exists false. split; auto. split; [discriminate|]. intros (? & ? & E & _). discriminate. }
  destruct Etool as (hit & -> & Hhit). cbn [bind]. destruct hit; [exists true; split; auto; tauto|].
  destruct (r_self r).
  - destruct (check_self_spec r q Ht) as (b & Eb & Hb). exists b. split; [exact Eb|]. assert (false = true -> False) by discriminate. tauto.
  - exists false. split; auto. assert (false = true -> False) by discriminate. tauto.
Qed.
Lemma collision_correct r q scene : good r -> joints_ok r -> (ndof r <= length q)%nat -> (r_tool r <> None -> (1 <= ndof r)%nat) ->
  exists b, snd (robot_collision prim r q scene) = Ok b /\ (b = true <-> collision_spec r q scene).
Proof.
  intros G J L Ht. rewrite robot_collision_snd by auto. unfold collision_value, collision_spec.
  destruct (collision_rest r q scene G J L Ht) as (b & E & H). destruct (r_base r) as [ba|] eqn:Eb.
  - destruct (collide ba scene (Some (r_tfb r)) None) eqn:Ec.
    + exists true. split; auto. split; auto. intros _. left. eauto.
    + exists b. split; auto. rewrite H. split; [tauto|]. intros [(b0 & E0 & H0)|H0]; [|auto]. injection E0 as <-. congruence.
  - exists b. split; auto. rewrite H. split; [tauto|]. intros [(b0 & E0 & H0)|H0]; [discriminate|auto].
Qed.
(** a tool on a robot without links: the check of the scene raises *)
Lemma collision_tool_no_links r q scene : good r -> r_tool r <> None -> ndof r = 0%nat ->
  snd (robot_collision prim r q scene) = if match r_base r with Some b => collide b scene (Some (r_tfb r)) None | None => false end then Ok true else Raise IndexError.
Proof.
  intros G Ht N. rewrite robot_collision_snd by auto. unfold collision_value. destruct (match r_base r with Some _ => _ | None => _ end); auto.
  pose proof (good_prio r G) as P. rewrite N in P. cbn in P. apply Permutation_sym, Permutation_nil in P. rewrite P.
  unfold ndof in N. apply length_zero_iff_nil in N. rewrite N. cbn. destruct (r_tool r) as [[c tip]|]; [reflexivity|congruence].
Qed.
Lemma is_in_self_correct r q : good r -> joints_ok r -> (ndof r <= length q)%nat -> (r_tool r <> None -> (1 <= ndof r)%nat) ->
  exists b, snd (is_in_self_collision prim r q) = Ok b /\ (b = true <-> self_spec r q).
Proof.
  intros G J L Ht. destruct (check_self_spec r q Ht) as (b & Eb & Hb). exists b. split; auto.
  unfold is_in_self_collision. pose proof (frames_ok r q G J L) as F. destruct (frames_fst r q G) as [G1 R]. unfold fk_all_links in *.
  destruct (frames_loop _ _ _) as [ls fs]. cbn [fst snd] in *. subst fs. cbn [bind]. rewrite <- Eb. unfold check_self.
  apply (f_equal ndof) in R. rewrite !ndof_reset in R. rewrite R. reflexivity.
Qed.
End Prim.

(** ** casadi *)
Lemma link_casadi_spec l q : link_transform_casadi l q = dhm (da (l_dh l)) (dalpha (l_dh l)) (dd (l_dh l)) q.
Proof. rewrite <- (write_T_dhm eye4) by (repeat split). reflexivity. Qed.
Definition revolute (r : robot) : Prop := Forall (fun l => l_jt l = JR) (r_links r).
Lemma casadi_loop_spec : forall ls q T, Forall (fun l => l_jt l = JR) ls -> casadi_loop ls q T = fkp ls q T.
Proof.
  induction ls as [|l ls IH]; intros [|qi q] T H; cbn [casadi_loop fkp]; auto. inversion H as [|? ? Hl Hls]; subst. rewrite Hl, IH by auto. f_equal. f_equal.
  rewrite link_casadi_spec. unfold lspec. rewrite Hl. reflexivity.
Qed.
Lemma casadi_frames_spec : forall ls q T, Forall (fun l => l_jt l = JR) ls -> casadi_frames ls q T = framesp ls q T.
Proof.
  induction ls as [|l ls IH]; intros [|qi q] T H; cbn [casadi_frames framesp]; auto. inversion H as [|? ? Hl Hls]; subst. rewrite Hl.
  assert (E : link_transform_casadi l qi = lspec l qi) by (rewrite link_casadi_spec; unfold lspec; rewrite Hl; reflexivity). rewrite E, IH by auto. reflexivity.
Qed.
Lemma fk_casadi_agree r q : good r -> revolute r -> fk_casadi r q = snd (fk r q).
Proof. intros G H. rewrite fk_snd by auto. unfold fk_casadi. rewrite casadi_loop_spec by auto. reflexivity. Qed.
Lemma frames_casadi_agree r q : good r -> revolute r -> fk_all_links_casadi r q = snd (fk_all_links r q).
Proof. intros G H. rewrite frames_snd by auto. apply casadi_frames_spec; auto. Qed.
