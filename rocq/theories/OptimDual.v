(** * The collision constraints of optimization.py are exact (C115). *)
From Coq Require Import Reals Lra Psatz List Bool Arith Lia.
From Verif Require Import PyBase Mat Util UtilProofs Geometry GeometryProofs Robot RobotProofs Optim OptimProofs Separate.
Import ListNotations.
Local Open Scope R_scope.

(** ** Support of a box in a direction *)
Definition posp (a : R) : R := Rmax a 0.
Lemma posp_nonneg a : 0 <= posp a. Proof. apply Rmax_r. Qed.
Lemma posp_diff a : posp a - posp (- a) = a.
Proof. unfold posp, Rmax. destruct (Rle_dec a 0), (Rle_dec (- a) 0); lra. Qed.
Lemma posp_side a w : 0 <= w -> exists l, Rabs l <= w / 2 /\ a * l = w / 2 * (posp a + posp (- a)).
Proof.
  intros H. unfold posp, Rmax. destruct (Rle_dec a 0), (Rle_dec (- a) 0).
  - exists 0. rewrite Rabs_R0. assert (a = 0) by lra. subst. split; lra.
  - exists (- (w / 2)). rewrite Rabs_Ropp, Rabs_pos_eq by lra. split; lra.
  - exists (w / 2). rewrite Rabs_pos_eq by lra. split; lra.
  - lra.
Qed.
(** multipliers of the six faces that add up to the direction u *)
Definition faces (w : vec3) : list R := [posp (vx w); posp (- vx w); posp (vy w); posp (- vy w); posp (vz w); posp (- vz w)].
Definition sized (s : shape) : Prop := 0 <= dx s /\ 0 <= dy s /\ 0 <= dz s.
Lemma box_support s T u : rigid T -> sized s -> exists lam x, Forall (fun y => y >= 0) lam /\ wsum (pA (get_polyhedron s T)) lam = u /\
  in_box s T x /\ ldot (pb (get_polyhedron s T)) lam = vdot u x.
Proof.
  intros HT (Sx & Sy & Sz). set (w := mapply (mtr (rot T)) u). assert (Eu : mapply (rot T) w = u) by (unfold w; rewrite <- mapply_mmul, rotation_inv_r, mapply_1 by apply HT; auto).
  destruct (posp_side (vx w) (dx s) Sx) as (lx & Lx & Ex). destruct (posp_side (vy w) (dy s) Sy) as (ly & Ly & Ey). destruct (posp_side (vz w) (dz s) Sz) as (lz & Lz & Ez).
  exists (faces w), (tapply T (V3 lx ly lz)). split; [unfold faces; repeat (apply Forall_cons; [apply Rle_ge, posp_nonneg|]); constructor|].
  assert (W : wsum (pA (get_polyhedron s T)) (faces w) = mapply (rot T) w).
  { rewrite <- (posp_diff (vx w)) at 1 || idtac. unfold get_polyhedron, get_normals, faces, wsum. cbn [pA combine map fold_right fst snd].
    assert (E : w = V3 (posp (vx w) - posp (- vx w)) (posp (vy w) - posp (- vy w)) (posp (vz w) - posp (- vz w))) by (rewrite !posp_diff; destruct w; auto).
    set (p1 := posp (vx w)) in *. set (p2 := posp (- vx w)) in *. set (p3 := posp (vy w)) in *. set (p4 := posp (- vy w)) in *. set (p5 := posp (vz w)) in *. set (p6 := posp (- vz w)) in *. clearbody p1 p2 p3 p4 p5 p6. rewrite E.
    destruct (rot T). apply vec3_eq; cbn; ring. }
  split; [rewrite W; auto|]. split; [exists (V3 lx ly lz); split; auto; repeat split; auto|].
  rewrite <- Eu at 1. assert (V : vdot (mapply (rot T) w) (tapply T (V3 lx ly lz)) = vx w * lx + vy w * ly + vz w * lz + vdot (mapply (rot T) w) (pos T)).
  { pose proof (move_row T w (V3 lx ly lz) (rigid_rot _ HT)) as M. rewrite M. unfold vdot. cbn. ring. }
  rewrite V, Ex, Ey, Ez. rewrite <- W. clear. unfold get_polyhedron, get_normals, faces, wsum, ldot. cbn [pA pb combine map fold_right fst snd]. rewrite half.
  generalize (posp (vx w)) (posp (- vx w)) (posp (vy w)) (posp (- vy w)) (posp (vz w)) (posp (- vz w)). intros. destruct (rot T), (pos T). unfold vdot. cbn. field.
Qed.
Lemma in_box_convex s T x y t : 0 <= t <= 1 -> in_box s T x -> in_box s T y -> in_box s T (vadd x (vscale t (vsub y x))).
Proof.
  intros Ht (l & (L1 & L2 & L3) & ->) (m & (M1 & M2 & M3) & ->). exists (vadd l (vscale t (vsub m l))). split.
  - assert (K : forall a b w, Rabs a <= w -> Rabs b <= w -> Rabs (a + t * (b - a)) <= w). { intros a b w Ha Hb. rewrite Rabs_le_iff in *. nra. } repeat split; cbn; auto.
  - unfold tapply. destruct l, m, (rot T), (pos T). apply vec3_eq; cbn; ring.
Qed.
Lemma box_nonempty s T : sized s -> in_box s T (tapply T v0).
Proof. intros (A & B & C). exists v0. split; auto. repeat split; cbn; rewrite Rabs_R0; lra. Qed.

(** boxes at least eps apart have multipliers *)
Lemma dual_exists s T s' T' eps : rigid T -> rigid T' -> sized s -> sized s' -> 0 < eps -> (forall x y, in_box s T x -> in_box s' T' y -> eps ^ 2 <= norm2 (vsub x y)) ->
  exists lam mu, Forall (fun c => c) (create_collision_constraints lam mu (pA (get_polyhedron s T)) (pA (get_polyhedron s' T')) (pb (get_polyhedron s T)) (pb (get_polyhedron s' T')) eps).
Proof.
  intros HT HT' S S' He H.
  destruct (separation (fun d => exists x y, in_box s T x /\ in_box s' T' y /\ d = vsub x y) eps) as (n & N1 & N2).
  - intros d d' t Ht (x & y & Hx & Hy & ->) (x' & y' & Hx' & Hy' & ->). exists (vadd x (vscale t (vsub x' x))), (vadd y (vscale t (vsub y' y))).
    split; [apply in_box_convex; auto|]. split; [apply in_box_convex; auto|]. destruct x, y, x', y'. apply vec3_eq; cbn; ring.
  - eexists. do 2 eexists. split; [apply box_nonempty; auto|]. split; [apply box_nonempty; auto|reflexivity].
  - auto.
  - intros d (x & y & Hx & Hy & ->). replace (eps * eps) with (eps ^ 2) by ring. auto.
  - destruct (box_support s T (vopp n) HT S) as (lam & x & L1 & L2 & L3 & L4). destruct (box_support s' T' n HT' S') as (mu & y & M1 & M2 & M3 & M4).
    exists lam, mu. unfold create_collision_constraints. rewrite L2, M2, L4, M4. pose proof (N2 _ (ex_intro _ x (ex_intro _ y (conj L3 (conj M3 eq_refl))))) as K.
    repeat apply Forall_cons; auto.
    + destruct n, x, y. unfold vdot in *. cbn in *. lra.
    + destruct n. apply vec3_eq; cbn; ring.
    + destruct n. unfold norm2, vdot in *. cbn in *. lra.
Qed.

(** ** Moving a box *)
Lemma move_poly_box s tf T : rigid T -> rigid tf -> move_poly (get_polyhedron s tf) T = get_polyhedron s (tmul T tf).
Proof.
  intros HT Ht. assert (R1 : rot (tmul T tf) = mmul (rot T) (rot tf)) by (destruct HT, Ht; rewrite tmul_blocks; auto).
  assert (P1 : pos (tmul T tf) = tapply T (pos tf)) by (destruct HT, Ht; rewrite tmul_blocks; auto).
  unfold move_poly, get_polyhedron, get_normals. cbn [pA pb map combine fst snd]. rewrite R1, P1, !mapply_mmul, !move_row by apply HT. repeat rewrite Rplus_assoc. reflexivity.
Qed.

(** ** Choosing multipliers for all pairs *)
Lemma finite_choice {A} (d : A) : forall n (P : nat -> A -> Prop), (forall i, (i < n)%nat -> exists y, P i y) -> exists f, forall i, (i < n)%nat -> P i (f i).
Proof.
  induction n as [|n IH]; intros P H; [exists (fun _ => d); lia|]. destruct (IH P) as [f Hf]; [intros; apply H; lia|]. destruct (H n ltac:(lia)) as [y Hy].
  exists (fun i => if Nat.eq_dec i n then y else f i). intros i Hi. destruct (Nat.eq_dec i n); [subst; auto|apply Hf; lia].
Qed.
Lemma mapM_total {A B} (f : A -> res B) (Q : B -> Prop) l : (forall x, In x l -> exists y, f x = Ok y /\ Q y) -> exists ys, mapM f l = Ok ys /\ Forall Q ys.
Proof.
  induction l as [|x l IH]; intros H; [exists []; auto|]. destruct (H x) as (y & E & Hy); [left; auto|]. destruct IH as (ys & Es & Hs); [intros; apply H; right; auto|]. exists (y :: ys). cbn. rewrite E. cbn. rewrite Es. auto.
Qed.
Lemma Forall_concat {A} (P : A -> Prop) ls : Forall (Forall P) ls -> Forall P (concat ls).
Proof. induction 1; cbn; auto. apply Forall_app. auto. Qed.
Lemma py_index_nth {A} (l : list A) i x : nth_error l i = Some x -> py_index l i = Ok x.
Proof. unfold py_index. intros ->. auto. Qed.

Lemma Forall2_nth_error_intro {A B} (P : A -> B -> Prop) : forall l l', length l' = length l -> (forall k x y, nth_error l k = Some x -> nth_error l' k = Some y -> P x y) -> Forall2 P l l'.
Proof. induction l as [|x l IH]; intros [|y l'] L H; try discriminate; constructor; [apply (H 0%nat); auto|apply IH; [cbn in L; lia|intros k; apply (H (S k))]]. Qed.
Lemma Forall2_nth_error_elim {A B} (P : A -> B -> Prop) l l' : Forall2 P l l' -> forall k x y, nth_error l k = Some x -> nth_error l' k = Some y -> P x y.
Proof. induction 1 as [|a b l l' Hab _ IH]; intros [|k] x y E1 E2; cbn in *; try discriminate; [congruence|eauto]. Qed.

Definition sized_coll (c : coll) : Prop := Forall sized (c_s c).
Definition clear_pose (r : robot) (scene : coll) (q : list R) : Prop := exists fs, fk_all_links_casadi r q = Ok fs /\ clear_of r scene fs.

Lemma pose_exact r scene q : rigid (r_tfb r) -> Forall one_box (r_links r) -> Forall (fun l => sized_coll (l_geom l)) (r_links r) -> proper_scene scene -> sized_coll scene ->
  ((exists lamk muk cs, create_cc_for_joint_pose r (flat_map (fun l => get_polyhedrons (l_geom l)) (r_links r)) (get_polyhedrons scene) q lamk muk = Ok cs /\ Forall (fun c => c) cs) <->
   clear_pose r scene q).
Proof.
  intros HB H1 HS (SL & SR) SS. split.
  - intros (lamk & muk & cs & E & H). eapply pose_certified; eauto. split; auto.
  - intros (fs & Ef & C). destruct (casadi_frames_rigid _ _ _ _ HB Ef) as (FR & FL).
    assert (P : forall i, (i < ndof r)%nat -> exists g : nat -> list R * list R, forall j, (j < length (get_polyhedrons scene))%nat ->
       exists T P O, nth_error fs i = Some T /\ nth_error (flat_map (fun l => get_polyhedrons (l_geom l)) (r_links r)) i = Some P /\ nth_error (get_polyhedrons scene) j = Some O /\
       let M := move_poly P T in Forall (fun c => c) (create_collision_constraints (fst (g j)) (snd (g j)) (pA M) (pA O) (pb M) (pb O) eps0)).
    { intros i Hi. apply (finite_choice ([], []) (length (get_polyhedrons scene)) (fun j g => exists T P O, nth_error fs i = Some T /\ nth_error (flat_map (fun l => get_polyhedrons (l_geom l)) (r_links r)) i = Some P /\ nth_error (get_polyhedrons scene) j = Some O /\
       let M := move_poly P T in Forall (fun c => c) (create_collision_constraints (fst g) (snd g) (pA M) (pA O) (pb M) (pb O) eps0))).
      intros j Hj. unfold ndof in Hi. destruct (nth_error (r_links r) i) as [l|] eqn:El; [|apply nth_error_None in El; lia]. destruct (nth_error fs i) as [T|] eqn:ET; [|apply nth_error_None in ET; lia].
      destruct (polys_nth _ _ H1 _ El) as (s & tf & G & Rt & Pi). destruct (nth_error (get_polyhedrons scene) j) as [O|] eqn:EO; [|apply nth_error_None in EO; lia].
      pose proof EO as EO'. rewrite polys_scene in EO' by auto. destruct (nth_error (c_s scene) j) as [s'|] eqn:Es'; [|discriminate]. destruct (nth_error (c_tf scene) j) as [T'|] eqn:ET'; [|discriminate]. injection EO' as <-.
      assert (RT : rigid T) by (rewrite Forall_forall in FR; apply FR; eapply nth_error_In; eauto). assert (RT' : rigid T') by (rewrite Forall_forall in SR; apply SR; eapply nth_error_In; eauto).
      assert (Zs' : sized s') by (unfold sized_coll in SS; rewrite Forall_forall in SS; apply SS; eapply nth_error_In; eauto).
      assert (Zs : sized s) by (rewrite Forall_forall in HS; specialize (HS l (nth_error_In _ _ El)); rewrite G in HS; inversion HS; auto).
      destruct (dual_exists s (tmul T tf) s' T' eps0) as (lam & mu & Hd); auto; [apply rigid_tmul; auto|unfold eps0; lra| |].
      { intros x y Hx Hy. eapply (C i l T s tf j s' T'); eauto. rewrite G. exists 0%nat. auto. }
      exists (lam, mu), T, (get_polyhedron s tf), (get_polyhedron s' T'). split; auto. split; auto. split; auto. cbn zeta. rewrite move_poly_box by auto. exact Hd. }
    destruct (finite_choice (fun _ => ([], [])) _ _ P) as [g Hg]. exists (fun i j => fst (g i j)), (fun i j => snd (g i j)). unfold create_cc_for_joint_pose. rewrite Ef. cbn [bind].
    match goal with |- exists cs, (cs0 <- mapM ?f ?l ;; _) = _ /\ _ => destruct (mapM_total f (Forall (fun c => c)) l) as (css & Ec & Hc) end; [|exists (concat css); rewrite Ec; split; auto; apply Forall_concat; auto].
    intros i Hi. apply in_seq in Hi. destruct (nth_error fs i) as [T|] eqn:ET; [|apply nth_error_None in ET; unfold ndof in Hi; lia]. rewrite (py_index_nth _ _ _ ET). cbn [bind].
    match goal with |- exists y, (cs0 <- mapM ?f ?l ;; _) = _ /\ _ => destruct (mapM_total f (Forall (fun c => c)) l) as (css & Ec & Hc) end; [|exists (concat css); rewrite Ec; split; auto; apply Forall_concat; auto].
    intros j Hj. apply in_seq in Hj. destruct (Hg i ltac:(lia) j ltac:(lia)) as (T0 & P0 & O0 & E1 & E2 & E3 & E4). rewrite (py_index_nth _ _ _ E2), (py_index_nth _ _ _ E3). cbn [bind]. eexists. split; [reflexivity|]. assert (T0 = T) by congruence. subst T0. exact E4.
Qed.

(** ** The whole problem *)
(** row qk reaches the point p *)
Definition at_point (r : robot) (p qk : list R) : Prop := exists T rest, snd (fk r qk) = Ok T /\ p = vx (pos T) :: vy (pos T) :: vz (pos T) :: rest.
Lemma feasible_exact xyz r scene q : good r -> revolute r -> rigid (r_tfb r) -> Forall one_box (r_links r) -> Forall (fun l => sized_coll (l_geom l)) (r_links r) -> proper_scene scene -> sized_coll scene ->
  (1 <= ndof r)%nat ->
  ((exists lam mu, feasible xyz r (Some scene) q lam mu) <->
   Forall (fun row => length row = 6%nat) q /\ Forall2 (at_point r) xyz q /\ Forall (clear_pose r scene) q).
Proof.
  intros G V HB H1 HS HP SS Hn. split.
  - intros (lam & mu & F). pose proof F as (L & R6 & _). split; auto. split.
    + pose proof (feasible_path _ _ _ _ _ _ G V F) as P. clear F R6. apply Forall2_nth_error_intro; auto. 
      intros k p qk Ep Eq. destruct (P k p Ep) as (qk' & T & x & y & z & rest & E1 & E2 & -> & E4). assert (qk' = qk) by congruence. subst qk'. exists T, rest. rewrite E4. auto.
    + apply Forall_forall. intros qk Hq. apply In_nth_error in Hq. destruct Hq as [k Hq]. destruct (feasible_clear _ _ _ _ _ _ G V HB H1 HP F k qk Hq) as (fs & E & C). exists fs. rewrite frames_casadi_agree by auto. auto.
  - intros (R6 & F2 & FC). assert (L : length q = length xyz) by (clear - F2; induction F2; cbn; auto).
    set (pr := flat_map (fun l => get_polyhedrons (l_geom l)) (r_links r)). set (ps := get_polyhedrons scene).
    assert (P : forall k, (k < length q)%nat -> exists g : (nat -> nat -> list R) * (nat -> nat -> list R), exists qk cs, nth_error q k = Some qk /\ create_cc_for_joint_pose r pr ps qk (fst g) (snd g) = Ok cs /\ Forall (fun c => c) cs).
    { intros k Hk. destruct (nth_error q k) as [qk|] eqn:E; [|apply nth_error_None in E; lia]. rewrite Forall_forall in FC. pose proof (FC qk (nth_error_In _ _ E)) as C.
      apply pose_exact in C; auto. destruct C as (lamk & muk & cs & E1 & E2). exists (lamk, muk), qk, cs. auto. }
    destruct (finite_choice ((fun _ _ => []), (fun _ _ => [])) _ _ P) as [g Hg]. exists (fun k => fst (g k)), (fun k => snd (g k)). split; auto. split; auto.
    assert (E0 : exists p0, py_index pr 0 = Ok p0). { unfold ndof in Hn. destruct (r_links r) as [|l ls] eqn:El; [cbn in Hn; lia|]. destruct (polys_nth _ 0 H1 l eq_refl) as (s & tf & _ & _ & E). eexists. apply py_index_nth. exact E. }
    destruct E0 as [p0 E0]. unfold all_constraints, create_cc. fold pr ps. rewrite E0. cbn [bind].
    match goal with |- context [mapM ?f (seq 0 (length q))] => destruct (mapM_total f (Forall (fun c => c)) (seq 0 (length q))) as (css & Ec & Hc) end.
    { intros k Hk. apply in_seq in Hk. destruct (Hg k ltac:(lia)) as (qk & cs & E1 & E2 & E3). rewrite (py_index_nth _ _ _ E1). cbn [bind]. eauto. }
    rewrite Ec. cbn [bind].
    match goal with |- context [mapM ?f (seq 0 (length xyz))] => destruct (mapM_total f (Forall (fun c => c)) (seq 0 (length xyz))) as (pss & Ep & Hp) end.
    { intros k Hk. apply in_seq in Hk. destruct (nth_error xyz k) as [p|] eqn:Exk; [|apply nth_error_None in Exk; lia]. destruct (nth_error q k) as [qk|] eqn:Eqk; [|apply nth_error_None in Eqk; lia].
      rewrite (py_index_nth _ _ _ Exk), (py_index_nth _ _ _ Eqk). cbn [bind]. destruct (Forall2_nth_error_elim _ _ _ F2 k p qk Exk Eqk) as (T & rest & ET & ->).
      unfold path_constraint. rewrite fk_casadi_agree, ET by auto. cbn. eexists. split; [reflexivity|]. auto. }
    rewrite Ep. cbn [bind]. eexists. split; [reflexivity|]. apply Forall_app. split; apply Forall_concat; auto.
Qed.

(** ** What the constraints leave out *)
Lemma feasible_collision prim xyz r scene q lam mu : good r -> revolute r -> exact_prim prim -> rigid (r_tfb r) -> Forall one_box (r_links r) -> proper_scene scene -> (1 <= ndof r <= 6)%nat ->
  feasible xyz r (Some scene) q lam mu -> Forall (fun qk => exists b, snd (robot_collision prim r qk scene) = Ok b /\
    (b = true <-> (exists ba, r_base r = Some ba /\ is_in_collision prim ba scene (Some (r_tfb r)) None = true) \/
      (exists tool tip, r_tool r = Some (tool, tip) /\ is_in_collision prim tool scene (Some (frame r qk (ndof r - 1))) None = true) \/
      (r_self r = true /\ self_spec prim r qk))) q.
Proof.
  intros G V X HB H1 HP Hn F. pose proof F as (_ & R6 & _). apply Forall_forall. intros qk Hq. rewrite Forall_forall in R6. pose proof (R6 qk Hq) as L6. apply In_nth_error in Hq. destruct Hq as [k Hq].
  destruct (feasible_clear _ _ _ _ _ _ G V HB H1 HP F k qk Hq) as (fs & E & C). assert (J : joints_ok r) by (unfold joints_ok; eapply Forall_impl; [|exact V]; cbn; intros l -> ; discriminate).
  destruct (collision_correct prim r qk scene G J ltac:(lia) ltac:(lia)) as (b & Eb & Hb). exists b. split; auto. rewrite Hb. unfold collision_spec. split; [|tauto].
  intros [A|[(i & l & Il & Hit)|B]]; auto. exfalso. pose proof E as E'. rewrite frames_ok in E' by (auto; lia). injection E' as <-.
  assert (Ii : nth_error (map (frame r qk) (seq 0 (ndof r))) i = Some (frame r qk i)) by (apply nth_error_frames; split; auto; unfold ndof; apply nth_error_Some; congruence).
  pose proof (clear_no_collision prim r scene qk _ G X HB H1 HP E C i l (frame r qk i) Il Ii). congruence.
Qed.
(** the wall of C78 with a tool inside it *)
Definition rob_tool : robot := let r := rob1 (Coll [cube] [eye4]) in Rb (r_links r) (r_limits r) (r_base r) (Some (Coll [cube] [at_x 10], eye4)) (r_tfb r) (r_mat r) (r_self r) (r_prio r).
Lemma tool_ignored prim : exact_prim prim -> feasible [[0; 0; 0]] rob_tool (Some wall) [[0; 0; 0; 0; 0; 0]] lam1 mu1 /\ snd (robot_collision prim rob_tool [0; 0; 0; 0; 0; 0] wall) = Ok true.
Proof.
  intros X. assert (F : feasible [[0; 0; 0]] rob_tool (Some wall) [[0; 0; 0; 0; 0; 0]] lam1 mu1).
  { pose proof (problem1 (Coll [cube] [eye4]) ltac:(eexists _, _; reflexivity)) as (A & B & cs & E & H). split; auto. split; auto. exists cs. split; auto. rewrite <- E. unfold all_constraints.
    assert (Ec : create_cc rob_tool wall [[0; 0; 0; 0; 0; 0]] lam1 mu1 = create_cc (rob1 (Coll [cube] [eye4])) wall [[0; 0; 0; 0; 0; 0]] lam1 mu1) by reflexivity. rewrite Ec.
    assert (Ep : forall p q, path_constraint rob_tool p q = path_constraint (rob1 (Coll [cube] [eye4])) p q).
    { intros p q. unfold path_constraint, fk_casadi, rob_tool. cbn [r_links r_tool r_tfb rob1 robot_init]. destruct (casadi_loop _ q eye4); cbn [bind]; auto. rewrite tmul_1_r. reflexivity. }
    cbn [length seq mapM bind py_index nth_error]. rewrite Ep. reflexivity. }
  split; auto. assert (G : good rob_tool) by (destruct (robot_init_good [new_link (DH 0 0 0 0) JR (Coll [cube] [eye4])]) as [A B]; [repeat constructor|]; split; auto).
  assert (O : Forall one_box (r_links rob_tool)) by (constructor; [exists cube, eye4; split; auto; apply rigid_eye|constructor]).
  assert (P : proper_scene wall) by (split; auto; constructor; [apply at_x_rigid|constructor]).
  pose proof (feasible_collision prim _ rob_tool wall _ _ _ G ltac:(repeat constructor) X rigid_eye O P ltac:(cbn; lia) F) as H. inversion H as [|? ? (b & E & Hb) _]; subst. rewrite E. f_equal. apply Hb. right. left.
  exists (Coll [cube] [at_x 10]), eye4. split; auto.
  assert (Ef : frame rob_tool [0; 0; 0; 0; 0; 0] (ndof rob_tool - 1) = eye4).
  { assert (Fr : snd (fk_all_links (rob1 (Coll [cube] [eye4])) [0; 0; 0; 0; 0; 0]) = Ok [eye4]) by (rewrite <- frames_casadi_agree; [apply frame1|apply robot_init_good; repeat constructor|repeat constructor]).
    rewrite frames_ok in Fr; [|apply robot_init_good; repeat constructor|repeat constructor; discriminate|cbn; lia]. cbn [ndof rob1 robot_init r_links length seq map] in Fr. apply (f_equal (fun x => match x with Ok [y] => y | _ => eye4 end)) in Fr. exact Fr. }
  rewrite Ef. apply collision_points; auto; try (constructor; [apply at_x_rigid|constructor]); try apply rigid_eye; try exact Logic.I.
  exists (V3 10 0 0). assert (Hb0 : in_box cube (at_x 10) (V3 10 0 0)). { exists v0. split; [|unfold at_x; apply vec3_eq; cbn; ring]. unfold local_in, v0, cube. cbn. rewrite Rabs_R0. lra. }
  split; (exists cube, (at_x 10); split; [exists 0%nat; auto|]); cbn [place]; auto. rewrite tmul_1_l. auto.
Qed.

(** ** What get_optimal_path returns *)
(** a solver that reports success only for values meeting all constraints, and
    then with the least objective *)
Definition solver_sound xyz r scene (solver : option (bool * list (list R))) : Prop :=
  forall q, solver = Some (true, q) -> exists lam mu, feasible xyz r scene q lam mu.
Definition solver_best xyz r scene (solver : option (bool * list (list R))) : Prop :=
  forall q q' lam mu, solver = Some (true, q) -> feasible xyz r scene q' lam mu -> objective q <= objective q'.
Lemma optimal_iff xyz r scene solver q : get_optimal_path xyz r scene solver = Ok (OptOk q) -> solver = Some (true, q).
Proof. unfold get_optimal_path. intros H. apply bind_Ok in H. destruct H as (cs & _ & H). destruct solver as [[[|] q']|]; try discriminate. congruence. Qed.
Lemma optimal_reported xyz r scene q cs : all_constraints xyz r scene (repeat (repeat 0 6) (length xyz)) (fun _ _ _ => []) (fun _ _ _ => []) = Ok cs ->
  get_optimal_path xyz r scene (Some (true, q)) = Ok (OptOk q) /\ get_optimal_path xyz r scene (Some (false, q)) = Ok OptFail /\ get_optimal_path xyz r scene None = Raise GenericException.
Proof. intros E. unfold get_optimal_path. rewrite E. repeat split. Qed.
Lemma optimal_returned xyz r scene solver q : good r -> revolute r -> rigid (r_tfb r) -> Forall one_box (r_links r) -> Forall (fun l => sized_coll (l_geom l)) (r_links r) -> proper_scene scene -> sized_coll scene ->
  (1 <= ndof r)%nat -> solver_sound xyz r (Some scene) solver -> get_optimal_path xyz r (Some scene) solver = Ok (OptOk q) ->
  Forall (fun row => length row = 6%nat) q /\ Forall2 (at_point r) xyz q /\ Forall (clear_pose r scene) q.
Proof.
  intros G V HB H1 HS HP SS Hn S H. apply optimal_iff in H. apply S in H. apply (feasible_exact xyz r scene q); auto.
Qed.
Lemma optimal_least xyz r scene solver q q' : good r -> revolute r -> rigid (r_tfb r) -> Forall one_box (r_links r) -> Forall (fun l => sized_coll (l_geom l)) (r_links r) -> proper_scene scene -> sized_coll scene ->
  (1 <= ndof r)%nat -> solver_best xyz r (Some scene) solver -> get_optimal_path xyz r (Some scene) solver = Ok (OptOk q) ->
  Forall (fun row => length row = 6%nat) q' -> Forall2 (at_point r) xyz q' -> Forall (clear_pose r scene) q' -> objective q <= objective q'.
Proof.
  intros G V HB H1 HS HP SS Hn S H A B C. apply optimal_iff in H. destruct (proj2 (feasible_exact xyz r scene q' G V HB H1 HS HP SS Hn) (conj A (conj B C))) as (lam & mu & F). eapply S; eauto.
Qed.
Lemma optimal_no_scene xyz r solver q : good r -> revolute r -> solver_sound xyz r None solver -> get_optimal_path xyz r None solver = Ok (OptOk q) ->
  Forall (fun row => length row = 6%nat) q /\ Forall2 (at_point r) xyz q.
Proof.
  intros G V S H. apply optimal_iff in H. apply S in H. destruct H as (lam & mu & F). pose proof F as (L & R6 & _). split; auto.
  pose proof (feasible_path _ _ _ _ _ _ G V F) as P. apply Forall2_nth_error_intro; auto.
  intros k p qk Ep Eq. destruct (P k p Ep) as (qk' & T & x & y & z & rest & E1 & E2 & -> & E4). assert (qk' = qk) by congruence. subst qk'. exists T, rest. rewrite E4. auto.
Qed.
