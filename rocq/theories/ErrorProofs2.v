(** * Exceptions of the planners, the graph, the URDF reader and the path points. *)
From Coq Require Import String Reals Lra Lia List Bool Arith ZArith.
From Verif Require Import PyBase Cost GraphCommon CppGraph CppGraphProofs Mat Util Geometry GeometryProofs Robot RobotProofs Ik Path Planning Optim OptimProofs Pipeline Resources Gui PathProofs PlanningProofs UrdfProofs ErrorProofs.
From Verif Require Urdf Io.
Import ListNotations.
Local Open Scope R_scope.

(** ** path.py *)
Lemma tolerance_flags l b n : check_for_tolerance l = Ok (b, n) -> Forall2 (fun v f => f = true <-> exists t, v = Tol t) l b.
Proof.
  intros E. assert (b = map has_tol l) by (destruct l as [|? [|? [|]]]; cbn in E; try discriminate; injection E as <- _; reflexivity). subst b. clear E.
  induction l as [|v l IH]; cbn [map]; constructor; auto. destruct v; cbn; split; try discriminate; eauto. intros (t & E). discriminate.
Qed.
Lemma axis_position p ax t q : norm2 ax <> 0 -> (1 <= t_samples t)%Z -> length p <> 1%nat -> length p <> 3%nat -> axis_samples (AxisPt p ax t q) = Raise ValueError.
Proof.
  intros Hn Ht L1 L3. unfold axis_samples. cbn [a_angle a_axis a_quat a_pos].
  assert (E : exists x l, tol_discretise t = Ok (x :: l)).
  { unfold tol_discretise. destruct (Z.ltb_spec (t_samples t) 0) as [Z|_]; [lia|]. destruct (linspace _ _ _) as [|x l] eqn:E; [|eauto]. apply (f_equal (@length R)) in E. rewrite linspace_length in E. cbn in E. lia. }
  destruct E as (x & l & ->). cbn [bind mapM]. unfold quat_axis_angle at 1. destruct (Req_EM_T (norm2 ax) 0) as [Z|_]; [contradiction|]. cbn [bind].
  assert (S : forall T, set_pos T p = Raise ValueError) by (intros T; destruct p as [|? [|? [|? [|]]]]; cbn in *; try reflexivity; lia).
  rewrite S. reflexivity.
Qed.

(** ** planning.py *)
Section Columns.
Context {K : CostStruct} {F : Type}.
Lemma add_mixed n c : forall data (g : cgraph K F), uniform n data -> Forall (fun col => col <> []) data -> qlen c <> 0%nat -> (forall nc rows, c <> QArr F32 nc rows) ->
  forall rest, add_columns (arrays F32 n data ++ c :: rest) g = Raise TypeError.
Proof.
  intros data g U Ne Hc H32 rest. revert g. induction data as [|rows data IH]; intros g.
  - cbn [arrays map app add_columns]. destruct (Nat.eqb_spec (qlen c) 0) as [Z|_]; [contradiction|]. destruct c as [[|] nc rows|]; try reflexivity. destruct (H32 nc rows eq_refl).
  - inversion U; subst. inversion Ne; subst. cbn [arrays map app add_columns qlen]. destruct (Nat.eqb_spec (length rows) 0) as [Z|_]; [destruct rows; [contradiction|discriminate]|].
    rewrite add_rows_ok by auto. cbn [bind]. apply IH; auto.
Qed.
Lemma mixed_types (f1 : F) (sq_acc : K -> F -> F -> F -> K) pq to32 n rows data c rest method ow : uniform n (rows :: data) -> Forall (fun col => col <> []) (rows :: data) ->
  qlen c <> 0%nat -> (forall nc rows, c <> QArr F32 nc rows) ->
  get_shortest_path f1 sq_acc pq to32 (arrays F32 n (rows :: data) ++ c :: rest) method ow = Raise TypeError.
Proof.
  intros U Ne Hc H32. unfold get_shortest_path. cbn [arrays map app check_dtype bind]. change (QArr F32 n rows :: map (QArr F32 n) data ++ c :: rest) with (arrays F32 n (rows :: data) ++ c :: rest).
  rewrite (add_mixed n) by auto. reflexivity.
Qed.
End Columns.
Lemma resample_classes {F T P D} (fk : list F -> res T) (tol : T -> P) (halve : D -> D) (sp : spoint) q : sp_class sp <> CFree ->
  resample fk tol halve sp q = Raise (match sp_class sp with CTolPos => NameError | _ => ValueError end).
Proof. unfold resample. destruct (sp_class sp); intros N; try reflexivity. contradiction. Qed.

(** ** graph.cpp *)
Lemma cost2_short {K : CostStruct} {F} (sq_acc : K -> F -> F -> F -> K) w n1 n2 :
  cost2 sq_acc w n1 n2 = Raise OutOfBounds <-> (length w < length n1)%nat \/ (length n2 < length n1)%nat.
Proof.
  unfold cost2. generalize (@czero K). revert w n2. induction n1 as [|x n1 IH]; intros w n2 acc; [destruct w; cbn [cost2_loop length]; (split; [discriminate|lia])|].
  destruct w as [|wi w]; [split; [cbn; lia|reflexivity]|]. destruct n2 as [|y n2]; [split; [cbn; lia|reflexivity]|]. cbn [cost2_loop]. rewrite IH. cbn [length]. lia.
Qed.
Lemma empty_graph {K : CostStruct} {F} (sq_acc : K -> F -> F -> F -> K) (g : cgraph K F) : na g = [] -> creset g = Raise OutOfBounds /\ run_bfs sq_acc g = Raise OutOfBounds.
Proof. intros E. unfold creset, run_bfs. rewrite E. split; reflexivity. Qed.

(** ** robots whose inverse kinematics raises *)
Section Ik.
Context {O : Type} (get : O -> robot) (put : O -> robot -> O) (prim : shape -> mat3 -> vec3 -> shape -> mat3 -> vec3 -> bool) (to32 : R -> R).
Lemma grid_raises ik samples scene tp path T Ts o e : samples tp = Ok (T :: Ts) -> snd (ik o T) = Raise e ->
  snd (grid_columns get put prim to32 ik samples scene (tp :: path) o) = Raise e.
Proof. intros E1 E2. cbn [grid_columns]. rewrite E1. cbn [solve_frames]. destruct (ik o T) as [o' r]. cbn [snd] in E2. subst r. reflexivity. Qed.
Lemma simple_raises ik disc scene tp path T Ts g qf o l e : disc tp = Ok (AFrame T :: Ts) -> snd (ik o T g) = Raise e ->
  snd (simple_columns get put prim to32 ik disc scene (tp :: path) (g :: qf) o l) = Raise e.
Proof. intros E1 E2. cbn [simple_columns]. rewrite E1. cbn [simple_frames solve_fixed]. destruct (ik o T g) as [o' r]. cbn [snd] in E2. subst r. reflexivity. Qed.
Lemma no_scene_raises call q qs : snd call = Ok (Some (q :: qs)) -> snd (no_scene get put call) = Raise AttributeError.
Proof. destruct call as [o r]. cbn [snd]. intros ->. reflexivity. Qed.
Context (ik6 : O -> mat4 -> O * res (option (list (list R)))) (ik7 : O -> mat4 -> R -> O * res (option (list (list R)))).
Context {K : CostStruct} (sq_acc : K -> R -> R -> R -> K) (pq : pqueue K R) (ypr : quat -> vec3) (fuel : nat) (scene_at : string -> res coll) (paths_at : string -> res (list (list Io.ppt))).
Notation step_ := (step get put ik6 ik7 prim to32 sq_acc pq ypr fuel scene_at paths_at).
Lemma plan_unloaded e draws tp path T Ts q qs : e_scene e = None -> (ndof (get (e_robot e)) <= 6)%nat -> as_path draws (e_path e) = tp :: path -> pt_samples ypr fuel 1000 tp = Ok (T :: Ts) ->
  snd (ik6 (e_robot e) T) = Ok (Some (q :: qs)) -> snd (step_ e (Plan draws)) = Raise AttributeError.
Proof.
  intros Z N A S I. cbn [step]. unfold plan. cbn [log e_robot e_scene e_path]. rewrite Z, A.
  assert (C : snd (columns get put ik6 ik7 prim to32 ypr fuel (e_robot e) None (tp :: path)) = Raise AttributeError).
  { unfold columns. destruct (6 <? ndof (get (e_robot e)))%nat eqn:B; [apply Nat.ltb_lt in B; lia|]. eapply grid_raises; [exact S|]. eapply no_scene_raises. exact I. }
  destruct (columns get put ik6 ik7 prim to32 ypr fuel (e_robot e) None (tp :: path)) as [o r]. cbn [snd] in C. subst r. reflexivity.
Qed.
End Ik.
Lemma kuka_short k T : (length (r_links (k_rob k)) < 6)%nat -> kuka_ik k T = (k, Raise IndexError).
Proof.
  intros L. unfold kuka_ik, kuka_target, py_index. destruct (nth_error (r_links (k_rob k)) 5) eqn:E; [|reflexivity]. assert (5 < length (r_links (k_rob k)))%nat by (apply nth_error_Some; congruence). lia.
Qed.

(** ** optimization.py *)
Lemma feasible_alone xyz r q lam mu : good r -> revolute r ->
  feasible xyz r None q lam mu <-> length q = length xyz /\ Forall (fun row => length row = 6%nat) q /\
  forall k p, nth_error xyz k = Some p -> exists qk T x y z rest, nth_error q k = Some qk /\ snd (fk r qk) = Ok T /\ p = x :: y :: z :: rest /\ pos T = V3 x y z.
Proof.
  intros G V. split.
  - intros F. pose proof (feasible_path _ _ _ _ _ _ G V F). destruct F as (A & B & _). auto.
  - intros (A & B & C). split; auto. split; auto. unfold all_constraints. cbn [bind].
    assert (D : forall l, (forall k, In k l -> (k < length xyz)%nat) -> exists pc, mapM (fun i => p <- py_index xyz i ;; qi <- py_index q i ;; path_constraint r p qi) l = Ok pc /\ Forall (fun c => c) (concat pc)).
    { induction l as [|k l IH]; intros Hl; [exists []; split; [reflexivity|constructor]|]. destruct IH as (pc & E & F); [intros; apply Hl; right; auto|].
      assert (Hk := Hl k (or_introl eq_refl)). destruct (nth_error xyz k) as [p|] eqn:Ep; [|apply nth_error_None in Ep; lia]. destruct (C k p Ep) as (qk & T & x & y & z & rest & Eq & Ef & -> & P).
      cbn [mapM]. unfold py_index at 1 2. rewrite Ep, Eq. cbn [bind]. unfold path_constraint at 1. rewrite fk_casadi_agree, Ef by auto. cbn [bind py_index nth_error]. rewrite E. cbn [bind]. eexists. split; [reflexivity|].
      cbn [concat app]. rewrite P. cbn [vx vy vz]. repeat (apply Forall_cons; [reflexivity|]). exact F. }
    destruct (D (seq 0 (length xyz))) as (pc & E & F); [intros k I; apply in_seq in I; lia|]. rewrite E. cbn [bind]. eexists. split; [reflexivity|exact F].
Qed.

Lemma rail_short rl T q0 : r_links (rl_rob rl) = [] -> rail_ik rl T q0 = (rl, Raise IndexError).
Proof. intros E. unfold rail_ik. rewrite E. reflexivity. Qed.

(** ** urdfio.py *)
Lemma mapM_only {A B} (f : A -> res B) e l : (forall x, In x l -> (exists y, f x = Ok y) \/ f x = Raise e) -> (exists m, mapM f l = Ok m) \/ mapM f l = Raise e.
Proof.
  induction l as [|x l IH]; intros H; [left; exists []; reflexivity|]. cbn [mapM]. destruct (H x (or_introl eq_refl)) as [[y ->]| ->]; [|right; reflexivity]. cbn [bind].
  destruct IH as [[m ->]| ->]; [intros; apply H; right; auto|left; eexists; reflexivity|right; reflexivity].
Qed.
Section Urdf.
Context (N : Urdf.numbers).
Lemma read3_only s : (exists p, Urdf.read3 N s = Ok p) \/ Urdf.read3 N s = Raise ValueError.
Proof. unfold Urdf.read3. destruct (map _ _) as [|[x|] [|[y|] [|[z|] [|]]]]; eauto. Qed.
Lemma origin_only x r : (exists T, Urdf.origin N x r = Ok T) \/ Urdf.origin N x r = Raise ValueError.
Proof. unfold Urdf.origin. destruct (read3_only x) as [[p ->]| ->]; [|right; reflexivity]. cbn [bind]. destruct (read3_only r) as [[a ->]| ->]; [left; eexists; reflexivity|right; reflexivity]. Qed.
Lemma coll_only c : (exists T, Urdf.load_coll N c = Ok T) \/ Urdf.load_coll N c = Raise ValueError.
Proof.
  unfold Urdf.load_coll. destruct (origin_only (Urdf.c_xyz c) (Urdf.c_rpy c)) as [[T ->]| ->]; [|right; reflexivity]. cbn [bind]. destruct (Urdf.c_geom c) as [s|]; [|left; eexists; reflexivity].
  destruct (read3_only s) as [[a ->]| ->]; [left; eexists; reflexivity|right; reflexivity].
Qed.
(** unique names, known ends and one base *)
Definition well_named (d : Urdf.doc) : Prop :=
  NoDup (map Urdf.l_name (Urdf.d_links d)) /\ NoDup (map Urdf.j_name (Urdf.d_joints d)) /\
  (forall j, In j (Urdf.d_joints d) -> In (Urdf.j_parent j) (map Urdf.l_name (Urdf.d_links d)) /\ In (Urdf.j_child j) (map Urdf.l_name (Urdf.d_links d))) /\
  exists base, In base (map Urdf.l_name (Urdf.d_links d)) /\ forall s, In s (map Urdf.l_name (Urdf.d_links d)) -> (~ In s (map Urdf.j_child (Urdf.d_joints d)) <-> s = base).
Lemma load_only d : (exists u, Urdf.load N d = Ok u) \/ Urdf.load N d = Raise ValueError.
Proof.
  unfold Urdf.load. destruct (mapM_only (Urdf.load_link N) ValueError (Urdf.d_links d)) as [[ls ->]| ->]; [| |right; reflexivity].
  { intros l _. unfold Urdf.load_link. destruct (mapM_only (Urdf.load_coll N) ValueError (Urdf.l_coll l)) as [[cs ->]| ->]; [intros; apply coll_only|left; eexists; reflexivity|right; reflexivity]. }
  cbn [bind]. destruct (mapM_only (Urdf.load_joint N) ValueError (Urdf.d_joints d)) as [[js ->]| ->]; [| |right; reflexivity].
  { intros j _. unfold Urdf.load_joint. destruct (origin_only (Urdf.j_xyz j) (Urdf.j_rpy j)) as [[T ->]| ->]; [left; eexists; reflexivity|right; reflexivity]. }
  cbn [bind]. destruct (_ || _); [right; reflexivity|]. destruct (negb _); [right; reflexivity|]. destruct (negb _); [right; reflexivity|].
  destruct (filter _ _) as [|b [|]]; [right; reflexivity|left; eexists; reflexivity|right; reflexivity].
Qed.
Lemma load_named d u : Urdf.load N d = Ok u -> well_named d.
Proof.
  unfold Urdf.load. destruct (mapM _ _) as [ls| |]; try discriminate. cbn [bind]. destruct (mapM _ _) as [js| |]; try discriminate. cbn [bind].
  destruct (Urdf.nodupb (map Urdf.l_name _)) eqn:B1; [|discriminate]. destruct (Urdf.nodupb (map Urdf.j_name _)) eqn:B2; [|discriminate]. cbn [negb orb].
  destruct (forallb (fun j => Urdf.mem (Urdf.j_parent j) _ && _) (Urdf.d_joints d)) eqn:B3; [|discriminate]. cbn [negb]. destruct (forallb (Urdf.height_ok _ _) _) eqn:B5; [|discriminate]. cbn [negb].
  destruct (filter _ _) as [|b [|]] eqn:B4; try discriminate. intros _. split; [apply UrdfProofs.nodupb_NoDup; auto|]. split; [apply UrdfProofs.nodupb_NoDup; auto|]. split.
  - rewrite forallb_forall in B3. intros j I. specialize (B3 j I). apply andb_true_iff in B3. rewrite !UrdfProofs.mem_In in B3. exact B3.
  - exists b. assert (Fb : forall s, In s [b] <-> In s (map Urdf.l_name (Urdf.d_links d)) /\ negb (Urdf.mem s (map Urdf.j_child (Urdf.d_joints d))) = true) by (intros s; rewrite <- B4; apply filter_In).
    split; [apply Fb; left; auto|]. intros s I. rewrite negb_involutive_reverse in *. split.
    + intros C. apply UrdfProofs.mem_notIn in C. assert (J : In s [b]) by (apply Fb; rewrite C; auto). destruct J as [<-|[]]. reflexivity.
    + intros ->. destruct (proj1 (Fb b) (or_introl eq_refl)) as [_ C]. apply negb_true_iff in C. apply UrdfProofs.mem_notIn. exact C.
Qed.
Lemma load_refused d : ~ well_named d -> Urdf.load N d = Raise ValueError.
Proof. intros W. destruct (load_only d) as [[u E]|E]; [|exact E]. destruct (W (load_named d u E)). Qed.
End Urdf.

(** ** io.py *)
Definition is_list (j : Io.json) : Prop := exists l, j = Io.JList l.
Lemma nums_only j : ~ is_list j -> Io.nums j = Raise TypeError.
Proof. destruct j; intros H; try reflexivity. destruct H. eexists. reflexivity. Qed.
Lemma circle_axis mid start axis n : ~ is_list axis -> Io.create_circle mid start axis n = Raise TypeError.
Proof. intros H. unfold Io.create_circle. rewrite nums_only by auto. reflexivity. Qed.
Lemma box_size l1 l2 j : ~ In "size"%string (map fst l1) -> ~ is_list j -> Io.create_box (Io.JObj (l1 ++ ("size"%string, j) :: l2)) = Raise TypeError.
Proof. intros H L. unfold Io.create_box. cbn [Io.getitem]; rewrite assoc_first by auto. cbn [bind]. rewrite nums_only by auto. reflexivity. Qed.
