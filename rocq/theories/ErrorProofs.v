(** * What the functions do with malformed input. *)
From Coq Require Import String Reals Lra Lia List Bool Arith ZArith.
From Verif Require Import PyBase Cost GraphCommon PyGraph PyCost Dp Mat Util Geometry GeometryProofs Robot RobotProofs FloatFk Path Planning Io Plot Gui.
From Verif Require Urdf.
Import ListNotations.
Local Open Scope R_scope.

(** ** path.py *)
Lemma to_frame_short p : (length p < 6)%nat -> point_to_frame p = Raise (if (length p =? 0)%nat || (length p =? 2)%nat then ValueError else IndexError).
Proof. intros L. destruct p as [|? [|? [|? [|? [|? [|]]]]]]; cbn in *; try reflexivity. lia. Qed.
Lemma to_frame_long x y z a b c p : point_to_frame (x :: y :: z :: a :: b :: c :: p) = Ok (M4 (mmul (rot_x a) (mmul (rot_y b) (rot_z c))) (V3 x y z) v0 1).
Proof. reflexivity. Qed.
Lemma tolerance_short l : (length l < 3)%nat -> check_for_tolerance l = Raise IndexError.
Proof. intros L. destruct l as [|? [|? [|]]]; cbn in *; try reflexivity. lia. Qed.
Lemma tolerance_long l : (3 <= length l)%nat -> check_for_tolerance l = Ok (map has_tol l, map nominal_of (firstn 3 l)).
Proof. intros L. destruct l as [|? [|? [|]]]; cbn in *; try lia. reflexivity. Qed.

(** ** io.py *)
Lemma assoc_missing k l : ~ In k (map fst l) -> assoc k l = Raise KeyError.
Proof.
  induction l as [|[k' v] l IH]; intros N; [reflexivity|]. cbn [map fst] in N. cbn [assoc]. destruct (String.eqb_spec k k') as [->|]; [destruct N; left; auto|].
  apply IH. intros I. apply N. right. auto.
Qed.
Lemma assoc_first k v l1 l2 : ~ In k (map fst l1) -> assoc k (l1 ++ (k, v) :: l2) = Ok v.
Proof.
  induction l1 as [|[k' w] l1 IH]; intros N; cbn [app assoc]; [rewrite String.eqb_refl; reflexivity|]. cbn [map fst] in N.
  destruct (String.eqb_spec k k') as [->|]; [destruct N; left; auto|]. apply IH. intros I. apply N. right. auto.
Qed.
Lemma no_path l : ~ In "path"%string (map fst l) -> parse_path (JObj l) = Raise KeyError /\ parse_task_data (JObj l) = Raise KeyError.
Proof. intros N. unfold parse_task_data, parse_path. cbn [getitem]. rewrite assoc_missing by auto. split; reflexivity. Qed.
Lemma no_obstacles l : ~ In "obstacles"%string (map fst l) -> parse_obstacles (JObj l) = Raise KeyError.
Proof. intros N. unfold parse_obstacles. cbn [getitem]. rewrite assoc_missing by auto. reflexivity. Qed.
Lemma no_paths l : ~ In "paths"%string (map fst l) -> import_paths (JObj l) = Raise KeyError.
Proof. intros N. unfold import_paths. cbn [getitem]. rewrite assoc_missing by auto. reflexivity. Qed.
Definition is_obj (j : json) : Prop := exists l, j = JObj l.
Lemma no_object j : ~ is_obj j -> parse_path j = Raise TypeError /\ parse_obstacles j = Raise TypeError /\ import_paths j = Raise TypeError.
Proof. intros N. destruct j; try (repeat split; reflexivity). destruct N. eexists. reflexivity. Qed.
Definition scalar (j : json) : Prop := match j with JInt _ | JFloat _ | JNull => True | _ => False end.
Lemma scalar_list j l1 l2 : scalar j ->
  (~ In "obstacles"%string (map fst l1) -> parse_obstacles (JObj (l1 ++ ("obstacles"%string, j) :: l2)) = Raise TypeError) /\
  (~ In "paths"%string (map fst l1) -> import_paths (JObj (l1 ++ ("paths"%string, j) :: l2)) = Raise TypeError).
Proof.
  intros S. split; intros N; [unfold parse_obstacles|unfold import_paths]; cbn [getitem]; rewrite assoc_first by auto; destruct j; try destruct S; reflexivity.
Qed.
(** a closed figure with a negative number of points *)
Lemma circle_negative e c s n : norm2 e <> 0 -> (n < 0)%Z ->
  create_circle (JList (map JFloat (vlist c))) (JList (map JFloat (vlist s))) (JList (map JFloat (vlist e))) (JInt n) = Raise ValueError.
Proof.
  intros N0 Hn. unfold create_circle. cbn [vlist map nums mapM num_of bind fold_right bcast2 length Nat.eqb combine int_of fst snd].
  destruct (Req_EM_T _ 0) as [Z|_].
  - exfalso. apply N0. apply sqrt_eq_0 in Z; unfold norm2, vdot; [lra|]. pose proof (Rle_0_sqr (vx e)). pose proof (Rle_0_sqr (vy e)). pose proof (Rle_0_sqr (vz e)). unfold Rsqr in *. lra.
  - apply Z.ltb_lt in Hn. rewrite Hn. reflexivity.
Qed.
Lemma line_negative l1 l2 p e n : ~ In "xyz"%string (map fst l1) -> (n < 0)%Z ->
  create_line (JObj (l1 ++ ("xyz"%string, JList (map JFloat (vlist p))) :: l2)) (JList (map JFloat (vlist e))) (JInt n) = Raise ValueError.
Proof.
  intros N Hn. unfold create_line. cbn [getitem]. rewrite assoc_first by auto. cbn [vlist map nums mapM num_of bind int_of]. apply Z.ltb_lt in Hn. rewrite Hn. reflexivity.
Qed.

(** ** pygraph.py and dp.py *)
Lemma cost_shapes u v : py_cost u v = Raise ValueError <-> length u <> length v.
Proof. unfold py_cost, np_dot. destruct (Nat.eqb_spec (length u) (length v)) as [E|E]; cbn [bind]; split; try congruence. Qed.
Lemma cost_shapes_ok u v : length u = length v -> py_cost u v = Ok (arc_cost u v).
Proof. intros E. unfold py_cost, np_dot. rewrite E, Nat.eqb_refl. reflexivity. Qed.
Section Graph.
Context {K : CostStruct} {D : Type}.
Lemma start_outside cost (g : @PyGraph.graph K D) mc start : (length (g_na g) <= start)%nat -> run_multi_source_bfs cost mc start g = Raise IndexError.
Proof.
  intros L. unfold run_multi_source_bfs. assert (E : nth_error (map (map reset_node) (g_na g)) start = None) by (apply nth_error_None; rewrite map_length; auto).
  unfold PyGraph.reset. cbn [g_na]. rewrite E. reflexivity.
Qed.
Lemma target_outside (g : @PyGraph.graph K D) t : (length (g_na g) <= t)%nat -> get_path (Some t) g = Raise IndexError.
Proof. intros L. unfold get_path. cbn [bind]. apply nth_error_None in L. rewrite L. reflexivity. Qed.
Lemma path_data : forall pi (data : list (list D)),
  (exists l, path_index_to_path pi data = Ok l /\ Forall2 (fun p xc => nth_error (snd xc) p = Some (fst xc)) pi (combine l data) /\ length l = length pi) \/
  path_index_to_path pi data = Raise IndexError /\ exists k p, nth_error pi k = Some p /\ forall col, nth_error data k = Some col -> (length col <= p)%nat.
Proof.
  induction pi as [|p pi IH]; intros data; [left; exists []; repeat split; constructor|]. cbn [path_index_to_path].
  destruct data as [|col data]; [right; split; [reflexivity|]; exists 0%nat, p; split; [reflexivity|]; intros c; discriminate|].
  unfold py_index. destruct (nth_error col p) as [x|] eqn:E; cbn [bind].
  - destruct (IH data) as [(l & El & F & L)|(Er & k & q & Hq & Hc)].
    + left. rewrite El. cbn [bind]. exists (x :: l). split; [reflexivity|]. split; [constructor; auto|cbn; auto].
    + right. rewrite Er. split; [reflexivity|]. exists (S k), q. split; auto.
  - right. split; [reflexivity|]. exists 0%nat, p. split; [reflexivity|]. intros c [= <-]. apply nth_error_None. auto.
Qed.
Lemma extract_short : forall (data : list (list D)) v_ind i, (length v_ind < length data)%nat -> extract_loop data v_ind i = Raise IndexError.
Proof.
  induction data as [|col data IH]; intros vi i L; [cbn in L; lia|]. cbn [extract_loop]. unfold py_index. destruct (nth_error col i); cbn [bind]; [|reflexivity].
  destruct vi as [|v vi]; [reflexivity|]. destruct (nth_error v i); cbn [bind]; [|reflexivity]. rewrite IH by (cbn in L; lia). reflexivity.
Qed.
End Graph.

(** ** planning.py: np.vstack *)
Lemma pack_spec {F} (to32 : F -> F) q qs :
  (Forall (fun q' => length q' = length q) qs -> pack to32 (q :: qs) = Ok (QArr F32 (length q) (map (map to32) (q :: qs)))) /\
  (~ Forall (fun q' => length q' = length q) qs -> pack to32 (q :: qs) = Raise ValueError).
Proof.
  unfold pack. destruct (forallb _ (q :: qs)) eqn:E; cbn [forallb] in E; apply andb_true_iff in E || rewrite Nat.eqb_refl in E; split; intros H; try reflexivity.
  - exfalso. apply H. apply Forall_forall. intros x I. destruct E as [_ E]. rewrite forallb_forall in E. apply Nat.eqb_eq, E. auto.
  - exfalso. cbn [andb] in E. rewrite Forall_forall in H. assert (T : forallb (fun q' => (length q' =? length q)%nat) qs = true) by (apply forallb_forall; intros x I; apply Nat.eqb_eq; auto). congruence.
Qed.

(** ** geometry.py *)
Lemma multi_spec s others : shape_collision_multi s others = match others with [] => Ok false | _ => Raise TypeError end.
Proof. reflexivity. Qed.

(** ** robot.py with rounded arithmetic *)
Definition all_joints (ls : list link) : Prop := Forall (fun l => l_jt l <> JOther) ls.
Lemma flink_ok A l q : l_jt l <> JOther -> exists l' T, flink_transform A l q = (l', Ok T).
Proof. intros N. unfold flink_transform. destruct (l_jt l); try (eexists; eexists; reflexivity). congruence. Qed.
Lemma floop_short A : forall ls q T, all_joints ls -> (length q < length ls)%nat -> snd (ffk_loop A ls q T) = Raise IndexError /\ snd (fframes_loop A ls q T) = Raise IndexError.
Proof.
  induction ls as [|l ls IH]; intros q T H L; [cbn in L; lia|]. cbn [ffk_loop fframes_loop]. destruct q as [|qi q]; [split; reflexivity|].
  inversion H as [|? ? Hl Hs]; subst. destruct (flink_ok A l qi Hl) as (l' & Ti & ->). destruct (IH q (fmul A T Ti) Hs ltac:(cbn in L; lia)) as [E1 E2].
  destruct (ffk_loop A ls q (fmul A T Ti)) as [ls1 r1]. destruct (fframes_loop A ls q (fmul A T Ti)) as [ls2 r2]. cbn [snd] in *. subst. split; reflexivity.
Qed.
(** an unknown joint type stops both loops unless the values run out before *)
Lemma floop_unknown A : forall ls q T k l, nth_error ls k = Some l -> l_jt l = JOther -> all_joints (firstn k ls) -> (k < length q)%nat ->
  snd (ffk_loop A ls q T) = Raise UnboundLocalError /\ snd (fframes_loop A ls q T) = Raise UnboundLocalError.
Proof.
  induction ls as [|l0 ls IH]; intros q T k l E J H L; [destruct k; discriminate|]. destruct q as [|qi q]; [cbn in L; lia|]. cbn [ffk_loop fframes_loop]. destruct k as [|k].
  - injection E as ->. unfold flink_transform. rewrite J. split; reflexivity.
  - cbn [nth_error firstn length] in *. inversion H as [|? ? Hl Hs]; subst. destruct (flink_ok A l0 qi Hl) as (l' & Ti & ->). destruct (IH q (fmul A T Ti) k l E J Hs ltac:(lia)) as [E1 E2].
    destruct (ffk_loop A ls q (fmul A T Ti)) as [ls1 r1]. destruct (fframes_loop A ls q (fmul A T Ti)) as [ls2 r2]. cbn [snd] in *. subst. split; reflexivity.
Qed.
Lemma ffk_short A r q : joints_ok r -> (length q < ndof r)%nat -> snd (ffk A r q) = Raise IndexError /\ snd (ffk_all_links A r q) = Raise IndexError.
Proof.
  intros J L. destruct (floop_short A (r_links r) q (r_tfb r) J L) as [E1 E2]. unfold ffk, ffk_all_links. destruct (ffk_loop _ _ _ _), (fframes_loop _ _ _ _). cbn [snd] in *. subst. split; reflexivity.
Qed.
Lemma ffk_unknown A r q k l : nth_error (r_links r) k = Some l -> l_jt l = JOther -> all_joints (firstn k (r_links r)) -> (k < length q)%nat ->
  snd (ffk A r q) = Raise UnboundLocalError /\ snd (ffk_all_links A r q) = Raise UnboundLocalError.
Proof.
  intros E J H L. destruct (floop_unknown A _ q (r_tfb r) k l E J H L) as [E1 E2]. unfold ffk, ffk_all_links. destruct (ffk_loop _ _ _ _), (fframes_loop _ _ _ _). cbn [snd] in *. subst. split; reflexivity.
Qed.

(** ** robot.py: plotting a path stops at the first configuration that cannot be drawn *)
Fixpoint after (r : robot) (qs : list (list R)) : robot := match qs with [] => r | q :: qs' => after (fst (robot_plot r q)) qs' end.
Lemma plot_stops : forall qs r q rest e, snd (robot_plot (after r qs) q) = Raise e -> (forall k q', nth_error qs k = Some q' -> exists ls, snd (robot_plot (after r (firstn k qs)) q') = Ok ls) ->
  snd (plot_path r (qs ++ q :: rest)) = Raise e.
Proof.
  induction qs as [|q0 qs IH]; intros r q rest e E H; cbn [app plot_path].
  - cbn [after] in E. destruct (robot_plot r q) as [r1 x]. cbn [snd] in *. subst. reflexivity.
  - destruct (H 0%nat q0 eq_refl) as (ls & E0). pose proof (fun k q' (Hk : nth_error qs k = Some q') => H (S k) q' Hk) as H'. cbn [firstn after] in *. destruct (robot_plot r q0) as [r1 x]. cbn [fst snd] in *. subst x.
    specialize (IH r1 q rest e E H'). destruct (plot_path r1 (qs ++ q :: rest)) as [r2 ps]. cbn [snd] in *. subst. reflexivity.
Qed.

(** ** urdfio.py *)
Import Urdf.
Lemma read3_spec N s : (exists x y z, read3 N s = Ok (x, y, z) /\ map (read N) (tokens s "") = [Some x; Some y; Some z]) \/
  read3 N s = Raise ValueError /\ forall x y z, map (read N) (tokens s "") <> [Some x; Some y; Some z].
Proof.
  unfold read3. destruct (map (read N) (tokens s "")) as [|[x|] [|[y|] [|[z|] [|]]]]; try (right; split; [reflexivity|intros; discriminate]).
  left. exists x, y, z. split; reflexivity.
Qed.
(** links that are carried in a circle *)
Definition cyclic (js : list joint) (ring : list string) : Prop := forall s, In s ring -> exists j, In j js /\ j_child j = s /\ In (j_parent j) ring.
Lemma cyclic_height js ring : cyclic js ring -> forall k s, In s ring -> height_ok k js s = false.
Proof.
  intros C. induction k as [|k IH]; intros s I; [reflexivity|]. cbn [height_ok]. destruct (C s I) as (j & Ij & Ec & Ip).
  destruct (forallb _ js) eqn:E; auto. rewrite forallb_forall in E. specialize (E j Ij). cbv beta in E. rewrite Ec, String.eqb_refl, (IH _ Ip) in E. discriminate.
Qed.
Lemma cyclic_refused N d ring u : ring <> [] -> (forall s, In s ring -> In s (map l_name (d_links d))) -> cyclic (d_joints d) ring -> load N d <> Ok u.
Proof.
  intros Ne Hin C. unfold load. destruct (mapM (load_link N) _) as [ls| |]; cbn [bind]; try discriminate. destruct (mapM (load_joint N) _) as [js| |]; cbn [bind]; try discriminate.
  destruct (_ || _); try discriminate. destruct (negb (forallb (fun j => _) _)); try discriminate.
  destruct (forallb (height_ok _ _) _) eqn:E; cbn [negb]; try discriminate. exfalso. destruct ring as [|s ring]; [congruence|].
  rewrite forallb_forall in E. specialize (E s (Hin s (or_introl eq_refl))). rewrite (cyclic_height _ _ C) in E by (left; auto). discriminate.
Qed.

(** ** task_editor.py *)
Lemma no_nominal path p paths : In (PPos p) path -> Forall (fun tp => match tp with PEuler e => (6 <= length (e_nominal e))%nat | PFree x => (3 <= length x)%nat | PPos _ => True end) path ->
  drawn_frames (path :: paths) = Raise AttributeError.
Proof.
  intros I H. unfold drawn_frames. cbn [mapM]. assert (E : mapM (fun tp => p0 <- p_nominal tp ;; point_to_frame p0) path = Raise AttributeError); [|rewrite E; reflexivity].
  induction path as [|tp path IH]; [destruct I|]. inversion H as [|? ? H1 H2]; subst. cbn [mapM].
  destruct tp as [x|p'|e]; cbn [p_nominal bind].
  - destruct x as [|x0 [|x1 [|x2 x]]]; cbn in H1; try lia. destruct I as [I|I]; [discriminate|]. cbn [app].
    destruct (x ++ [0; 0; 0]) as [|u [|v [|w l]]] eqn:E; try (apply (f_equal (@length R)) in E; rewrite app_length in E; cbn in E; lia).
    cbn [point_to_frame bind]. rewrite IH by auto. reflexivity.
  - reflexivity.
  - destruct I as [I|I]; [discriminate|]. destruct (e_nominal e) as [|u0 [|u1 [|u2 [|u3 [|u4 [|u5 l]]]]]]; cbn in H1; try lia. cbn [point_to_frame bind]. rewrite IH by auto. reflexivity.
Qed.
