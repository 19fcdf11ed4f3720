(** * Proofs about plotting. *)
From Coq Require Import Reals Lra List Bool Arith Lia.
From Verif Require Import PyBase Mat Util Geometry GeometryProofs Robot RobotProofs ResourcesProofs PipelineProofs Plot.
Import ListNotations.
Local Open Scope R_scope.

(** ** Specification *)
(** a box of the robot and where it is *)
Definition placed (r : robot) (q : list R) (s : shape) (T : mat4) : Prop :=
  (exists i l T0, nth_error (r_links r) i = Some l /\ member (l_geom l) s T0 /\ T = tmul (frame r q i) T0) \/
  (exists t tip T0, r_tool r = Some (t, tip) /\ member t s T0 /\ T = tmul (frame r q (ndof r - 1)) T0).
(** an edge of a box joins two neighbouring corners *)
Definition box_edge (s : shape) (T : mat4) (x y : vec3) : Prop := exists c c', neighbours c c' /\ x = tapply T (corner s c) /\ y = tapply T (corner s c').
(** the lines show exactly the edges of the boxes P *)
Definition shows (lines : list line) (P : shape -> mat4 -> Prop) : Prop :=
  (forall l, In l lines -> exists x y s T, l = Some (x, y) /\ P s T /\ box_edge s T x y) /\
  (forall s T x y, P s T -> box_edge s T x y -> In (Some (x, y)) lines \/ In (Some (y, x)) lines).

(** ** One box *)
Definition bpic (b : mat4 * shape) : list line := map Some (get_edges (snd b) (fst b)).
Lemma update_12 s l T : length l = 12%nat -> update_lines s l T = Ok (bpic (T, s)).
Proof. intros H. unfold update_lines. rewrite H. reflexivity. Qed.
Lemma neighbours_sym c c' : neighbours c c' -> neighbours c' c.
Proof. destruct c as [[a b] d], c' as [[a' b'] d']. cbn. intuition (subst; auto). Qed.
Lemma box_edge_sym s T x y : box_edge s T x y -> box_edge s T y x.
Proof. intros (c & c' & N & -> & ->). exists c', c. split; auto. apply neighbours_sym; auto. Qed.
Lemma bpic_shows b : shows (bpic b) (fun s T => b = (T, s)).
Proof.
  destruct b as [T s]. destruct (edges_spec s T) as (es & E & _ & _ & N & _). unfold bpic. cbn [fst snd]. rewrite E. split.
  - intros l Hl. apply in_map_iff in Hl. destruct Hl as (p & <- & Hp). apply in_map_iff in Hp. destruct Hp as ([c c'] & <- & Hc). cbn [fst snd].
    eexists _, _, s, T. split; [reflexivity|]. split; auto. exists c, c'. split; auto. apply N. auto.
  - intros s' T' x y Eb (c & c' & Nc & -> & ->). inversion Eb; subst. apply N in Nc. destruct Nc as [H|H]; [left|right]; apply in_map, in_map_iff; eexists; (split; [|exact H]; reflexivity).
Qed.
Definition pic (bs : list (mat4 * shape)) : list line := flat_map bpic bs.
Lemma pic_shows bs : shows (pic bs) (fun s T => In (T, s) bs).
Proof.
  split.
  - intros l Hl. apply in_flat_map in Hl. destruct Hl as (b & Hb & Hl). destruct (proj1 (bpic_shows b) l Hl) as (x & y & s & T & ? & -> & ?). eauto 8.
  - intros s T x y Hb He. destruct (proj2 (bpic_shows (T, s)) s T x y eq_refl He) as [H|H]; [left|right]; apply in_flat_map; eauto.
Qed.

(** ** Collections *)
Definition cboxes (c : coll) (o : option mat4) : list (mat4 * shape) := map (fun p => (place o (snd p), fst p)) (combine (c_s c) (c_tf c)).
Lemma mapM_pure {A B} (f : A -> res B) (g : A -> B) l : (forall x, In x l -> f x = Ok (g x)) -> mapM f l = Ok (map g l).
Proof. induction l as [|x l IH]; intros H; cbn; auto. rewrite H by (left; auto). cbn. rewrite IH by (intros; apply H; right; auto). reflexivity. Qed.
Lemma coll_plot_pic c o : coll_plot c o = Ok (pic (cboxes c o)).
Proof.
  unfold coll_plot. rewrite (mapM_pure _ (fun p => bpic (place o (snd p), fst p))).
  - cbn [bind]. unfold pic, cboxes. rewrite flat_map_concat_map, map_map. reflexivity.
  - intros p _. unfold shape_plot. rewrite update_12 by reflexivity. destruct o; reflexivity.
Qed.
Lemma in_combine_nth {A B} (l : list A) (l' : list B) x y : In (x, y) (combine l l') <-> exists i, nth_error l i = Some x /\ nth_error l' i = Some y.
Proof.
  revert l'. induction l as [|a l IH]; intros [|b l']; cbn.
  - split; [tauto|]. intros ([|i] & H & _); discriminate.
  - split; [tauto|]. intros ([|i] & H & _); discriminate.
  - split; [tauto|]. intros ([|i] & _ & H); discriminate.
  - rewrite IH. split.
    + intros [E|(i & H)]; [inversion E; subst; exists 0%nat; auto|exists (S i); auto].
    + intros ([|i] & H & H'); cbn in *; [inversion H; inversion H'; subst; auto|right; eauto].
Qed.
Lemma cboxes_in c o s T : In (T, s) (cboxes c o) <-> exists T0, member c s T0 /\ T = place o T0.
Proof.
  unfold cboxes, member. split.
  - intros H. apply in_map_iff in H. destruct H as ([s' T'] & E & H). inversion E; subst. apply in_combine_nth in H. destruct H as (i & ? & ?). eauto 6.
  - intros (T0 & (i & H & H') & ->). apply in_map_iff. exists (s, T0). split; auto. apply in_combine_nth. eauto.
Qed.

(** ** Robots *)
Definition rboxes (r : robot) (q : list R) : list (mat4 * shape) :=
  flat_map (fun p => cboxes (snd p) (Some (fst p))) (combine (map (frame r q) (seq 0 (ndof r))) (map l_geom (r_links r))) ++
  match r_tool r with Some (t, _) => cboxes t (Some (frame r q (ndof r - 1))) | None => [] end.
Lemma rboxes_in r q s T : In (T, s) (rboxes r q) <-> placed r q s T.
Proof.
  unfold rboxes, placed. rewrite in_app_iff. split.
  - intros [H|H]; [left|right].
    + apply in_flat_map in H. destruct H as ([F g] & H & H'). apply in_combine_nth in H. destruct H as (i & Hi & Hg). cbn [fst snd] in H'.
      apply cboxes_in in H'. destruct H' as (T0 & HT & ->). rewrite nth_error_map in Hg. destruct (nth_error (r_links r) i) as [l|] eqn:El; [|discriminate]. inversion Hg; subst g.
      apply nth_error_frames in Hi. destruct Hi as [_ ->]. exists i, l, T0. auto.
    + destruct (r_tool r) as [[t tip]|]; [|destruct H]. apply cboxes_in in H. destruct H as (T0 & H & ->). exists t, tip, T0. auto.
  - intros [(i & l & T0 & Hl & Hm & ->)|(t & tip & T0 & -> & Hm & ->)]; [left|right].
    + apply in_flat_map. exists (frame r q i, l_geom l). split.
      * apply in_combine_nth. exists i. split; [|rewrite nth_error_map, Hl; auto]. apply nth_error_frames. split; auto. apply nth_error_Some. congruence.
      * apply cboxes_in. eauto.
    + apply cboxes_in. eauto.
Qed.

(** the picture depends on the description of the robot only *)
Lemma geoms_reset r r' : reset r = reset r' -> map l_geom (r_links r) = map l_geom (r_links r').
Proof. intros H. apply (f_equal (fun x => map l_geom (r_links x))) in H. cbn in H. rewrite !map_map in H. exact H. Qed.
Lemma tool_reset r r' : reset r = reset r' -> r_tool r = r_tool r'.
Proof. intros H. apply (f_equal r_tool) in H. exact H. Qed.
Lemma ndof_reset r r' : reset r = reset r' -> ndof r = ndof r'.
Proof. intros H. apply geoms_reset in H. apply (f_equal (@length _)) in H. rewrite !map_length in H. exact H. Qed.

Definition base_pic (r : robot) : list line := match r_base r with Some b => pic (cboxes b None) | None => [] end.
Lemma pic_app l l' : pic (l ++ l') = pic l ++ pic l'.
Proof. unfold pic. apply flat_map_app. Qed.
Lemma last_frames (f : nat -> mat4) n : (1 <= n)%nat -> py_last (map f (seq 0 n)) = Ok (f (n - 1)%nat).
Proof. intros H. destruct n as [|n]; [lia|]. rewrite seq_S, map_app. unfold py_last. rewrite rev_app_distr. cbn [map rev app]. rewrite Nat.add_0_l. replace (S n - 1)%nat with n by lia. reflexivity. Qed.
Lemma robot_plot_pic r q : good r -> joints_ok r -> (1 <= ndof r <= length q)%nat -> snd (robot_plot r q) = Ok (base_pic r ++ pic (rboxes r q)).
Proof.
  intros G J L. unfold robot_plot. set (bp := match r_base r with Some b => coll_plot b None | None => Ok [] end).
  assert (Eb : bp = Ok (base_pic r)). { unfold bp, base_pic. destruct (r_base r); auto. apply coll_plot_pic. }
  rewrite Eb. destruct (frames_fst r q G) as [G1 Er]. pose proof (frames_ok r q G J ltac:(lia)) as Ef. destruct (fk_all_links r q) as [r1 fs]. cbn [fst snd] in *. rewrite Ef. cbn [bind].
  rewrite (mapM_pure _ (fun p => pic (cboxes (l_geom (snd p)) (Some (frame r q (fst p)))))).
  - cbn [bind]. rewrite (tool_reset _ _ Er).
    assert (Et : match r_tool r with Some (t, _) => tf <- py_last (map (frame r q) (seq 0 (ndof r))) ;; coll_plot t (Some tf) | None => Ok [] end =
      Ok (pic (match r_tool r with Some (t, _) => cboxes t (Some (frame r q (ndof r - 1))) | None => [] end))).
    { destruct (r_tool r) as [[t tip]|]; auto. rewrite last_frames by lia. cbn [bind]. apply coll_plot_pic. }
    rewrite Et. cbn [bind]. do 2 f_equal. unfold rboxes. rewrite pic_app. f_equal. rewrite (ndof_reset _ _ Er), <- (geoms_reset _ _ Er).
    rewrite <- flat_map_concat_map. unfold pic at 2. generalize (r_links r1) (seq 0 (ndof r)). intros ls is. revert is.
    induction ls as [|l ls IH]; intros [|i is]; cbn [combine map flat_map]; auto. rewrite flat_map_app. f_equal. apply IH.
  - intros [i l] Hp. cbn [fst snd]. apply in_combine_nth in Hp. destruct Hp as (k & Hk & Hl). assert (Hki : (k < ndof r1)%nat) by (apply nth_error_Some; congruence).
    rewrite (nth_error_nth' (seq 0 (ndof r1)) 0%nat) in Hk by (rewrite seq_length; auto). rewrite seq_nth in Hk by auto. inversion Hk; subst i. cbn [Nat.add].
    unfold py_index. rewrite (proj2 (nth_error_frames (frame r q) (ndof r) k (frame r q k))) by (rewrite <- (ndof_reset _ _ Er); auto). cbn [bind]. apply coll_plot_pic.
Qed.
Lemma base_pic_none r : r_base r = None -> base_pic r = [].
Proof. intros H. unfold base_pic. rewrite H. reflexivity. Qed.
Lemma robot_plot_shows r q : good r -> joints_ok r -> r_base r = None -> (1 <= ndof r <= length q)%nat -> exists lines, snd (robot_plot r q) = Ok lines /\ shows lines (placed r q).
Proof.
  intros G J B L. eexists. split; [apply robot_plot_pic; auto|]. rewrite base_pic_none by auto. cbn [app]. destruct (pic_shows (rboxes r q)) as [H1 H2]. split.
  - intros l Hl. destruct (H1 l Hl) as (x & y & s & T & ? & Hb & ?). exists x, y, s, T. split; [auto|]. split; [apply rboxes_in; auto|auto].
  - intros s T x y Hp. apply rboxes_in in Hp. exact (H2 s T x y Hp).
Qed.

(** ** Animation *)
Lemma foldM_map {A B S} (f : S -> B -> res S) (g : A -> B) l s : foldM (fun s x => f s (g x)) l s = foldM f (map g l) s.
Proof. revert s. induction l as [|x l IH]; intros s; cbn; auto. destruct (f s (g x)); cbn; auto. Qed.
Lemma foldM_app {A S} (f : S -> A -> res S) l l' s : foldM f (l ++ l') s = (s' <- foldM f l s ;; foldM f l' s').
Proof. revert s. induction l as [|x l IH]; intros s; cbn; auto. destruct (f s x); cbn; auto. Qed.
Lemma foldM_flat {A B S} (f : S -> B -> res S) (h : A -> list B) l s : foldM (fun s x => foldM f (h x) s) l s = foldM f (flat_map h l) s.
Proof. revert s. induction l as [|x l IH]; intros s; cbn; auto. rewrite foldM_app. destruct (foldM f (h x) s); cbn; auto. Qed.
Lemma foldM_ext {A S} (f g : S -> A -> res S) l s : (forall s x, In x l -> f s x = g s x) -> foldM f l s = foldM g l s.
Proof. revert s. induction l as [|x l IH]; intros s H; cbn; auto. rewrite H by (left; auto). destruct (g s x); cbn; auto. apply IH. intros; apply H; right; auto. Qed.
Lemma upd_app {A} (l : list A) x y l' : upd (l ++ x :: l') (length l) y = l ++ y :: l'.
Proof. induction l; cbn; auto. f_equal. auto. Qed.
Lemma anim_steps bs : forall pre lines post, length lines = length bs -> Forall (fun l => length l = 12%nat) lines ->
  foldM anim_step bs (length pre, pre ++ lines ++ post) = Ok (length pre + length bs, pre ++ map bpic bs ++ post)%nat.
Proof.
  induction bs as [|b bs IH]; intros pre lines post L F; destruct lines as [|l lines]; cbn in L; try discriminate.
  - cbn. rewrite Nat.add_0_r. reflexivity.
  - inversion F as [|? ? Hl Hls]; subst. cbn [foldM]. unfold anim_step at 1. unfold py_index. rewrite nth_error_app2, Nat.sub_diag by lia. cbn [nth_error app bind].
    rewrite update_12 by auto. cbn [bind]. rewrite upd_app. destruct b as [T s]. cbn [fst snd].
    specialize (IH (pre ++ [bpic (T, s)]) lines post ltac:(lia) Hls). rewrite app_length in IH. cbn [length] in IH. rewrite <- !app_assoc in IH. cbn [app] in IH.
    replace (S (length pre)) with (length pre + 1)%nat by lia. rewrite IH. cbn [length map app]. do 2 f_equal. lia.
Qed.
Lemma combine_swap {A B} (l : list A) (l' : list B) : combine l' l = map (fun p => (snd p, fst p)) (combine l l').
Proof. revert l'. induction l as [|x l IH]; intros [|y l']; cbn; auto. f_equal. auto. Qed.
Lemma cboxes_anim c T : map (fun b => (tmul T (fst b), snd b)) (combine (c_tf c) (c_s c)) = cboxes c (Some T).
Proof. rewrite combine_swap, map_map. reflexivity. Qed.
(** every shape has its transform *)
Definition paired (c : coll) : Prop := length (c_s c) = length (c_tf c).
Definition paired_robot (r : robot) : Prop := Forall (fun l => paired (l_geom l)) (r_links r) /\ forall t tip, r_tool r = Some (t, tip) -> paired t.
Lemma cboxes_length c o : paired c -> length (cboxes c o) = length (c_s c).
Proof. intros H. unfold cboxes. rewrite map_length, combine_length, <- H. lia. Qed.
Lemma links_boxes_length (f : nat -> mat4) ls : Forall (fun l => paired (l_geom l)) ls -> forall k,
  length (flat_map (fun p => cboxes (snd p) (Some (fst p))) (combine (map f (seq k (length ls))) (map l_geom ls))) =
  length (flat_map (fun l => map (fun _ => get_empty_lines) (c_s (l_geom l))) ls).
Proof.
  induction 1 as [|l ls Hl H IH]; intros k; cbn [length seq map combine flat_map]; auto. rewrite !app_length, IH, map_length. f_equal. apply cboxes_length. auto.
Qed.
Lemma rboxes_length r q : paired_robot r -> length (rboxes r q) = length (anim_lines r).
Proof.
  intros [H1 H2]. unfold rboxes, anim_lines. rewrite !app_length. f_equal.
  - apply links_boxes_length. auto.
  - destruct (r_tool r) as [[t tip]|]; auto. rewrite map_length. apply cboxes_length. eauto.
Qed.
Lemma anim_update_pic r q_path lines k q : good r -> joints_ok r -> paired_robot r -> nth_error q_path k = Some q -> (1 <= ndof r <= length q)%nat ->
  length lines = length (anim_lines r) -> Forall (fun l => length l = 12%nat) lines ->
  snd (anim_update r q_path lines k) = Ok (map bpic (rboxes r q)) /\ good (fst (anim_update r q_path lines k)) /\ reset (fst (anim_update r q_path lines k)) = reset r.
Proof.
  intros G J P Ek L Ll Fl. unfold anim_update, py_index. rewrite Ek. destruct (frames_fst r q G) as [G1 Er]. pose proof (frames_ok r q G J ltac:(lia)) as Ef.
  destruct (fk_all_links r q) as [r1 fs]. cbn [fst snd] in *. split; auto. rewrite Ef. cbn [bind].
  rewrite (foldM_ext _ (fun st p => foldM anim_step (cboxes (l_geom (snd p)) (Some (fst p))) st)).
  2: { intros st p _. rewrite (foldM_map anim_step (fun b => (tmul (fst p) (fst b), snd b))), cboxes_anim. reflexivity. }
  rewrite foldM_flat. rewrite (tool_reset _ _ Er).
  set (lb := flat_map (fun p : mat4 * coll => cboxes (snd p) (Some (fst p))) (combine (map (frame r q) (seq 0 (ndof r))) (map l_geom (r_links r)))).
  set (tb := match r_tool r with Some (t, _) => cboxes t (Some (frame r q (ndof r - 1))) | None => [] end).
  assert (Elb : flat_map (fun p => cboxes (l_geom (snd p)) (Some (fst p))) (combine (map (frame r q) (seq 0 (ndof r))) (r_links r1)) = lb).
  { unfold lb. rewrite <- (geoms_reset _ _ Er). generalize (r_links r1) (map (frame r q) (seq 0 (ndof r))). induction l as [|l ls IH]; intros [|T Ts]; cbn; auto. f_equal. apply IH. }
  rewrite Elb.
  assert (Etb : forall st, match r_tool r with Some (t, _) => foldM (fun st b => tf <- py_last (map (frame r q) (seq 0 (ndof r))) ;; anim_step st (tmul tf (fst b), snd b)) (combine (c_tf t) (c_s t)) st | None => Ok st end = foldM anim_step tb st).
  { intros st. unfold tb. destruct (r_tool r) as [[t tip]|]; auto. rewrite last_frames by lia. cbn [bind]. rewrite (foldM_map anim_step (fun b => (tmul (frame r q (ndof r - 1)) (fst b), snd b))), cboxes_anim. reflexivity. }
  assert (Ea : (st <- foldM anim_step lb (0%nat, lines) ;; foldM anim_step tb st) = Ok (length (lb ++ tb), map bpic (lb ++ tb))).
  { rewrite <- foldM_app. pose proof (anim_steps (lb ++ tb) [] lines []) as H. cbn [length app] in H. rewrite !app_nil_r in H. rewrite H; auto. rewrite Ll, <- (rboxes_length r q P). reflexivity. }
  destruct (foldM anim_step lb (0%nat, lines)) as [st|e|] eqn:E1; cbn [bind] in *; try discriminate. rewrite Etb, Ea. reflexivity.
Qed.
Lemma map_bpic_12 bs : Forall (fun l => length l = 12%nat) (map bpic bs).
Proof. apply Forall_map, Forall_forall. intros b _. reflexivity. Qed.
Lemma lspec_reset l q : lspec (reset_link l) q = lspec l q. Proof. destruct l. reflexivity. Qed.
Lemma frame_reset r r' q i : reset r = reset r' -> frame r q i = frame r' q i.
Proof.
  assert (H : forall r0, frame r0 q i = frame (reset r0) q i).
  { intros r0. unfold frame. cbn [reset r_links r_tfb]. generalize (r_tfb r0) (S i). clear i. revert q. induction (r_links r0) as [|l ls IH]; intros q T [|n]; cbn; auto. destruct q as [|x q]; cbn; auto. }
  intros E. rewrite H, E, <- H. reflexivity.
Qed.
Lemma joints_reset r r' : reset r = reset r' -> joints_ok r -> joints_ok r'.
Proof.
  intros E H. unfold joints_ok in *. apply (f_equal (fun x => map l_jt (r_links x))) in E. cbn in E. rewrite !map_map in E. cbn in E.
  rewrite Forall_forall in *. intros l Hl. apply (in_map (fun x => l_jt x)) in Hl. change (map (fun x => l_jt x) (r_links r')) with (map (fun x : link => l_jt x) (r_links r')) in Hl.
  rewrite <- E in Hl. apply in_map_iff in Hl. destruct Hl as (l0 & E0 & Hl0). rewrite <- E0. auto.
Qed.
Lemma paired_reset r r' : reset r = reset r' -> paired_robot r -> paired_robot r'.
Proof.
  intros E [H1 H2]. split.
  - apply geoms_reset in E. rewrite <- (Forall_map l_geom paired) in *. rewrite <- E. auto.
  - rewrite <- (tool_reset _ _ E). auto.
Qed.
Lemma rboxes_reset r r' q : reset r = reset r' -> rboxes r q = rboxes r' q.
Proof.
  intros E. unfold rboxes. rewrite (geoms_reset _ _ E), (tool_reset _ _ E), (ndof_reset _ _ E). f_equal.
  - erewrite (map_ext (frame r q)); [reflexivity|]. intros i. apply frame_reset. auto.
  - destruct (r_tool r') as [[t tip]|]; auto. rewrite (frame_reset r r') by auto. reflexivity.
Qed.
Lemma animate_pic q_path : forall frames r lines k0 q0, good r -> joints_ok r -> paired_robot r -> Forall (fun q => (1 <= ndof r <= length q)%nat) q_path ->
  length lines = length (anim_lines r) -> Forall (fun l => length l = 12%nat) lines ->
  Forall (fun k => (k < length q_path)%nat) (frames ++ [k0]) -> nth_error q_path k0 = Some q0 ->
  snd (animate r q_path (frames ++ [k0]) lines) = Ok (map bpic (rboxes r q0)).
Proof.
  induction frames as [|k frames IH]; intros r lines k0 q0 G J P L Ll Fl Fk E0; cbn [app animate].
  - destruct (anim_update_pic r q_path lines k0 q0) as (E & _ & _); auto. { rewrite Forall_forall in L. apply L. eapply nth_error_In; eauto. }
    destruct (anim_update r q_path lines k0). cbn [snd] in E. rewrite E. reflexivity.
  - cbn [app] in Fk. inversion Fk as [|? ? Hk Hks]; subst. destruct (nth_error q_path k) as [q|] eqn:Eq; [|apply nth_error_None in Eq; lia].
    destruct (anim_update_pic r q_path lines k q) as (E & G1 & Er); auto. { rewrite Forall_forall in L. apply L. eapply nth_error_In; eauto. }
    destruct (anim_update r q_path lines k) as [r1 res]. cbn [fst snd] in *. rewrite E. rewrite <- (rboxes_reset r1 r q0) by auto. apply IH; auto.
    + apply (joints_reset r); auto.
    + apply (paired_reset r); auto.
    + rewrite (ndof_reset _ _ Er). auto.
    + rewrite map_length, <- (rboxes_reset r1 r) by auto. apply rboxes_length. apply (paired_reset r); auto.
    + apply map_bpic_12.
Qed.
Definition no_base (r : robot) : robot := Rb (r_links r) (r_limits r) None (r_tool r) (r_tfb r) (r_mat r) (r_self r) (r_prio r).
Lemma anim_lines_12 r : Forall (fun l => length l = 12%nat) (anim_lines r).
Proof.
  unfold anim_lines. apply Forall_app. split.
  - apply Forall_forall. intros l H. apply in_flat_map in H. destruct H as (k & _ & H). apply in_map_iff in H. destruct H as (? & <- & _). reflexivity.
  - destruct (r_tool r) as [[t tip]|]; auto. apply Forall_map, Forall_forall. reflexivity.
Qed.
(** the frame shown is the robot without its base *)
Lemma animate_frame r q_path frames k q : good r -> joints_ok r -> paired_robot r -> Forall (fun q => (1 <= ndof r <= length q)%nat) q_path ->
  Forall (fun k => (k < length q_path)%nat) (frames ++ [k]) -> nth_error q_path k = Some q ->
  exists lines, snd (animate_path r q_path (frames ++ [k])) = Ok lines /\ snd (robot_plot (no_base r) q) = Ok (concat lines).
Proof.
  intros G J P L Fk E. exists (map bpic (rboxes r q)). split; [apply animate_pic; auto; apply anim_lines_12|].
  rewrite robot_plot_pic; [|destruct G; split; auto|auto|rewrite Forall_forall in L; apply L; eapply nth_error_In; eauto].
  cbn [no_base base_pic r_base app]. f_equal. unfold pic. rewrite flat_map_concat_map. reflexivity.
Qed.

(** ** The base *)
Definition placed_all (r : robot) (q : list R) (s : shape) (T : mat4) : Prop :=
  placed r q s T \/ exists b T0, r_base r = Some b /\ member b s T0 /\ T = tmul (r_tfb r) T0.
Lemma shows_app l l' P Q : shows l P -> shows l' Q -> shows (l ++ l') (fun s T => P s T \/ Q s T).
Proof.
  intros [H1 H2] [H3 H4]. split.
  - intros x Hx. apply in_app_iff in Hx. destruct Hx as [Hx|Hx]; [destruct (H1 _ Hx) as (a & b & s & T & ? & ? & ?)|destruct (H3 _ Hx) as (a & b & s & T & ? & ? & ?)]; exists a, b, s, T; auto.
  - intros s T x y [H|H] He; [destruct (H2 s T x y H He)|destruct (H4 s T x y H He)]; rewrite !in_app_iff; auto.
Qed.
Lemma shows_iff l P Q : (forall s T, P s T <-> Q s T) -> shows l P -> shows l Q.
Proof.
  intros E [H1 H2]. split.
  - intros x Hx. destruct (H1 x Hx) as (a & b & s & T & ? & ? & ?). exists a, b, s, T. rewrite <- E. auto.
  - intros s T x y H. apply E in H. exact (H2 s T x y H).
Qed.
Lemma base_shows r : shows (base_pic r) (fun s T => exists b, r_base r = Some b /\ member b s T).
Proof.
  unfold base_pic. destruct (r_base r) as [b|].
  - eapply shows_iff; [|apply pic_shows]. intros s T. cbn beta. rewrite cboxes_in. cbn [place]. split.
    + intros (T0 & H & ->). eauto.
    + intros (b' & E & H). inversion E; subst. eauto.
  - split; [intros l []|]. intros s T x y (b & E & _). discriminate.
Qed.
(** what is drawn: the base stays at the transforms of its shapes *)
Lemma robot_plot_all r q : good r -> joints_ok r -> (1 <= ndof r <= length q)%nat ->
  exists lines, snd (robot_plot r q) = Ok lines /\ shows lines (fun s T => (exists b, r_base r = Some b /\ member b s T) \/ placed r q s T).
Proof.
  intros G J L. eexists. split; [apply robot_plot_pic; auto|]. apply shows_app; [apply base_shows|]. eapply shows_iff; [|apply pic_shows]. intros s T. apply rboxes_in.
Qed.
Lemma robot_plot_eye r q : good r -> joints_ok r -> (1 <= ndof r <= length q)%nat -> r_base r = None \/ r_tfb r = eye4 ->
  exists lines, snd (robot_plot r q) = Ok lines /\ shows lines (placed_all r q).
Proof.
  intros G J L B. destruct (robot_plot_all r q G J L) as (lines & E & S). exists lines. split; auto. eapply shows_iff; [|exact S]. intros s T. cbn beta. unfold placed_all. destruct B as [B|B]; rewrite B.
  - split; [intros [(b & E' & _)|H]; [discriminate|auto]|]. intros [H|(b & T0 & E' & _)]; [auto|discriminate].
  - split; [intros [(b & E' & H)|H]|intros [H|(b & T0 & E' & H & ->)]]; auto.
    + right. exists b, T. rewrite tmul_1_l. auto.
    + left. exists b. rewrite tmul_1_l. auto.
Qed.
Definition based : robot := Rb [new_link (DH 0 0 0 0) JR (Coll [] [])] [(- PI, PI)] (Some (Coll [Shape 1 1 1] [eye4])) None (translation 5 0 0) band true [0%nat].
Lemma based_good : good based. Proof. split; [repeat constructor|apply Permutation.Permutation_refl]. Qed.
Lemma base_elsewhere : exists lines, snd (robot_plot based [0]) = Ok lines /\ ~ shows lines (placed_all based [0]).
Proof.
  destruct (robot_plot_all based [0]) as (lines & E & S1 & _); [apply based_good|repeat constructor; discriminate|cbn; lia|]. exists lines. split; auto. intros [_ S2].
  set (c := (true, true, true)). set (c' := (true, true, false)). set (T := tmul (translation 5 0 0) eye4).
  assert (P : placed_all based [0] (Shape 1 1 1) T). { right. eexists _, eye4. split; [reflexivity|]. split; [exists 0%nat; auto|reflexivity]. }
  assert (Lo : forall s T', (exists b, r_base based = Some b /\ member b s T') \/ placed based [0] s T' -> s = Shape 1 1 1 /\ T' = eye4).
  { intros s T' [(b & Eb & ([|i] & H1 & H2))|[(i & l & T0 & H & ([|k] & Hk & _) & _)|(t & tip & T0 & H & _)]]; cbn in *; try discriminate.
    - inversion Eb; subst. cbn in *. inversion H1; inversion H2; auto.
    - inversion Eb; subst. cbn in *. destruct i; discriminate.
    - destruct i as [|[|i]]; cbn in H; try discriminate. inversion H; subst. discriminate.
    - destruct i as [|[|i]]; cbn in H; try discriminate. inversion H; subst. discriminate. }
  assert (Far : forall a, 4 <= vx (tapply T (corner (Shape 1 1 1) a))). { intros [[a b] d]. unfold T, translation. destruct a, b, d; cbn; lra. }
  assert (Near : forall a, vx (tapply eye4 (corner (Shape 1 1 1) a)) <= 1). { intros [[a b] d]. destruct a, b, d; cbn; lra. }
  assert (K : forall x y, In (Some (x, y)) lines -> vx x <= 1).
  { intros x y H. destruct (S1 _ H) as (x' & y' & s & T' & Ex & Hp & (a & a' & _ & -> & ->)). inversion Ex; subst. apply Lo in Hp. destruct Hp as [-> ->]. apply Near. }
  assert (N : neighbours c c') by (cbn; right; right; repeat split; discriminate). assert (Ed : box_edge (Shape 1 1 1) T (tapply T (corner (Shape 1 1 1) c)) (tapply T (corner (Shape 1 1 1) c'))) by (exists c, c'; auto).
  destruct (S2 _ _ _ _ P Ed) as [H|H]; apply K in H.
  - pose proof (Far c). lra.
  - pose proof (Far c'). lra.
Qed.
Lemma in_robot_placed r q x : in_robot r q x <-> exists s T, placed_all r q s T /\ in_box s T x.
Proof.
  unfold in_robot, in_links, in_coll, placed_all, placed, place. split.
  - intros [(b & E & s & T & H & Hx)|[(i & l & El & s & T & H & Hx)|(t & tip & E & s & T & H & Hx)]]; eexists s, _; (split; [|exact Hx]); eauto 12.
  - intros (s & T & [[(i & l & T0 & El & H & ->)|(t & tip & T0 & E & H & ->)]|(b & T0 & E & H & ->)] & Hx); [right; left|right; right|left]; eauto 10.
Qed.
