(** * Proofs about the planning functions run on the bundled robots. *)
From Coq Require Import String List Arith Bool Lia Reals Lra ZArith Permutation.
From Verif Require Import PyBase Cost SpecPath GraphCommon CppGraph CppGraphProofs CppSearch CppHeap CppMain CppExamples Mat Util UtilProofs HaltonProofs Geometry GeometryProofs Robot RobotProofs RobotForms Ik IkProofs KukaProofs RailProofs Path PathProofs Planning PlanningProofs PlanningCart Resources ResourcesProofs TaskProofs Pipeline.
Import ListNotations.
Local Open Scope R_scope.

Section Obj.
Context {O : Type} (get : O -> robot) (put : O -> robot -> O).
Context (prim : shape -> mat3 -> vec3 -> shape -> mat3 -> vec3 -> bool) (to32 : R -> R).
Context (scene : coll) (Inv : O -> Prop) (n : nat) (cc : list R -> bool).
Context (Hcc : forall o q, Inv o -> length q = n ->
  Inv (put o (fst (robot_collision prim (get o) q scene))) /\ snd (robot_collision prim (get o) q scene) = Ok (cc q)).

Lemma check_sols_spec : forall qs o acc, Inv o -> Forall (fun q => length q = n) qs ->
  Inv (fst (check_sols get put prim scene qs o acc)) /\
  snd (check_sols get put prim scene qs o acc) = Ok (acc ++ filter (fun q => negb (cc q)) qs).
Proof.
  induction qs as [|q qs IH]; intros o acc I H; cbn [check_sols filter]; [rewrite app_nil_r; auto|].
  inversion H as [|? ? Hq Hqs]; subst. destruct (Hcc o q I eq_refl) as [I' E]. destruct (robot_collision prim (get o) q scene) as [r c]. cbn [fst snd] in *. subst c.
  destruct (cc q); cbn [negb]; [apply IH; auto|]. destruct (IH (put o r) (acc ++ [q]) I' Hqs) as [A B]. rewrite B, <- app_assoc. auto.
Qed.
Lemma solve_one_spec o r acc : Inv o -> (forall qs, r = Some qs -> Forall (fun q => length q = n) qs) ->
  Inv (fst (solve_one get put prim scene (o, Ok r) acc)) /\ snd (solve_one get put prim scene (o, Ok r) acc) = Ok (acc ++ free cc r).
Proof.
  intros I H. destruct r as [qs|]; cbn [solve_one free]; [apply check_sols_spec; auto|]. rewrite app_nil_r. auto.
Qed.

Section Grid.
Context (ik : O -> mat4 -> O * res (option (list (list R)))) (ikp : mat4 -> option (list (list R))).
Context (Hik : forall o T, Inv o -> Inv (fst (ik o T)) /\ snd (ik o T) = Ok (ikp T)).
Context (Hlen : forall T qs, ikp T = Some qs -> Forall (fun q => length q = n) qs).
Lemma solve_frames_spec : forall Ts o acc, Inv o ->
  Inv (fst (solve_frames get put prim ik scene Ts o acc)) /\
  snd (solve_frames get put prim ik scene Ts o acc) = Ok (acc ++ flat_map (fun T => free cc (ikp T)) Ts).
Proof.
  induction Ts as [|T Ts IH]; intros o acc I; cbn [solve_frames flat_map]; [rewrite app_nil_r; auto|].
  destruct (Hik o T I) as [I1 E1]. destruct (ik o T) as [o1 r]. cbn [fst snd] in *. subst r.
  destruct (solve_one_spec o1 (ikp T) acc I1 (Hlen T)) as [I2 E2]. destruct (solve_one get put prim scene (o1, Ok (ikp T)) acc) as [o2 r]. cbn [fst snd] in *. subst r.
  destruct (IH o2 (acc ++ free cc (ikp T)) I2) as [A B]. rewrite B, <- app_assoc. auto.
Qed.
Lemma free_length T : Forall (fun q => length q = n) (free cc (ikp T)).
Proof.
  unfold free. destruct (ikp T) as [qs|] eqn:E; [|constructor]. apply Hlen in E. rewrite Forall_forall in *. intros q H. apply filter_In in H. apply E, H.
Qed.
Lemma frees_length Ts : Forall (fun q => length q = n) (flat_map (fun T => free cc (ikp T)) Ts).
Proof. apply Forall_flat_map. rewrite Forall_forall. intros T _. apply free_length. Qed.
Lemma grid_columns_spec (samples : pathpt -> res (list mat4)) : forall path o, Inv o ->
  Inv (fst (grid_columns get put prim to32 ik samples scene path o)) /\
  snd (grid_columns get put prim to32 ik samples scene path o) =
    (D <- mapM samples path ;; Ok (map (fun Ts => entry_of to32 (flat_map (fun T => free cc (ikp T)) Ts)) D)).
Proof.
  induction path as [|tp path IH]; intros o I; cbn [grid_columns mapM]; [auto|].
  destruct (samples tp) as [Ts| |]; cbn [bind fst snd]; auto.
  destruct (solve_frames_spec Ts o [] I) as [I1 E1]. destruct (solve_frames get put prim ik scene Ts o []) as [o1 r]. cbn [fst snd] in *. subst r. cbn [app].
  rewrite (pack_total to32 n _ (frees_length Ts)). destruct (IH o1 I1) as [I2 E2]. destruct (grid_columns get put prim to32 ik samples scene path o1) as [o2 r]. cbn [fst snd] in *. subst r.
  split; auto. destruct (mapM samples path); reflexivity.
Qed.
End Grid.

Section Simple.
Context (ik : O -> mat4 -> R -> O * res (option (list (list R)))) (ikp : mat4 -> R -> option (list (list R))).
Context (Hik : forall o T g, Inv o -> Inv (fst (ik o T g)) /\ snd (ik o T g) = Ok (ikp T g)).
Context (Hlen : forall T g qs, ikp T g = Some qs -> Forall (fun q => length q = n) qs).
Lemma solve_fixed_spec T : forall qf o acc, Inv o ->
  Inv (fst (solve_fixed get put prim ik scene (AFrame T) qf o acc)) /\
  snd (solve_fixed get put prim ik scene (AFrame T) qf o acc) = Ok (acc ++ flat_map (fun g => free cc (ikp T g)) qf).
Proof.
  induction qf as [|g qf IH]; intros o acc I; cbn [solve_fixed flat_map]; [rewrite app_nil_r; auto|].
  destruct (Hik o T g I) as [I1 E1]. destruct (ik o T g) as [o1 r]. cbn [fst snd] in *. subst r.
  destruct (solve_one_spec o1 (ikp T g) acc I1 (Hlen T g)) as [I2 E2]. destruct (solve_one get put prim scene (o1, Ok (ikp T g)) acc) as [o2 r]. cbn [fst snd] in *. subst r.
  destruct (IH o2 (acc ++ free cc (ikp T g)) I2) as [A B]. rewrite B, <- app_assoc. auto.
Qed.
Definition fixed_free (qf : list R) (T : mat4) : list (list R) := flat_map (fun g => free cc (ikp T g)) qf.
Lemma fixed_free_length qf T : Forall (fun q => length q = n) (fixed_free qf T).
Proof.
  apply Forall_flat_map. rewrite Forall_forall. intros g _. unfold free. destruct (ikp T g) as [qs|] eqn:E; [|constructor].
  apply Hlen in E. rewrite Forall_forall in *. intros q H. apply filter_In in H. apply E, H.
Qed.
Lemma simple_frames_spec qf : forall Ts o q_sol, Inv o ->
  Inv (fst (simple_frames get put prim ik scene (map AFrame Ts) qf o q_sol)) /\
  snd (simple_frames get put prim ik scene (map AFrame Ts) qf o q_sol) =
    Ok (match rev Ts with [] => q_sol | T :: _ => Some (fixed_free qf T) end).
Proof.
  induction Ts as [|T Ts IH]; intros o q_sol I; cbn [map simple_frames rev]; [auto|].
  destruct (solve_fixed_spec T qf o [] I) as [I1 E1]. destruct (solve_fixed get put prim ik scene (AFrame T) qf o []) as [o1 r]. cbn [fst snd] in *. subst r. cbn [app].
  destruct (IH o1 (Some (flat_map (fun g => free cc (ikp T g)) qf)) I1) as [A B]. rewrite B. split; auto. destruct (rev Ts); reflexivity.
Qed.
(** every point has at least one sample and all samples are frames *)
Lemma simple_columns_spec disc qf : forall path D, Forall2 (fun tp Ts => disc tp = Ok (map AFrame Ts) /\ Ts <> []) path D -> forall o q_sol, Inv o ->
  Inv (fst (simple_columns get put prim to32 ik disc scene path qf o q_sol)) /\
  snd (simple_columns get put prim to32 ik disc scene path qf o q_sol) = Ok (map (fun Ts => entry_of to32 (fixed_free qf (last Ts eye4))) D).
Proof.
  induction 1 as [|tp Ts path D [E Hne] _ IH]; intros o q_sol I; cbn [simple_columns map]; [auto|]. rewrite E.
  destruct (simple_frames_spec qf Ts o q_sol I) as [I1 E1]. destruct (simple_frames get put prim ik scene (map AFrame Ts) qf o q_sol) as [o1 r]. cbn [fst snd] in *. subst r.
  assert (L : exists T Ts', rev Ts = T :: Ts' /\ last Ts eye4 = T).
  { destruct (exists_last Hne) as (Ts' & T & ->). rewrite rev_app_distr, last_last. exists T, (rev Ts'). auto. }
  destruct L as (T & Ts' & -> & ->). rewrite (pack_total to32 n _ (fixed_free_length qf T)).
  destruct (IH o1 (Some (fixed_free qf T)) I1) as [I2 E2]. destruct (simple_columns get put prim to32 ik disc scene path qf o1 (Some (fixed_free qf T))) as [o2 r]. cbn [fst snd] in *. subst r.
  split; auto.
Qed.
End Simple.
End Obj.

(** ** Kuka *)
(** the answer of robot.is_in_collision, an exception counting as true *)
Definition hit prim (r : robot) (scene : coll) (q : list R) : bool := match snd (robot_collision prim r q scene) with Ok b => b | _ => true end.
(** the collision-free solutions of one ik call on a robot in state k *)
Definition kuka_free prim (k : kuka) (scene : coll) (T : mat4) : list (list R) :=
  match snd (kuka_ik k T) with
  | Ok (IkOk s) => filter (fun q => negb (hit prim (k_rob k) scene q)) (read (k_wrist k) s)
  | _ => []
  end.
Lemma like_joints r r0 : like r r0 -> joints_ok r0 -> joints_ok r.
Proof.
  intros [_ H] J. unfold joints_ok in *. apply (f_equal (map snd)) in H. rewrite !map_map in H.
  rewrite Forall_forall in *. intros l Hl E. apply (in_map (fun x => snd (dhjt x))) in Hl. rewrite H in Hl. apply in_map_iff in Hl. destruct Hl as (l0 & E0 & H0). apply (J l0 H0). cbn in E0. congruence.
Qed.
Lemma like_ndof r r0 : like r r0 -> ndof r = ndof r0.
Proof. intros [_ H]. apply (f_equal (@length _)) in H. rewrite !map_length in H. exact H. Qed.
Lemma Kuka_joints a1 a2 d4 d6 : joints_ok (Kuka a1 a2 d4 d6).
Proof. unfold joints_ok, Kuka. cbn [robot_init r_links]. repeat constructor; cbn; discriminate. Qed.
Lemma Rail_joints a1 a2 d4 d6 : joints_ok (KukaOnRail a1 a2 d4 d6).
Proof. unfold joints_ok, KukaOnRail. cbn [robot_init r_links]. repeat constructor; cbn; discriminate. Qed.
(** with enough joint values the answer is a boolean, whatever was called before *)
Lemma hit_spec prim r r' scene q : good r -> joints_ok r -> (1 <= ndof r <= length q)%nat -> good r' -> reset r' = reset r ->
  snd (robot_collision prim r' q scene) = Ok (hit prim r scene q).
Proof.
  intros G J L G' E. rewrite (collision_reset prim r' r q scene G' G E). unfold hit. destruct (collision_correct prim r q scene G J ltac:(lia) ltac:(lia)) as (b & -> & _). reflexivity.
Qed.

Section Kuka.
Context (prim : shape -> mat3 -> vec3 -> shape -> mat3 -> vec3 -> bool) (to32 : R -> R) (a1 a2 d4 d6 : R) (Hne : a2 * d4 <> 0).
Context (k0 : kuka) (K0 : kuka_ok a1 a2 d4 d6 k0).
Definition kinv (k : kuka) : Prop := kuka_ok a1 a2 d4 d6 k /\ reset (k_rob k) = reset (k_rob k0).
Definition kikp (T : mat4) : option (list (list R)) := match kuka_sols a1 a2 d4 d6 (unmount (k_rob k0) T) with [] => None | s => Some s end.
Lemma reset_unmount r r' T : reset r = reset r' -> unmount r T = unmount r' T.
Proof. intros E. unfold unmount. pose proof (f_equal r_tfb E) as A. pose proof (f_equal r_tool E) as B. cbn in A, B. rewrite A, B. reflexivity. Qed.
Lemma kinv_ik k T : kinv k -> kinv (fst (kuka_call k T)) /\ snd (kuka_call k T) = Ok (kikp T).
Proof.
  intros [K E]. unfold kuka_call. destruct (kuka_ik_spec a1 a2 d4 d6 Hne k T K) as (S1 & S2 & S3). destruct (kuka_ik k T) as [k' r]. cbn [fst snd] in *. subst r. cbn [bind].
  split; [split; congruence|]. unfold kikp. rewrite (reset_unmount _ _ T E). destruct (kuka_sols a1 a2 d4 d6 _); reflexivity.
Qed.
Lemma kuka_sols_length X : Forall (fun q => length q = 6%nat) (kuka_sols a1 a2 d4 d6 X).
Proof. rewrite Forall_forall. intros q H. apply kuka_sols_bounds in H. destruct H as (? & ? & ? & ? & ? & ? & -> & _). reflexivity. Qed.
Lemma kikp_length T qs : kikp T = Some qs -> Forall (fun q => length q = 6%nat) qs.
Proof. unfold kikp. pose proof (kuka_sols_length (unmount (k_rob k0) T)) as H. destruct (kuka_sols a1 a2 d4 d6 _); [discriminate|]. intros E. injection E as <-. exact H. Qed.
Lemma kinv_coll scene k q : kinv k -> length q = 6%nat ->
  kinv (kuka_put k (fst (robot_collision prim (k_rob k) q scene))) /\ snd (robot_collision prim (k_rob k) q scene) = Ok (hit prim (k_rob k0) scene q).
Proof.
  intros [K E] L. pose proof (ko_rob _ _ _ _ _ K) as L1. pose proof (ko_rob _ _ _ _ _ K0) as L0. destruct (robot_collision_fst prim (k_rob k) q scene (proj1 L1)) as [G R].
  split; [split|].
  - destruct K as [_ A B C]. split; auto. cbn [k_rob kuka_put]. eapply reset_like; eauto.
  - cbn [k_rob kuka_put]. congruence.
  - apply hit_spec; auto; try apply L0; try apply L1; [eapply like_joints; eauto; apply Kuka_joints|]. rewrite (like_ndof _ _ L0), L. cbn. lia.
Qed.
Lemma kuka_free_spec scene T : kuka_free prim k0 scene T = free (hit prim (k_rob k0) scene) (kikp T).
Proof.
  unfold kuka_free. destruct (kuka_ik_spec a1 a2 d4 d6 Hne k0 T K0) as (_ & _ & ->). unfold kikp, free. destruct (kuka_sols a1 a2 d4 d6 _); reflexivity.
Qed.
Lemma kuka_columns_exact samples scene path :
  snd (kuka_columns prim to32 samples scene path k0) = (D <- mapM samples path ;; Ok (map (fun Ts => entry_of to32 (flat_map (kuka_free prim k0 scene) Ts)) D)).
Proof.
  destruct (grid_columns_spec k_rob kuka_put prim to32 scene kinv 6 (hit prim (k_rob k0) scene) (kinv_coll scene) kuka_call kikp kinv_ik kikp_length samples path k0) as [_ E]; [split; auto|].
  unfold kuka_columns. rewrite E. destruct (mapM samples path) as [D| |]; cbn [bind]; auto. f_equal. apply map_ext. intros Ts. f_equal. apply flat_map_ext. intros T. symmetry. apply kuka_free_spec.
Qed.
Lemma kuka_columns_keep samples scene path : kuka_ok a1 a2 d4 d6 (fst (kuka_columns prim to32 samples scene path k0)) /\ reset (k_rob (fst (kuka_columns prim to32 samples scene path k0))) = reset (k_rob k0).
Proof. apply (grid_columns_spec k_rob kuka_put prim to32 scene kinv 6 (hit prim (k_rob k0) scene) (kinv_coll scene) kuka_call kikp kinv_ik kikp_length samples path k0). split; auto. Qed.
End Kuka.

(** ** What collision-free means for points of space *)
(** x belongs to the base, a link or the tool of the robot at q *)
Definition in_robot (r : robot) (q : list R) (x : vec3) : Prop :=
  (exists b, r_base r = Some b /\ in_coll b (Some (r_tfb r)) x) \/ in_links r q x \/
  (exists tool tip, r_tool r = Some (tool, tip) /\ in_coll tool (Some (frame r q (ndof r - 1))) x).
(** the pairs is_in_self_collision looks at have no common point *)
Definition self_clear (r : robot) (q : list R) : Prop :=
  (forall i j li lj x, nth_error (r_links r) i = Some li -> nth_error (r_links r) j = Some lj -> r_mat r i j = true ->
     in_coll (l_geom li) (Some (frame r q i)) x -> in_coll (l_geom lj) (Some (frame r q j)) x -> False) /\
  (forall tool tip i l x, r_tool r = Some (tool, tip) -> (i + 1 < ndof r)%nat -> nth_error (r_links r) i = Some l ->
     in_coll (l_geom l) (Some (frame r q i)) x -> in_coll tool (Some (frame r q (ndof r - 1))) x -> False).
(** no point in common with the scene, and none with itself when that is checked *)
Definition clear (r : robot) (scene : coll) (q : list R) : Prop :=
  (forall x, in_robot r q x -> ~ in_coll scene None x) /\ (r_self r = true -> self_clear r q).
(** all boxes are placed by rigid transforms *)
Definition solid (r : robot) : Prop :=
  rigid (r_tfb r) /\ rigid_links r /\ (forall b, r_base r = Some b -> rigid_coll b) /\
  (forall tool tip, r_tool r = Some (tool, tip) -> rigid_coll tool /\ rigid tip).
Lemma solid_tool r : solid r -> rigid_tool r.
Proof. intros (_ & _ & _ & H). unfold rigid_tool. destruct (r_tool r) as [[t tip]|]; auto. eapply H; eauto. Qed.
Lemma free_iff_clear prim r scene q : exact_prim prim -> good r -> joints_ok r -> (1 <= ndof r <= length q)%nat -> solid r -> rigid_coll scene ->
  (hit prim r scene q = false <-> clear r scene q).
Proof.
  intros X G J L (B & RL & SB & ST) S. unfold hit. destruct (collision_correct prim r q scene G J ltac:(lia) ltac:(lia)) as (b & -> & Hb).
  assert (HL : forall i l, nth_error (r_links r) i = Some l -> rigid_coll (l_geom l)) by (intros i l E; unfold rigid_links in RL; rewrite Forall_forall in RL; apply RL; eapply nth_error_In; eauto).
  split.
  - intros ->. split.
    + intros x [(g & Eg & Hx)|[(i & l & El & Hx)|(tool & tip & Et & Hx)]] Hs; assert (false = true); try discriminate; apply Hb.
      * left. exists g. split; auto. apply collision_points; eauto. exact I.
      * right. left. exists i, l. split; auto. apply collision_points; eauto; [apply frame_rigid; auto|exact I].
      * right. right. left. exists tool, tip. split; auto. apply collision_points; eauto; [eapply ST; eauto|apply frame_rigid; auto|exact I].
    + intros Es. split; intros; assert (false = true); try discriminate; apply Hb; right; right; right; (split; [exact Es|]); [left|right].
      * exists i, j, li, lj. repeat (split; [eassumption|]). apply collision_points; eauto; apply frame_rigid; auto.
      * exists tool, tip, i, l. repeat (split; [eassumption|]). apply collision_points; eauto; try (apply frame_rigid; auto). eapply ST; eauto.
  - intros [C1 C2]. destruct b; auto. exfalso. destruct (proj1 Hb eq_refl) as [(g & Eg & Hx)|[(i & l & El & Hx)|[(tool & tip & Et & Hx)|[Es [(i & j & li & lj & E1 & E2 & E3 & Hx)|(tool & tip & i & l & E1 & E2 & E3 & Hx)]]]]];
      apply collision_points in Hx; eauto; try exact I; try (apply frame_rigid; auto); try (eapply ST; eauto); destruct Hx as (x & H1 & H2).
    + apply (C1 x); auto. left. eauto.
    + apply (C1 x); auto. right. left. exists i, l. auto.
    + apply (C1 x); auto. right. right. eauto.
    + destruct (C2 Es) as [D _]. eapply D; eauto.
    + destruct (C2 Es) as [_ D]. eapply D; eauto.
Qed.

(** ** Joint values that differ by full turns *)
Lemma lspec_cong l a b : l_jt l = JR -> cong a b -> lspec l a = lspec l b.
Proof. intros E C. destruct (cong_cos_sin a b C) as [H1 H2]. unfold lspec. rewrite E. unfold dhm. replace (pose_z a 0 0 0) with (pose_z b 0 0 0); auto. unfold pose_z, rot_z. rewrite H1, H2. reflexivity. Qed.
Lemma framesp_cong : forall ls q q' T, Forall (fun l => l_jt l = JR) ls -> Forall2 cong q q' -> framesp ls q T = framesp ls q' T.
Proof.
  induction ls as [|l ls IH]; intros q q' T H C; [destruct C; reflexivity|]. inversion H as [|? ? Hl Hls]; subst. destruct C as [|a b q q' Cab C]; [reflexivity|].
  cbn [framesp]. rewrite (lspec_cong l a b Hl Cab), (IH q q' _ Hls C). reflexivity.
Qed.
Lemma hit_cong prim r scene q q' : good r -> revolute r -> Forall2 cong q q' -> hit prim r scene q = hit prim r scene q'.
Proof. intros G V C. unfold hit. rewrite !robot_collision_snd by auto. unfold collision_value. rewrite (framesp_cong _ _ _ _ V C). reflexivity. Qed.

(** ** Plans *)
Lemma Forall2_impl' {A B} (P P' : A -> B -> Prop) l l' : (forall x y, P x y -> P' x y) -> Forall2 P l l' -> Forall2 P' l l'.
Proof. induction 2; constructor; auto. Qed.
Lemma entry_row (to32 : R -> R) l row : row_of (entry_of to32 l) row -> exists q, In q l /\ row = map to32 q.
Proof.
  unfold entry_of. destruct l as [|q l]; [intros []|]. cbn [row_of]. intros H. apply in_map_iff in H. destruct H as (q' & <- & H). eauto.
Qed.
Lemma check_dtype_entries (to32 : R -> R) ls Q' : check_dtype to32 (map (entry_of to32) ls) = Ok Q' -> Q' = map (entry_of to32) ls.
Proof. destruct ls as [|[|q l] ls]; cbn; congruence. Qed.
Lemma Forall2_map_l {A B C} (f : A -> B) (P : B -> C -> Prop) : forall l l', Forall2 P (map f l) l' -> Forall2 (fun x y => P (f x) y) l l'.
Proof. induction l as [|x l IH]; intros l' H; inversion H; subst; constructor; auto. Qed.
Lemma Forall2_compose {A B C} (P : A -> B -> Prop) (P' : B -> C -> Prop) : forall l m r, Forall2 P l m -> Forall2 P' m r -> Forall2 (fun x z => exists y, P x y /\ P' y z) l r.
Proof. intros l m r H. revert r. induction H; intros r H'; inversion H'; subst; constructor; eauto. Qed.
Section Plans.
Context {K : CostStruct} (sq_acc : K -> R -> R -> R -> K) (pq : pqueue K R) (to32 : R -> R).
(** any path found among columns of solutions consists of rounded solutions *)
Lemma plan_rows (f : list mat4 -> list (list R)) (samples : pathpt -> res (list mat4)) path D method ow rows c :
  mapM samples path = Ok D ->
  get_shortest_path 1 sq_acc pq to32 (map (fun Ts => entry_of to32 (f Ts)) D) method ow = Ok (GspOk rows c) ->
  Forall2 (fun tp row => exists Ts q, samples tp = Ok Ts /\ In q (f Ts) /\ row = map to32 q) path rows.
Proof.
  intros E H. rewrite <- (map_map f (entry_of to32)) in H. apply gsp_rows in H. destruct H as (Q' & E1 & H). apply check_dtype_entries in E1. subst Q'.
  apply Forall2_map_l, Forall2_map_l in H. apply mapM_Forall2 in E. pose proof (Forall2_compose _ _ _ _ _ E H) as C. eapply Forall2_impl'; [|exact C].
  cbn. intros tp row (Ts & E1 & E2). apply entry_row in E2. destruct E2 as (q & I1 & ->). eauto.
Qed.
End Plans.

(** ** The points of a path *)
(** the frames a point of the path allows *)
Definition allowed (tp : pathpt) (T : mat4) : Prop :=
  rigid T /\
  match tp with
  | PEuler p => exists x y z a b c, Forall2 within (firstn 3 (e_pos p) ++ firstn 3 (e_rpy p)) [x; y; z; a; b; c] /\ T = frame6 x y z a b c
  | PPos p => rot T = qrot (p_quat p) /\ Forall2 within (firstn 3 (p_pos p)) [vx (pos T); vy (pos T); vz (pos T)]
  | PAxis p => a_pos p = [vx (pos T); vy (pos T); vz (pos T)] /\ exists a, t_lower (a_angle p) <= a <= t_upper (a_angle p) /\
      forall u, mapply (rot T) u = rodrigues (unit_axis (a_axis p)) a (mapply (qrot (a_quat p)) u)
  | PFree p _ => p = [vx (pos T); vy (pos T); vz (pos T)]
  end.
(** points built with ordered tolerances, a usable quaternion and axis, and n draws in the unit interval *)
Definition pt_ok (n : nat) (tp : pathpt) : Prop :=
  match tp with
  | PEuler p => (exists pos rpy, new_eulerpt pos rpy = Ok p) /\ Forall proper (firstn 3 (e_pos p) ++ firstn 3 (e_rpy p))
  | PPos p => (exists pos q, new_pospt pos q = Ok p) /\ Forall proper (firstn 3 (p_pos p)) /\ qnorm2 (p_quat p) <> 0
  | PAxis p => length (a_pos p) = 3%nat /\ proper (Tol (a_angle p)) /\ norm2 (a_axis p) <> 0 /\ clear_axis (a_axis p) /\ qnorm2 (a_quat p) <> 0
  | PFree p rnd => length p = 3%nat /\ (n <= length rnd)%nat /\ Forall unit_row rnd
  end.
Lemma pt_allowed ypr fuel n tp : pt_ok n tp -> exists Ts, pt_samples ypr fuel n tp = Ok Ts /\ forall T, In T Ts -> allowed tp T.
Proof.
  destruct tp as [p|p|p|p rnd]; cbn [pt_ok pt_samples].
  - intros [(ps & rs & E) P]. destruct (proj1 (new_eulerpt_Ok ps rs) (ex_intro _ p E)) as [L1 L2].
    destruct ps as [|p1 [|p2 [|p3 ps]]]; cbn in L1; try lia. destruct rs as [|r1 [|r2 [|r3 rs]]]; cbn in L2; try lia.
    unfold allowed. pose proof (euler_fields _ _ _ _ _ _ _ _ _ E) as (F1 & F2 & _). rewrite F1, F2 in *. apply (euler_within _ _ _ _ _ _ _ _ _ E). exact P.
  - intros ((ps & q & E) & P & Q). assert (L : (3 <= length ps)%nat) by (destruct ps as [|? [|? [|? ?]]]; try discriminate; cbn; lia).
    destruct ps as [|p1 [|p2 [|p3 ps]]]; cbn in L; try lia.
    unfold allowed. pose proof (pos_fields _ _ _ _ _ _ E) as (F1 & F2 & _). rewrite F1, F2 in *. destruct (pos_within _ _ _ _ _ _ E P Q) as (l & -> & W). exists l. split; auto.
    intros T I. destruct (W T I) as (W1 & W2 & W3 & W4 & W5). split; auto. split; auto. cbn [firstn]. auto.
  - intros (L & (B & S) & N & C & Q). destruct p as [ps ax t q]. cbn [a_pos a_angle a_axis a_quat] in *. destruct ps as [|x [|y [|z [|]]]]; try discriminate.
    destruct (axis_returns x y z ax t q N S) as (l & E). exists l. split; auto. destruct (axis_spec _ _ E Q C) as [_ A]. cbn [a_pos a_angle a_axis a_quat] in A. intros T I.
    apply In_nth_error in I. destruct I as (k & I). destruct (A k T I) as (A1 & A2 & A3). unfold allowed. split; auto. cbn [a_pos a_angle a_axis a_quat]. rewrite (A2 _ _ _ eq_refl). split; [reflexivity|].
    eexists. split; [|exact A3]. apply angle_at_within; auto. apply nth_error_Some. congruence.
  - intros (L & L' & U). destruct p as [|x [|y [|z [|]]]]; try discriminate. destruct (meth_random ypr fuel rnd n L' U) as [M _].
    destruct (free_transform ypr fuel rnd x y z n None M) as (l & E & _ & A). rewrite E. cbn [bind]. exists l. split; auto. intros T I. rewrite Forall_forall in A. destruct (A T I) as [A1 A2].
    split; auto. cbn. rewrite A2. reflexivity.
Qed.

(** ** The planned motion of the Kuka *)
Lemma kuka_revolute a1 a2 d4 d6 r : like r (Kuka a1 a2 d4 d6) -> revolute r.
Proof.
  intros [_ H]. unfold revolute. apply (f_equal (Forall (fun x => snd x = JR))) in H.
  assert (A : Forall (fun x => snd x = JR) (map dhjt (r_links r))) by (rewrite H; unfold Kuka; cbn [robot_init r_links map dhjt]; repeat constructor).
  rewrite Forall_map in A. exact A.
Qed.
(** forward kinematics of q gives T off the singularities of wrist and elbow; at a
    singular elbow the position may be off by sqrt(2 a2 d4 1e-6) *)
Definition reaches (a2 d4 : R) (r : robot) (q : list R) (T : mat4) : Prop :=
  exists q1 q2 q3 q4 q5 q6 F, q = [q1; q2; q3; q4; q5; q6] /\ snd (fk r q) = Ok F /\
    (sin q5 <> 0 -> cos q3 <> 0 -> F = T) /\
    (sin q5 <> 0 -> rot F = rot T /\ dist2 (pos F) (pos T) <= 2 * Rabs (a2 * d4) * tol).
(** the joint values the planner may use for a point *)
Definition candidate prim (k : kuka) (scene : coll) samples (tp : pathpt) (q : list R) : Prop :=
  exists Ts T, samples tp = Ok Ts /\ In T Ts /\ In q (kuka_free prim k scene T).
Lemma picks_In {D} : forall (Q : list (list D)) js p, picks Q js p -> Forall2 (fun col x => In x col) Q p.
Proof. induction Q as [|c Q IH]; intros [|j js] [|x p] H; cbn in H; try tauto; constructor; [eapply nth_error_In; apply H|eapply IH; apply H]. Qed.
Lemma In_picks {D} (Q : list (list D)) p : Forall2 (fun col x => In x col) Q p -> exists js, picks Q js p.
Proof. induction 1 as [|c x Q p H _ (js & IH)]; [exists []; exact I|]. apply In_nth_error in H. destruct H as (j & H). exists (j :: js). cbn. auto. Qed.

Section KukaPlan.
Context (prim : shape -> mat3 -> vec3 -> shape -> mat3 -> vec3 -> bool) (to32 : R -> R) (a1 a2 d4 d6 : R) (Hne : a2 * d4 <> 0).
Context (k : kuka) (Hk : kuka_ok a1 a2 d4 d6 k).
Lemma kuka_plan_eq {K : CostStruct} (sq_acc : K -> R -> R -> R -> K) pq samples scene path method ow :
  snd (kuka_plan prim to32 sq_acc pq samples scene path method ow k) =
  (D <- mapM samples path ;; get_shortest_path 1 sq_acc pq to32 (map (fun Ts => entry_of to32 (flat_map (kuka_free prim k scene) Ts)) D) method ow).
Proof.
  unfold kuka_plan, grid_plan. fold (kuka_columns prim to32). pose proof (kuka_columns_exact prim to32 a1 a2 d4 d6 Hne k Hk samples scene path) as E.
  destruct (kuka_columns prim to32 samples scene path k) as [k' Q]. cbn [snd] in *. subst Q. destruct (mapM samples path); reflexivity.
Qed.
Lemma kuka_free_sound scene T q : exact_prim prim -> solid (k_rob k) -> rigid_coll scene -> rigid T -> In q (kuka_free prim k scene T) ->
  reaches a2 d4 (k_rob k) q T /\ clear (k_rob k) scene q.
Proof.
  intros X S C RT H. unfold kuka_free in H. destruct (snd (kuka_ik k T)) as [[|s]| |] eqn:E; try destruct H. apply filter_In in H. destruct H as [H1 H2].
  pose proof (kuka_correct a1 a2 d4 d6 Hne k T s _ q Hk (proj1 S) (solid_tool _ S) RT E H1) as R. split; [exact R|].
  pose proof (ko_rob _ _ _ _ _ Hk) as L. apply (free_iff_clear prim); auto; [apply L|eapply like_joints; eauto; apply Kuka_joints| |destruct (hit prim (k_rob k) scene q); auto; discriminate].
  rewrite (like_ndof _ _ L). destruct R as (q1 & q2 & q3 & q4 & q5 & q6 & F & -> & _). cbn. lia.
Qed.
Lemma kuka_plan_sound {K : CostStruct} (sq_acc : K -> R -> R -> R -> K) pq ypr fuel n scene path method ow rows c :
  exact_prim prim -> solid (k_rob k) -> rigid_coll scene -> Forall (pt_ok n) path ->
  snd (kuka_plan prim to32 sq_acc pq (pt_samples ypr fuel n) scene path method ow k) = Ok (GspOk rows c) ->
  Forall2 (fun tp row => exists q T, row = map to32 q /\ allowed tp T /\ reaches a2 d4 (k_rob k) q T /\ clear (k_rob k) scene q) path rows.
Proof.
  intros X S C P. rewrite kuka_plan_eq. destruct (mapM (pt_samples ypr fuel n) path) as [D| |] eqn:E; cbn [bind]; try discriminate. intros H.
  apply (plan_rows sq_acc pq to32 (flat_map (kuka_free prim k scene)) _ _ _ _ _ _ _ E) in H. revert P. clear E. induction H as [|tp row path' rows' (Ts & q & E1 & E2 & ->) _ IH]; intros P; [constructor|].
  inversion P as [|? ? P1 P2]; subst. constructor; auto. apply in_flat_map in E2. destruct E2 as (T & I1 & I2). destruct (pt_allowed ypr fuel n tp P1) as (Ts' & E' & A). rewrite E1 in E'. injection E' as <-.
  exists q, T. split; auto. split; [apply A; auto|]. apply kuka_free_sound; auto. apply (A T I1).
Qed.
(** some sample of the point is reached by a configuration away from the singularities and clear of obstacles *)
Definition reachable scene samples (tp : pathpt) : Prop :=
  exists Ts T q1 q2 q3 q4 q5 q6, samples tp = Ok Ts /\ In T Ts /\ snd (fk (k_rob k) [q1; q2; q3; q4; q5; q6]) = Ok T /\
    0 < lxy (kuka_centre a1 a2 d4 q1 q2 q3) /\ Rabs (sin q3) <= 1 - tol /\ sin q5 <> 0 /\ clear (k_rob k) scene [q1; q2; q3; q4; q5; q6].
Lemma reachable_candidate scene samples tp : exact_prim prim -> solid (k_rob k) -> rigid_coll scene -> reachable scene samples tp ->
  exists q, candidate prim k scene samples tp q.
Proof.
  intros X S C (Ts & T & q1 & q2 & q3 & q4 & q5 & q6 & E & I1 & Ef & H1 & H3 & H5 & Hc). pose proof (ko_rob _ _ _ _ _ Hk) as L.
  destruct (kuka_finds_all a1 a2 d4 d6 Hne k q1 q2 q3 q4 q5 q6 T Hk (proj1 S) (solid_tool _ S) Ef H1 H3 H5) as (sols & s & E2 & I2 & G). exists s, Ts, T. split; auto. split; auto.
  unfold kuka_free. rewrite E2. apply filter_In. split; [exact I2|]. rewrite <- (hit_cong prim (k_rob k) scene _ _ (proj1 L) (kuka_revolute _ _ _ _ _ L) G).
  apply (free_iff_clear prim) in Hc; auto; [rewrite Hc; reflexivity|apply L|eapply like_joints; eauto; apply Kuka_joints|]. rewrite (like_ndof _ _ L). cbn. lia.
Qed.
Lemma kuka_free_length scene Ts : Forall (fun q => length q = 6%nat) (flat_map (kuka_free prim k scene) Ts).
Proof.
  apply Forall_flat_map. rewrite Forall_forall. intros T _. rewrite (kuka_free_spec prim a1 a2 d4 d6 Hne k Hk). unfold free, kikp. pose proof (kuka_sols_length a1 a2 d4 d6 (unmount (k_rob k) T)) as H.
  destruct (kuka_sols _ _ _ _ _); [constructor|]. rewrite Forall_forall in *. intros q I. apply filter_In in I. apply H, I.
Qed.
Lemma columns_arrays scene samples path : Forall (fun tp => exists q, candidate prim k scene samples tp q) path ->
  exists D data, mapM samples path = Ok D /\ map (fun Ts => entry_of to32 (flat_map (kuka_free prim k scene) Ts)) D = arrays F32 6 data /\
    length data = length path /\ uniform 6 data /\ Forall (fun col => col <> []) data /\
    forall rows, Forall2 (fun col x => In x col) data rows <-> Forall2 (fun tp row => exists q, candidate prim k scene samples tp q /\ row = map to32 q) path rows.
Proof.
  induction 1 as [|tp path (q & Ts & T & E & I1 & I2) _ (D & data & E1 & E2 & E3 & E4 & E5 & E6)].
  - exists [], []. repeat (split; [constructor|]). intros rows. split; intros H; inversion H; constructor.
  - exists (Ts :: D), (map (map to32) (flat_map (kuka_free prim k scene) Ts) :: data). cbn [mapM]. rewrite E. cbn [bind]. rewrite E1. split; [reflexivity|]. split.
    { cbn [map arrays]. fold (arrays F32 6 data). rewrite E2. f_equal. pose proof (kuka_free_length scene Ts) as L. unfold entry_of.
      destruct (flat_map (kuka_free prim k scene) Ts) as [|q0 l] eqn:Ef; [exfalso; assert (HH : In q []) by (rewrite <- Ef; apply in_flat_map; eauto); destruct HH|].
      inversion L as [|? ? L1 _]; subst. rewrite L1. reflexivity. }
    split; [cbn; congruence|]. split.
    { constructor; auto. apply Forall_map. eapply Forall_impl; [|apply (kuka_free_length scene Ts)]. intros x Hx. rewrite map_length. exact Hx. }
    split.
    { constructor; auto. intros Z. apply map_eq_nil in Z. assert (HH : In q []) by (rewrite <- Z; apply in_flat_map; eauto). destruct HH. }
    intros rows. split; intros H; inversion H as [|? row ? rows' H1 H2]; subst; constructor; try (apply E6; auto).
    + apply in_map_iff in H1. destruct H1 as (q' & <- & H1). apply in_flat_map in H1. destruct H1 as (T' & J1 & J2). exists q'. split; auto. exists Ts, T'. auto.
    + destruct H1 as (q' & (Ts' & T' & J0 & J1 & J2) & ->). rewrite E in J0. injection J0 as <-. apply in_map_iff. exists q'. split; auto. apply in_flat_map. eauto.
Qed.
(** every point with a candidate: the planner succeeds with the cheapest choice *)
Lemma kuka_plan_bfs scene samples path ow : path <> [] -> Forall (fun tp => exists q, candidate prim k scene samples tp q) path ->
  forall pq, exists rows, let cost := walk_cost (K := RCost) (jcost (K := RCost) rsq (eff_weights 1 6 ow)) in
  snd (kuka_plan prim to32 (K := RCost) rsq pq samples scene path "bfs" ow k) = Ok (GspOk rows (cost rows)) /\
  Forall2 (fun tp row => exists q, candidate prim k scene samples tp q /\ row = map to32 q) path rows /\
  forall rows', Forall2 (fun tp row => exists q, candidate prim k scene samples tp q /\ row = map to32 q) path rows' -> cle (cost rows) (cost rows').
Proof.
  intros Hp Hr pq. destruct (columns_arrays scene samples path Hr) as (D & data & E1 & E2 & E3 & E4 & E5 & E6).
  assert (Hd : data <> []) by (intros Z; subst data; destruct path; [congruence|discriminate]).
  assert (HQ : snd (kuka_plan prim to32 (K := RCost) rsq pq samples scene path "bfs" ow k) = get_shortest_path 1 (K := RCost) rsq pq to32 (arrays F32 6 data) "bfs" ow) by (rewrite kuka_plan_eq, E1; cbn [bind]; rewrite E2; reflexivity).
  destruct (gsp_bfs_spec (K := RCost) 1 rsq pq to32 F32 6 data ow E4 Hd E5) as [[_ Z]|(js & p & H1 & H2 & _ & H3)].
  - exfalso. cbn [seen] in Z. assert (P : exists js p, picks data js p).
    { clear - E5. induction E5 as [|[|x c] data Hc _ (js & p & IH)]; [exists [], []; exact I|congruence|]. exists (0%nat :: js), (x :: p). cbn. auto. }
    destruct P as (js & p & P). specialize (Z js p P). rewrite rsq_finite in Z. discriminate.
  - exists p. cbn zeta. rewrite HQ. cbn [seen] in H2, H3. split; [exact H1|]. split; [apply E6; eapply picks_In; eauto|].
    intros rows' H'. apply E6 in H'. apply In_picks in H'. destruct H' as (js' & H'). apply (H3 js' rows' H').
Qed.
Lemma kuka_plan_dijkstra scene samples path ow : path <> [] -> Forall (fun tp => exists q, candidate prim k scene samples tp q) path ->
  forall pq, pq_ok pq -> exists rows, let cost := walk_cost (K := RCost) (jcost (K := RCost) rsq (eff_weights 1 6 ow)) in
  snd (kuka_plan prim to32 (K := RCost) rsq pq samples scene path "dijkstra" ow k) = Ok (GspOk rows (cost rows)) /\
  Forall2 (fun tp row => exists q, candidate prim k scene samples tp q /\ row = map to32 q) path rows.
Proof.
  intros Hp Hr pq Hpq. destruct (columns_arrays scene samples path Hr) as (D & data & E1 & E2 & E3 & E4 & E5 & E6).
  assert (Hd : data <> []) by (intros Z; subst data; destruct path; [congruence|discriminate]).
  assert (HQ : snd (kuka_plan prim to32 (K := RCost) rsq pq samples scene path "dijkstra" ow k) = get_shortest_path 1 (K := RCost) rsq pq to32 (arrays F32 6 data) "dijkstra" ow) by (rewrite kuka_plan_eq, E1; cbn [bind]; rewrite E2; reflexivity).
  destruct (gsp_dij_spec (K := RCost) 1 rsq pq to32 F32 6 data ow E4 Hd E5 Hpq) as (js & p & H1 & H2); [intros; apply rsq_finite|].
  exists p. cbn zeta. rewrite HQ. cbn [seen] in H2. split; [exact H1|]. apply E6. eapply picks_In; eauto.
Qed.
Lemma kuka_plan_complete scene samples path ow : exact_prim prim -> solid (k_rob k) -> rigid_coll scene -> path <> [] -> Forall (reachable scene samples) path ->
  forall pq, exists rows, let cost := walk_cost (K := RCost) (jcost (K := RCost) rsq (eff_weights 1 6 ow)) in
  snd (kuka_plan prim to32 (K := RCost) rsq pq samples scene path "bfs" ow k) = Ok (GspOk rows (cost rows)) /\
  Forall2 (fun tp row => exists q, candidate prim k scene samples tp q /\ row = map to32 q) path rows /\
  forall rows', Forall2 (fun tp row => exists q, candidate prim k scene samples tp q /\ row = map to32 q) path rows' -> cle (cost rows) (cost rows').
Proof. intros X S C Hp Hr. apply kuka_plan_bfs; auto. eapply Forall_impl; [|exact Hr]. intros tp. apply reachable_candidate; auto. Qed.
Lemma kuka_plan_complete_dijkstra scene samples path ow : exact_prim prim -> solid (k_rob k) -> rigid_coll scene -> path <> [] -> Forall (reachable scene samples) path ->
  forall pq, pq_ok pq -> exists rows, let cost := walk_cost (K := RCost) (jcost (K := RCost) rsq (eff_weights 1 6 ow)) in
  snd (kuka_plan prim to32 (K := RCost) rsq pq samples scene path "dijkstra" ow k) = Ok (GspOk rows (cost rows)) /\
  Forall2 (fun tp row => exists q, candidate prim k scene samples tp q /\ row = map to32 q) path rows.
Proof. intros X S C Hp Hr. apply kuka_plan_dijkstra; auto. eapply Forall_impl; [|exact Hr]. intros tp. apply reachable_candidate; auto. Qed.
End KukaPlan.
