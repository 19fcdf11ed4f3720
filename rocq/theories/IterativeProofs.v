(** * Proofs about the incremental and iterative planners run on robot objects. *)
From Coq Require Import String List Arith Bool Lia Reals Lra ZArith.
From Verif Require Import PyBase Cost SpecPath GraphCommon CppGraph CppMain Mat Util UtilProofs Geometry GeometryProofs Robot RobotProofs Ik IkProofs KukaProofs RailProofs Path PathProofs Planning PlanningProofs PlanningCart PlanningIter Pipeline PipelineProofs Motion MotionKuka GridCover Iterative.
From Verif Require FloatFkProofs.
Import ListNotations.
Local Open Scope R_scope.

Lemma Forall2_impl' {A B} (P Q : A -> B -> Prop) l l' : (forall a b, P a b -> Q a b) -> Forall2 P l l' -> Forall2 Q l l'.
Proof. intros H F. induction F; constructor; auto. Qed.
Lemma collect_pure {F T S : Type} (ik : T -> option (list (list F))) (cc : list F -> bool) : forall Ts (st : S) acc,
  collect ik (fun q s => (cc q, s)) Ts st acc = (acc ++ flat_map (fun t => free cc (ik t)) Ts, st).
Proof.
  assert (K : forall qs (st : S) acc, keep_free (fun q s => (cc q, s)) qs st acc = (acc ++ filter (fun q => negb (cc q)) qs, st)).
  { induction qs as [|q qs IH]; intros st acc; cbn [keep_free filter]; [rewrite app_nil_r; auto|]. rewrite IH. destruct (cc q); cbn [negb]; [auto|]. rewrite <- app_assoc. auto. }
  induction Ts as [|t Ts IH]; intros st acc; cbn [collect flat_map]; [rewrite app_nil_r; auto|].
  destruct (ik t) as [qs|]; cbn [free app]; [rewrite K|]; rewrite IH; auto. rewrite <- app_assoc. auto.
Qed.

Section Obj.
Context {Ob : Type} (get : Ob -> robot) (put : Ob -> robot -> Ob).
Context (prim : shape -> mat3 -> vec3 -> shape -> mat3 -> vec3 -> bool) (to32 : R -> R).
Context (Inv : Ob -> Prop) (n : nat) (cc : coll -> list R -> bool).
Context (Hcc : forall sc o q, Inv o -> length q = n ->
  Inv (put o (fst (robot_collision prim (get o) q sc))) /\ snd (robot_collision prim (get o) q sc) = Ok (cc sc q)).
Context (ik : Ob -> mat4 -> Ob * res (option (list (list R)))) (ikp : mat4 -> option (list (list R))).
Context (Hik : forall o T, Inv o -> Inv (fst (ik o T)) /\ snd (ik o T) = Ok (ikp T)).
Context (Hlen : forall T qs, ikp T = Some qs -> Forall (fun q => length q = n) qs).
Context (fkp : list R -> res mat4).
Context (Hfk : forall o q, Inv o -> Inv (put o (fst (fk (get o) q))) /\ snd (fk (get o) q) = fkp q).

Definition scc (scene : option coll) (q : list R) : bool := match scene with Some sc => cc sc q | None => true end.
Definition has (scene : option coll) : bool := match scene with Some _ => true | None => false end.
Definition near_state (samples : curpt -> nat -> R -> nat -> res (list mat4)) (c : curpt) (m : nat) (d : R) (j : nat) : res (list mat4 * nat) :=
  Ts <- samples c m d j ;; Ok (Ts, S j).
Definition at_frame (T : mat4) : curpt := CurOri (pos T) (rot T).
Definition half (d : R) : R := d / 2.
Definition same (sp : solpt) (sp' : spoint (F := R) (P := curpt) (D := R)) : Prop :=
  sp_cur sp' = so_cur sp /\ sp_class sp' = so_class sp /\ sp_dist sp' = so_tol sp.

Lemma it_columns_eq samples scene num : forall sps sps' o j, Forall2 same sps sps' -> Inv o ->
  Inv (fst (it_columns get put prim to32 ik samples scene sps num o j)) /\
  snd (it_columns get put prim to32 ik samples scene sps num o j) =
    iter_columns to32 ikp (fun q s => (scc scene q, s)) (near_state samples) (has scene) sps' num j.
Proof.
  intros sps sps' o j H. revert o j. induction H as [|sp sp' sps sps' (E1 & E2 & E3) _ IH]; intros o j I; cbn [it_columns iter_columns]; [auto|].
  unfold near_state at 1. rewrite E1, E3. destruct (samples (so_cur sp) num (so_tol sp) j) as [Ts| |]; cbn [bind fst snd]; auto.
  unfold calc_joint_solutions. destruct scene as [sc|]; cbn [has scc]; [|auto]. rewrite collect_pure. cbn [app].
  destruct (solve_frames_spec get put prim sc Inv n (cc sc) (Hcc sc) ik ikp Hik Hlen Ts o [] I) as [I1 Es]. destruct (solve_frames get put prim ik sc Ts o []) as [o1 r]. cbn [fst snd] in *. subst r. cbn [app].
  pose proof (frees_length n (cc sc) ikp Hlen Ts) as L. unfold pack_array. destruct (flat_map (fun T => free (cc sc) (ikp T)) Ts) as [|q l] eqn:E.
  - destruct (IH o1 (S j) I1) as [A B]. destruct (it_columns _ _ _ _ _ _ _ _ _ o1 (S j)) as [o2 r]. cbn [fst snd bind] in *. subst r. split; auto. 
  - destruct (forallb _ _); cbn [bind fst snd]; auto. destruct (IH o1 (S j) I1) as [A B]. destruct (it_columns _ _ _ _ _ _ _ _ _ o1 (S j)) as [o2 r]. cbn [fst snd] in *. subst r. split; auto.
Qed.
Lemma it_resample_eq o sp sp' q : same sp sp' -> Inv o ->
  Inv (fst (it_resample get put o sp q)) /\
  match snd (it_resample get put o sp q), resample fkp at_frame half sp' q with
  | Ok a, Ok b => same a b | Raise e, Raise e' => e = e' | OutOfFuel, OutOfFuel => True | _, _ => False
  end.
Proof.
  intros (E1 & E2 & E3) I. unfold it_resample, resample. rewrite E2. destruct (so_class sp); cbn [fst snd]; auto.
  destruct (Hfk o q I) as [I1 E]. destruct (fk (get o) q) as [r t]. cbn [fst snd] in *. subst t. split; auto.
  destruct (fkp q) as [T| |]; cbn [bind]; auto. unfold same. cbn. rewrite E3. auto.
Qed.
Lemma it_resample_all_eq : forall qs sps sps' o, Forall2 same sps sps' -> Inv o ->
  Inv (fst (it_resample_all get put qs sps o)) /\
  match snd (it_resample_all get put qs sps o), resample_all fkp at_frame half qs sps' with
  | Ok a, Ok b => Forall2 same a b | Raise e, Raise e' => e = e' | OutOfFuel, OutOfFuel => True | _, _ => False
  end.
Proof.
  induction qs as [|q qs IH]; intros sps sps' o H I; cbn [it_resample_all resample_all]; [inversion H; subst; auto|].
  destruct H as [|sp sp' sps sps' Hs H]; [cbn; auto|].
  destruct (it_resample_eq o sp sp' q Hs I) as [I1 M]. destruct (it_resample get put o sp q) as [o1 r]. cbn [fst snd] in *.
  destruct r as [a| |], (resample fkp at_frame half sp' q) as [b| |]; cbn [bind fst snd]; try tauto; auto.
  destruct (IH sps sps' o1 H I1) as [I2 M2]. destruct (it_resample_all get put qs sps o1) as [o2 r]. cbn [fst snd] in *.
  destruct r as [a'| |], (resample_all fkp at_frame half qs sps') as [b'| |]; cbn [bind]; try tauto. auto.
Qed.
Definition drop {A B} (r : res (A * B)) : res A := '(a, _) <- r ;; Ok a.
Lemma it_loop_eq {K : CostStruct} (sq_acc : K -> R -> R -> R -> K) pq samples scene num : forall iters sps sps' o j costs paths nt lst, Forall2 same sps sps' -> Inv o ->
  snd (it_loop get put prim to32 ik sq_acc pq samples iters scene sps num o j costs paths nt lst) =
  drop (iter_loop 1 sq_acc pq to32 ikp (fun q s => (scc scene q, s)) (near_state samples) fkp at_frame half iters (has scene) sps' num j costs paths nt lst).
Proof.
  induction iters as [|it IH]; intros sps sps' o j costs paths nt lst H I; cbn [it_loop iter_loop].
  - destruct lst as [[p c]|]; reflexivity.
  - destruct (it_columns_eq samples scene num sps sps' o j H I) as [I1 E]. destruct (it_columns _ _ _ _ _ _ _ _ _ o j) as [o1 r]. cbn [fst snd] in *. subst r.
    destruct (iter_columns _ _ _ _ _ _ _ j) as [[Q j']| |]; cbn [bind drop snd]; auto.
    destruct (forallb _ Q); [|reflexivity]. destruct (get_shortest_path 1 sq_acc pq to32 Q "dijkstra" None) as [[|p c]| |]; cbn [bind drop snd]; auto.
    destruct (it_resample_all_eq p sps sps' o1 H I1) as [I2 M]. destruct (it_resample_all get put p sps o1) as [o2 r]. cbn [fst snd] in *.
    destruct r as [a| |], (resample_all fkp at_frame half p sps') as [b| |]; cbn [bind drop snd]; try tauto; [|congruence]. apply IH; auto.
Qed.
Lemma it_plan_eq {K : CostStruct} (sq_acc : K -> R -> R -> R -> K) pq samples scene path num iters o : Inv o ->
  snd (it_plan get put prim to32 ik sq_acc pq samples scene path num iters o) =
  drop (cart_to_joint_iterative 1 sq_acc pq to32 ikp (fun q s => (scc scene q, s)) cur_class (near_state samples) fkp at_frame (PI / 4) half
    (map CurPt path) (has scene) num iters 0%nat).
Proof.
  intros I. unfold it_plan, cart_to_joint_iterative.
  assert (M : match mapM new_solpt path, mapM (solution_point (F := R) cur_class (PI / 4)) (map CurPt path) with
    | Ok a, Ok b => Forall2 same a b | Raise e, Raise e' => e = e' | OutOfFuel, OutOfFuel => True | _, _ => False end).
  { induction path as [|tp path IH]; cbn [mapM map]; [constructor|]. destruct tp as [tp|tp|tp|tp rnd]; cbn [new_solpt solution_point cur_class bind]; auto.
    destruct (mapM new_solpt path) as [a| |], (mapM (solution_point (F := R) cur_class (PI / 4)) (map CurPt path)) as [b| |]; cbn [bind] in *; try exact IH; try (destruct IH; fail). constructor; auto. unfold same. cbn. auto. }
  destruct (mapM new_solpt path) as [a| |], (mapM (solution_point (F := R) cur_class (PI / 4)) (map CurPt path)) as [b| |]; cbn [bind drop snd]; try tauto; [|congruence].
  apply it_loop_eq; auto.
Qed.
End Obj.

(** ** Kuka *)
Definition near_ok (near : nat -> mat3 -> R -> nat -> quat) : Prop := forall j A d i, rotation A -> qnorm2 (near j A d i) <> 0.
(** configurations that stay away from the singularities of wrist and elbow, also before the rounding *)
Definition regular (row : list R) : Prop := ulp_bound < Rabs (sin (nth 4 row 0)) /\ ulp_bound < Rabs (cos (nth 2 row 0)).

Section Kuka.
Context (prim : shape -> mat3 -> vec3 -> shape -> mat3 -> vec3 -> bool) (to32 : R -> R) (a1 a2 d4 d6 : R) (Hne : a2 * d4 <> 0).
Context (k0 : kuka) (K0 : kuka_ok a1 a2 d4 d6 k0).
Notation rob := (k_rob k0).
Lemma kinv_fk k q : kinv a1 a2 d4 d6 k0 k -> kinv a1 a2 d4 d6 k0 (kuka_put k (fst (fk (k_rob k) q))) /\ snd (fk (k_rob k) q) = snd (fk rob q).
Proof.
  intros [K E]. pose proof (ko_rob _ _ _ _ _ K) as L1. pose proof (ko_rob _ _ _ _ _ K0) as L0. destruct (fk_fst (k_rob k) q (proj1 L1)) as [G R].
  split; [split|].
  - destruct K as [_ A B C]. split; auto. cbn [k_rob kuka_put]. eapply reset_like; eauto.
  - cbn [k_rob kuka_put]. congruence.
  - apply fk_reset; auto; [apply L1|apply L0].
Qed.
Lemma kuka_it_eq {K : CostStruct} (sq_acc : K -> R -> R -> R -> K) pq samples scene path num iters :
  snd (kuka_it_plan prim to32 sq_acc pq samples scene path num iters k0) =
  drop (cart_to_joint_iterative 1 sq_acc pq to32 (kikp a1 a2 d4 d6 k0) (fun q s => (scc (hit prim rob) scene q, s)) cur_class (near_state samples) (fun q => snd (fk rob q)) at_frame (PI / 4) half
    (map CurPt path) (has scene) num iters 0%nat).
Proof.
  unfold kuka_it_plan. apply (it_plan_eq k_rob kuka_put prim to32 (kinv a1 a2 d4 d6 k0) 6 (hit prim rob)).
  - intros sc o q. apply kinv_coll; auto.
  - intros o T. apply kinv_ik; auto.
  - apply kikp_length.
  - apply kinv_fk.
  - split; auto.
Qed.
(** the frame the planner aims at in iteration m for point i *)
Definition aim (near : nat -> mat3 -> R -> nat -> quat) (path : list pathpt) (paths : list (list (list R))) (num m i : nat) (T : mat4) : Prop :=
  match m with
  | O => exists tp, nth_error path i = Some tp /\ allowed tp T
  | S m' => exists rows row F, nth_error paths m' = Some rows /\ nth_error rows i = Some row /\ snd (fk rob row) = Ok F /\
      rigid T /\ pos T = pos F /\ exists j i', (i' < num)%nat /\ rot T = qrot (near j (rot F) (PI / 4 / 2 ^ m) i')
  end.
Lemma half_iter : forall m d, Nat.iter m half d = d / 2 ^ m.
Proof. induction m as [|m IH]; intros d; cbn [pow]; [cbn; field|]. change (Nat.iter (S m) half d) with (half (Nat.iter m half d)). rewrite IH. unfold half. field. apply pow_nonzero. lra. Qed.
Lemma it_sound {K : CostStruct} (sq_acc : K -> R -> R -> R -> K) pq ypr fuel near scene path num iters p c costs paths nt :
  exact_prim prim -> solid rob -> rigid_coll scene -> Forall (pt_ok num) path -> near_ok near ->
  snd (kuka_it_plan prim to32 sq_acc pq (cur_samples ypr fuel (Some near)) (Some scene) path num iters k0) = Ok (ItOk p c costs paths nt) ->
  length costs = iters /\ length paths = iters /\ nt = iters /\ (exists ps, paths = ps ++ [p]) /\ (exists cs, costs = cs ++ [c]) /\
  Forall (fun rows => length rows = length path) paths /\
  forall m i rows row, nth_error paths m = Some rows -> nth_error rows i = Some row ->
    exists q T, row = map to32 q /\ length q = 6%nat /\ Forall (fun x => Rabs x <= 3 * PI / 2) q /\ aim near path paths num m i T /\ reaches a2 d4 rob q T /\ clear rob scene q.
Proof.
  intros X Sd C P N H. rewrite kuka_it_eq in H. unfold drop in H. destruct (cart_to_joint_iterative _ _ _ _ _ _ _ _ _ _ _ _ _ _ _ _ _) as [[r j]| |] eqn:E; cbn [bind] in H; try discriminate. injection H as ->.
  apply (iterative_success 1 sq_acc pq to32 _ _ _ _ _ _ _ _ (hit prim rob scene)) in E; [|reflexivity]. destruct E as (H1 & H2 & H3 & H4 & H5 & H6 & H7).
  repeat (split; [assumption|]). rewrite map_length in H6. split; auto. clear H1 H2 H3 H4 H5 H6.
  intros m i rows row Hm Hi. destruct (H7 m i rows row Hm Hi) as (tp & Hp & s & Ts & s' & T & qs & q & E1 & I1 & E2 & I2 & E3 & ->). rewrite half_iter in E1.
  assert (Hf : In q (kuka_free prim k0 scene T)).
  { rewrite (kuka_free_spec prim a1 a2 d4 d6 Hne k0 K0). unfold free. rewrite E2. apply filter_In. split; auto. rewrite E3. reflexivity. }
  unfold near_state in E1. destruct (cur_samples ypr fuel (Some near) tp num (PI / 4 / 2 ^ m) s) as [Ts'| |] eqn:Es; cbn [bind] in E1; try discriminate. injection E1 as <- _.
  assert (A : rigid T /\ aim near path paths num m i T).
  { destruct m as [|m]; cbn [point_at aim] in *.
    - rewrite nth_error_map in Hp. destruct (nth_error path i) as [tp0|] eqn:Ei; [|discriminate]. injection Hp as <-. cbn [cur_samples] in Es.
      rewrite Forall_forall in P. destruct (pt_allowed ypr fuel num tp0 (P _ (nth_error_In _ _ Ei))) as (Ts2 & E4 & A). rewrite Es in E4. injection E4 as <-. pose proof (A T I1) as AT. split; [apply AT|]. eauto.
    - destruct Hp as (rows' & row' & F & F1 & F2 & F3 & ->). unfold at_frame in Es. cbn [cur_samples] in Es.
      destruct (ori_spec (near s (rot F) (PI / 4 / 2 ^ S m)) (vx (pos F)) (vy (pos F)) (vz (pos F)) num) as (l & El & Hl).
      { intros. apply N. apply (fk_rigid rob row' F); auto; [apply (ko_rob _ _ _ _ _ K0)|apply Sd|apply solid_tool; auto]. }
      rewrite Es in El. injection El as <-.
      destruct Hl as [Ln Hl]. apply In_nth_error in I1. destruct I1 as (i' & Hi'). destruct (Hl i' T Hi') as (RT & E5 & E6). split; auto. exists rows', row', F. repeat (split; [assumption|]).
      split; [rewrite E5; destruct (pos F); reflexivity|]. exists s, i'. split; auto. rewrite <- Ln. apply nth_error_Some. congruence. }
  destruct (kuka_free_bounded a1 a2 d4 d6 Hne k0 K0 prim scene T q Hf) as [B L]. destruct A as [RT A].
  destruct (kuka_free_sound prim a1 a2 d4 d6 Hne k0 K0 scene T q X Sd C RT Hf) as [R Cl].
  exists q, T. auto 10.
Qed.
(** the position of a row, in exact arithmetic *)
Lemma it_exact {K : CostStruct} (sq_acc : K -> R -> R -> R -> K) pq ypr fuel near scene path num iters p c costs paths nt :
  (forall x, to32 x = x) -> exact_prim prim -> solid rob -> rigid_coll scene -> Forall (pt_ok num) path -> near_ok near ->
  snd (kuka_it_plan prim to32 sq_acc pq (cur_samples ypr fuel (Some near)) (Some scene) path num iters k0) = Ok (ItOk p c costs paths nt) ->
  forall i x rnd, nth_error path i = Some (PFree x rnd) -> forall m,
  (forall m' rows row, (m' <= m)%nat -> nth_error paths m' = Some rows -> nth_error rows i = Some row -> sin (nth 4 row 0) <> 0 /\ cos (nth 2 row 0) <> 0) ->
  forall rows row, nth_error paths m = Some rows -> nth_error rows i = Some row ->
  exists F, snd (fk rob row) = Ok F /\ x = [vx (pos F); vy (pos F); vz (pos F)].
Proof.
  intros Id X Sd C P N H i x rnd Ei. destruct (it_sound sq_acc pq ypr fuel near scene path num iters p c costs paths nt X Sd C P N H) as (_ & _ & _ & _ & _ & _ & G).
  induction m as [|m IH]; intros Rg rows row Hm Hi; destruct (G _ i rows row Hm Hi) as (q & T & -> & L & B & A & R & _); destruct R as (q1 & q2 & q3 & q4 & q5 & q6 & F & -> & EF & R1 & _);
    destruct (Rg _ _ _ (le_n _) Hm Hi) as [N5 N3]; cbn [map nth] in N5, N3; rewrite Id in N5, N3; specialize (R1 N5 N3); subst T; exists F; (split; [cbn [map]; rewrite !Id; exact EF|]); cbn [aim] in A.
  - destruct A as (tp & Et & _ & At). rewrite Ei in Et. injection Et as <-. exact At.
  - destruct A as (rows' & row' & F' & E1 & E2 & E3 & _ & E4 & _). destruct (IH (fun m' r1 r2 Hle => Rg m' r1 r2 ltac:(lia)) _ _ E1 E2) as (F2 & E5 & E6). rewrite E3 in E5. injection E5 as <-. rewrite E4. exact E6.
Qed.
End Kuka.

Section Drift.
Context (prim : shape -> mat3 -> vec3 -> shape -> mat3 -> vec3 -> bool) (a1 a2 d4 d6 : R) (Hne : a2 * d4 <> 0).
Context (k0 : kuka) (K0 : kuka_ok a1 a2 d4 d6 k0).
Notation rob := (k_rob k0).
Lemma regular_round q1 q2 q3 q4 q5 q6 : Forall (fun x => Rabs x <= 3 * PI / 2) [q1; q2; q3; q4; q5; q6] -> regular (map f32 [q1; q2; q3; q4; q5; q6]) -> sin q5 <> 0 /\ cos q3 <> 0.
Proof.
  intros B [H5 H3]. cbn [map nth] in *. inversion B as [|? ? _ B1]; subst. inversion B1 as [|? ? _ B2]; subst. inversion B2 as [|? ? B3 B4]; subst. inversion B4 as [|? ? _ B5]; subst. inversion B5 as [|? ? B6 _]; subst.
  apply f32_error in B3. apply f32_error in B6. split; intros Z.
  - pose proof (FloatFkProofs.sin_lip (f32 q5) q5) as L. rewrite Z, Rminus_0_r in L. lra.
  - pose proof (FloatFkProofs.cos_lip (f32 q3) q3) as L. rewrite Z, Rminus_0_r in L. lra.
Qed.
(** the drift of the position over the iterations with rows in binary32 *)
Lemma it_drift {K : CostStruct} (sq_acc : K -> R -> R -> R -> K) pq ypr fuel near scene path num iters p c costs paths nt :
  exact_prim prim -> solid rob -> rigid_coll scene -> Forall (pt_ok num) path -> near_ok near ->
  snd (kuka_it_plan prim f32 sq_acc pq (cur_samples ypr fuel (Some near)) (Some scene) path num iters k0) = Ok (ItOk p c costs paths nt) ->
  forall i x y z rnd, nth_error path i = Some (PFree [x; y; z] rnd) -> forall m,
  (forall m' rows row, (m' <= m)%nat -> nth_error paths m' = Some rows -> nth_error rows i = Some row -> regular row) ->
  forall rows row, nth_error paths m = Some rows -> nth_error rows i = Some row ->
  exists F, snd (fk rob row) = Ok F /\ len (vsub (pos F) (V3 x y z)) <= INR (S m) * (ulp_bound * (size a1 a2 d4 d6 + 6 * tip_len rob)).
Proof.
  intros X Sd C P N H i x y z rnd Ei. destruct (it_sound prim f32 a1 a2 d4 d6 Hne k0 K0 sq_acc pq ypr fuel near scene path num iters p c costs paths nt X Sd C P N H) as (_ & _ & _ & _ & _ & _ & G).
  set (u := ulp_bound * (size a1 a2 d4 d6 + 6 * tip_len rob)).
  assert (St : forall m rows row q T, (forall m' rows row, (m' <= m)%nat -> nth_error paths m' = Some rows -> nth_error rows i = Some row -> regular row) -> nth_error paths m = Some rows -> nth_error rows i = Some row ->
    row = map f32 q -> length q = 6%nat -> Forall (fun x => Rabs x <= 3 * PI / 2) q -> reaches a2 d4 rob q T -> exists F, snd (fk rob row) = Ok F /\ len (vsub (pos F) (pos T)) <= u).
  { intros m rows row q T Rg Hm Hi -> L B (q1 & q2 & q3 & q4 & q5 & q6 & F & -> & EF & R1 & _). destruct (regular_round _ _ _ _ _ _ B (Rg _ _ _ (le_n _) Hm Hi)) as [N5 N3]. specialize (R1 N5 N3). subst T.
    destruct (rounded_fk a1 a2 d4 d6 k0 K0 [q1; q2; q3; q4; q5; q6] v0 (proj1 Sd) (solid_tool _ Sd) L B) as (F1 & F2 & E1 & E2 & M). rewrite EF in E1. injection E1 as <-. exists F2. split; auto.
    assert (Z : len v0 = 0) by (unfold len, norm2, vdot, v0; cbn; replace (0 * 0 + 0 * 0 + 0 * 0) with 0 by ring; apply sqrt_0).
    assert (Tz : forall Y, tapply Y v0 = pos Y) by (intros [[] [] ? ?]; unfold tapply, mapply, vadd, v0; cbn; f_equal; ring). rewrite !Tz, Z, Rplus_0_r in M. exact M. }
  induction m as [|m IH]; intros Rg rows row Hm Hi; destruct (G _ i rows row Hm Hi) as (q & T & Er & L & B & A & R & _); destruct (St _ _ _ q T Rg Hm Hi Er L B R) as (F & EF & M); exists F; (split; [exact EF|]); cbn [aim] in A.
  - destruct A as (tp & Et & _ & At). rewrite Ei in Et. injection Et as <-. injection At as -> -> ->. replace (V3 (vx (pos T)) (vy (pos T)) (vz (pos T))) with (pos T) by (destruct (pos T); reflexivity). cbn [INR]. lra.
  - destruct A as (rows' & row' & F' & E1 & E2 & E3 & _ & E4 & _). destruct (IH (fun m' r1 r2 Hle => Rg m' r1 r2 ltac:(lia)) _ _ E1 E2) as (F2 & E5 & E6). rewrite E3 in E5. injection E5 as <-.
    rewrite S_INR. eapply Rle_trans; [apply (len_vsub3 _ (pos F'))|]. rewrite E4 in M. lra.
Qed.
End Drift.

(** ** Incremental *)
Section IncObj.
Context {Ob : Type} (get : Ob -> robot) (put : Ob -> robot -> Ob).
Context (prim : shape -> mat3 -> vec3 -> shape -> mat3 -> vec3 -> bool) (to32 : R -> R).
Context (scene : coll) (Inv : Ob -> Prop) (n : nat) (cc : list R -> bool).
Context (Hcc : forall o q, Inv o -> length q = n ->
  Inv (put o (fst (robot_collision prim (get o) q scene))) /\ snd (robot_collision prim (get o) q scene) = Ok (cc q)).
Context (ik : Ob -> mat4 -> Ob * res (option (list (list R)))) (ikp : mat4 -> option (list (list R))).
Context (Hik : forall o T, Inv o -> Inv (fst (ik o T)) /\ snd (ik o T) = Ok (ikp T)).
Context (Hlen : forall T qs, ikp T = Some qs -> Forall (fun q => length q = n) qs).
Definition inc_state (samples : nat -> pathpt -> res (list mat4)) (tp : pathpt) (_ : nat) (j : nat) : res (list mat4 * nat) :=
  Ts <- samples j tp ;; Ok (Ts, S j).
Lemma keep_free_pure : forall qs (st : nat) acc, keep_free (fun q s => (cc q, s)) qs st acc = (acc ++ filter (fun q => negb (cc q)) qs, st).
Proof. induction qs as [|q qs IH]; intros st acc; cbn [keep_free filter]; [rewrite app_nil_r; auto|]. rewrite IH. destruct (cc q); cbn [negb]; [auto|]. rewrite <- app_assoc. auto. Qed.
Lemma inc_point_eq samples tp mn mx : forall fuel o j q_sol cnt, Inv o ->
  Inv (fst (inc_point get put prim ik fuel samples scene tp mn mx o j q_sol cnt)) /\
  snd (inc_point get put prim ik fuel samples scene tp mn mx o j q_sol cnt) = inc_loop ikp (fun q s => (cc q, s)) (inc_state samples) fuel tp mn mx j q_sol cnt.
Proof.
  induction fuel as [|fuel IH]; intros o j q_sol cnt I; cbn [inc_point inc_loop]; destruct (Nat.ltb cnt mx); auto.
  unfold inc_state at 1. destruct (samples j tp) as [Ts| |]; cbn [bind fst snd]; auto. destruct (py_index Ts 0) as [T| |]; cbn [bind fst snd]; auto.
  destruct (Hik o T I) as [I1 E1]. destruct (ik o T) as [o1 r]. cbn [fst snd] in *. subst r.
  destruct (solve_one_spec get put prim scene Inv n cc Hcc o1 (ikp T) q_sol I1 (Hlen T)) as [I2 E2]. destruct (solve_one get put prim scene (o1, Ok (ikp T)) q_sol) as [o2 r]. cbn [fst snd] in *. subst r.
  replace (match ikp T with Some qs => keep_free (fun q s => (cc q, s)) qs (S j) q_sol | None => (q_sol, S j) end) with (q_sol ++ free cc (ikp T), S j).
  2:{ destruct (ikp T); cbn [free]; [rewrite keep_free_pure|rewrite app_nil_r]; reflexivity. }
  destruct (Nat.leb mn _); auto.
Qed.
Lemma inc_loop_length samples tp mn mx : forall fuel j q_sol cnt q' j', Forall (fun q => length q = n) q_sol ->
  inc_loop ikp (fun q s => (cc q, s)) (inc_state samples) fuel tp mn mx j q_sol cnt = Ok (q', j') -> Forall (fun q => length q = n) q'.
Proof.
  induction fuel as [|fuel IH]; intros j q_sol cnt q' j' L; cbn [inc_loop]; (destruct (Nat.ltb cnt mx); [|intros E; injection E as <- _; auto]); [discriminate|].
  unfold inc_state at 1. destruct (samples j tp) as [Ts| |]; cbn [bind]; try discriminate. destruct (py_index Ts 0) as [T| |]; cbn [bind]; try discriminate.
  replace (match ikp T with Some qs => keep_free (fun q s => (cc q, s)) qs (S j) q_sol | None => (q_sol, S j) end) with (q_sol ++ free cc (ikp T), S j).
  2:{ destruct (ikp T); cbn [free]; [rewrite keep_free_pure|rewrite app_nil_r]; reflexivity. }
  assert (L2 : Forall (fun q => length q = n) (q_sol ++ free cc (ikp T))) by (apply Forall_app; split; auto; apply (free_length n cc ikp Hlen)).
  destruct (Nat.leb mn _); [intros E; injection E as <- _; auto|]. apply IH; auto.
Qed.
Lemma inc_columns_eq fuel samples mn mx : forall path o j, Inv o ->
  snd (inc_columns get put prim to32 ik fuel samples scene path mn mx o j) =
  drop (cart_to_joint_incremental to32 ikp (fun q s => (cc q, s)) (inc_state samples) fuel path mn mx j).
Proof.
  induction path as [|tp path IH]; intros o j I; cbn [inc_columns cart_to_joint_incremental]; auto.
  destruct (inc_point_eq samples tp mn mx fuel o j [] 0%nat I) as [I1 E]. destruct (inc_point _ _ _ _ _ _ _ _ _ _ o j [] 0) as [o1 r]. cbn [fst snd] in *. subst r.
  destruct (inc_loop _ _ _ fuel tp mn mx j [] 0) as [[l j']| |] eqn:El; cbn [bind drop snd]; auto.
  rewrite (pack_total to32 n) by (eapply inc_loop_length; eauto). cbn [bind]. specialize (IH o1 j' I1). destruct (inc_columns _ _ _ _ _ _ _ _ path mn mx o1 j') as [o2 r]. cbn [snd] in *. subst r.
  unfold drop. destruct (cart_to_joint_incremental _ _ _ _ _ path mn mx j') as [[Q j2]| |]; reflexivity.
Qed.
End IncObj.

Section IncKuka.
Context (prim : shape -> mat3 -> vec3 -> shape -> mat3 -> vec3 -> bool) (to32 : R -> R) (a1 a2 d4 d6 : R) (Hne : a2 * d4 <> 0).
Context (k0 : kuka) (K0 : kuka_ok a1 a2 d4 d6 k0).
Notation rob := (k_rob k0).
Lemma kuka_inc_eq fuel samples scene path mn mx :
  snd (kuka_inc_columns prim to32 fuel samples scene path mn mx k0 0%nat) =
  drop (cart_to_joint_incremental to32 (kikp a1 a2 d4 d6 k0) (fun q s => (hit prim rob scene q, s)) (inc_state samples) fuel path mn mx 0%nat).
Proof.
  unfold kuka_inc_columns. apply (inc_columns_eq k_rob kuka_put prim to32 scene (kinv a1 a2 d4 d6 k0) 6).
  - intros o q. apply kinv_coll; auto.
  - intros o T. apply kinv_ik; auto.
  - apply kikp_length.
  - split; auto.
Qed.
Lemma kuka_inc_plan_eq {K : CostStruct} (sq_acc : K -> R -> R -> R -> K) pq fuel samples scene path mn mx :
  snd (kuka_inc_plan prim to32 sq_acc pq fuel samples scene path mn mx k0) =
  (Q <- snd (kuka_inc_columns prim to32 fuel samples scene path mn mx k0 0%nat) ;; get_shortest_path 1 sq_acc pq to32 Q "dijkstra" None).
Proof. unfold kuka_inc_plan, inc_plan, kuka_inc_columns. destruct (inc_columns _ _ _ _ _ _ _ _ _ _ _ _ 0). reflexivity. Qed.
(** a frame the samples of a point start with in some call *)
Definition first_sample (samples : nat -> pathpt -> res (list mat4)) (tp : pathpt) (T : mat4) : Prop := exists j Ts, samples j tp = Ok (T :: Ts).
Lemma free_kuka scene T : free (hit prim rob scene) (kikp a1 a2 d4 d6 k0 T) = kuka_free prim k0 scene T.
Proof. symmetry. apply kuka_free_spec; auto. Qed.
Lemma inc_enough fuel samples scene path mn mx Q : snd (kuka_inc_columns prim to32 fuel samples scene path mn mx k0 0%nat) = Ok Q ->
  Forall2 (fun tp e => exists Ts, Forall (first_sample samples tp) Ts /\ let found := flat_map (kuka_free prim k0 scene) in
    e = entry_of to32 (found Ts) /\ (Nat.min mn mx <= length (found Ts))%nat /\
    forall Ts1 T Ts2, Ts = Ts1 ++ T :: Ts2 -> (length (found Ts1) < mx)%nat /\ (Ts1 <> [] -> (length (found Ts1) < mn)%nat)) path Q.
Proof.
  rewrite kuka_inc_eq. unfold drop. destruct (cart_to_joint_incremental _ _ _ _ _ _ _ _ _) as [[Q' j]| |] eqn:E; cbn [bind]; try discriminate. intros H. injection H as ->.
  apply (incremental_enough to32 _ _ _ (hit prim rob scene)) in E; [|reflexivity]. eapply Forall2_impl'; [|exact E]. cbv beta. intros tp e (Ts & D & H1 & H2 & H3). exists Ts. split.
  - eapply Forall_impl; [|exact D]. intros T (s & Ts' & s' & Es & En). unfold inc_state in Es. destruct (samples s tp) as [Ts2| |] eqn:E2; cbn [bind] in Es; try discriminate. injection Es as <- _. destruct Ts2 as [|T' Ts2]; [discriminate|]. cbn in En. injection En as <-. exists s, Ts2. auto.
  - cbv zeta. assert (Ex : forall l, flat_map (kuka_free prim k0 scene) l = flat_map (fun t => free (hit prim rob scene) (kikp a1 a2 d4 d6 k0 t)) l) by (intros l; apply flat_map_ext; intros T; symmetry; apply free_kuka).
    rewrite Ex. split; auto. split; auto. intros Ts1 T Ts2 Et. rewrite Ex. apply (H3 _ _ _ Et).
Qed.
(** Tss lists the frames used for each point: the first ones of consecutive calls, starting with call j *)
Fixpoint in_turn (samples : nat -> pathpt -> res (list mat4)) (j : nat) (path : list pathpt) (Tss : list (list mat4)) : Prop :=
  match path, Tss with
  | [], [] => True
  | tp :: path', Ts :: Tss' => (forall i T, nth_error Ts i = Some T -> exists rest, samples (j + i)%nat tp = Ok (T :: rest)) /\ in_turn samples (j + length Ts)%nat path' Tss'
  | _, _ => False
  end.
Lemma inc_loop_turn (cc : list R -> bool) (ikp : mat4 -> option (list (list R))) samples tp mn mx : forall fuel j q_sol cnt q' j',
  inc_loop ikp (fun q s => (cc q, s)) (inc_state samples) fuel tp mn mx j q_sol cnt = Ok (q', j') ->
  exists Ts, j' = (j + length Ts)%nat /\ (forall i T, nth_error Ts i = Some T -> exists rest, samples (j + i)%nat tp = Ok (T :: rest)) /\ q' = q_sol ++ flat_map (fun T => free cc (ikp T)) Ts.
Proof.
  induction fuel as [|fuel IH]; intros j q_sol cnt q' j'; cbn [inc_loop]; (destruct (Nat.ltb cnt mx); [|intros E; injection E as <- <-; exists []; cbn; rewrite app_nil_r, Nat.add_0_r; split; auto; split; auto; intros [|i]; discriminate]); [discriminate|].
  unfold inc_state at 1. destruct (samples j tp) as [Ts| |] eqn:Es; cbn [bind]; try discriminate. destruct Ts as [|T rest]; cbn [py_index nth_error bind]; try discriminate.
  replace (match ikp T with Some qs => keep_free (fun q s => (cc q, s)) qs (S j) q_sol | None => (q_sol, S j) end) with (q_sol ++ free cc (ikp T), S j).
  2:{ destruct (ikp T); cbn [free]; [rewrite keep_free_pure|rewrite app_nil_r]; reflexivity. }
  destruct (Nat.leb mn _).
  - intros E. injection E as <- <-. exists [T]. cbn. rewrite app_nil_r. split; [lia|]. split; auto. intros [|[|i]] T'; try discriminate. intros E. injection E as <-. rewrite Nat.add_0_r. eauto.
  - intros E. apply IH in E. destruct E as (Ts & -> & H1 & ->). exists (T :: Ts). cbn [length flat_map]. split; [lia|]. split; [|rewrite <- app_assoc; reflexivity].
    intros [|i] T'; cbn [nth_error]; intros E; [injection E as <-; rewrite Nat.add_0_r; eauto|]. replace (j + S i)%nat with (S j + i)%nat by lia. auto.
Qed.
Lemma inc_draws fuel samples scene path mn mx Q : snd (kuka_inc_columns prim to32 fuel samples scene path mn mx k0 0%nat) = Ok Q ->
  exists Tss, in_turn samples 0 path Tss /\ Q = map (fun Ts => entry_of to32 (flat_map (kuka_free prim k0 scene) Ts)) Tss.
Proof.
  rewrite kuka_inc_eq. generalize 0%nat. revert Q. induction path as [|tp path IH]; intros Q j; cbn [cart_to_joint_incremental].
  - cbn. intros E. injection E as <-. exists []. split; [exact I|reflexivity].
  - destruct (inc_loop _ _ _ fuel tp mn mx j [] 0) as [[l j']| |] eqn:El; cbn [bind drop]; try discriminate.
    pose proof (inc_loop_length 6 (hit prim rob scene) (kikp a1 a2 d4 d6 k0) (kikp_length a1 a2 d4 d6 k0) samples tp mn mx fuel j [] 0%nat l j' (Forall_nil _) El) as L.
    rewrite (pack_total to32 6) by exact L. cbn [bind]. destruct (cart_to_joint_incremental _ _ _ _ _ path mn mx j') as [[Q' j2]| |] eqn:Ec; cbn [bind drop]; try discriminate. intros E. injection E as <-.
    apply inc_loop_turn in El. destruct El as (Ts & -> & H1 & ->). destruct (IH Q' (j + length Ts)%nat) as (Tss & H2 & ->); [rewrite Ec; reflexivity|].
    exists (Ts :: Tss). split; [split; auto|]. cbn [map app]. f_equal. f_equal. apply flat_map_ext. intros T. apply free_kuka.
Qed.
Lemma inc_rows {K : CostStruct} (sq_acc : K -> R -> R -> R -> K) pq fuel samples scene path mn mx rows c :
  snd (kuka_inc_plan prim to32 sq_acc pq fuel samples scene path mn mx k0) = Ok (GspOk rows c) ->
  Forall2 (fun tp row => exists T q, first_sample samples tp T /\ In q (kuka_free prim k0 scene T) /\ row = map to32 q) path rows.
Proof.
  rewrite kuka_inc_plan_eq. destruct (snd (kuka_inc_columns prim to32 fuel samples scene path mn mx k0 0)) as [Q| |] eqn:E; cbn [bind]; try discriminate. intros H. apply inc_enough in E.
  apply gsp_rows in H. destruct H as (Q' & Hd & Hr).
  assert (EQ : Q' = Q).
  { assert (A : Forall (fun e => (exists nc rows, e = QArr F32 nc rows) \/ e = QNil) Q). { clear - E. induction E as [|tp e path Q (Ts & _ & -> & _) _ IH]; constructor; auto. unfold entry_of. destruct (flat_map _ Ts); eauto. }
    destruct Q as [|e Q]; [discriminate|]. inversion A as [|? ? [(nc & rs & ->)| ->] _]; subst; cbn [check_dtype] in Hd; [congruence|discriminate]. }
  subst Q'. clear Hd. revert rows Hr. induction E as [|tp e path Q (Ts & D & -> & _) _ IH]; intros rows Hr; inversion Hr as [|? row ? rows' H1 H2]; subst; constructor; auto.
  assert (HI : exists q, In q (flat_map (kuka_free prim k0 scene) Ts) /\ row = map to32 q).
  { unfold entry_of, row_of in H1. destruct (flat_map (kuka_free prim k0 scene) Ts) as [|x l]; [destruct H1|]. apply in_map_iff in H1. destruct H1 as (q & <- & I). eauto. }
  destruct HI as (q & I & ->). apply in_flat_map in I. destruct I as (T & I1 & I2). rewrite Forall_forall in D. exists T, q. auto.
Qed.
Definition inc_ok (src : nat -> list (list R)) (tp : pathpt) : Prop := match tp with PFree p _ => forall j, pt_ok 1 (PFree p (src j)) | _ => pt_ok 1 tp end.
Lemma inc_sound {K : CostStruct} (sq_acc : K -> R -> R -> R -> K) pq fuel ypr fuel' src scene path mn mx rows c :
  exact_prim prim -> solid rob -> rigid_coll scene -> Forall (inc_ok src) path ->
  snd (kuka_inc_plan prim to32 sq_acc pq fuel (inc_samples ypr fuel' src) scene path mn mx k0) = Ok (GspOk rows c) ->
  Forall2 (fun tp row => exists q T, row = map to32 q /\ allowed tp T /\ reaches a2 d4 rob q T /\ clear rob scene q) path rows.
Proof.
  intros X Sd C P H. apply inc_rows in H. revert P. induction H as [|tp row path rows (T & q & (j & Ts & E) & I & ->) _ IH]; intros P; [constructor|]. inversion P as [|? ? P1 P2]; subst. constructor; auto.
  assert (A : allowed tp T).
  { destruct tp as [p|p|p|p rnd]; cbn [inc_samples inc_ok] in E, P1.
    1-3: destruct (pt_allowed ypr fuel' 1 _ P1) as (Ts' & E' & A); rewrite E in E'; injection E' as <-; apply A; left; auto.
    destruct (pt_allowed ypr fuel' 1 _ (P1 j)) as (Ts' & E' & A). rewrite E in E'. injection E' as <-. apply (A T). left; auto. }
  exists q, T. split; auto. split; auto. apply (kuka_free_sound prim a1 a2 d4 d6 Hne k0 K0 scene T q X Sd C (proj1 A) I).
Qed.
(** only the first grid sample is ever used *)
Lemma grid_first ypr fuel' src tp T ypr' f n : gridded tp -> first_sample (inc_samples ypr fuel' src) tp T -> exists Ts, pt_samples ypr' f n tp = Ok (T :: Ts).
Proof. intros G (j & Ts & E). exists Ts. destruct tp; cbn in *; tauto || exact E. Qed.
Lemma inc_never fuel ypr fuel' src scene tp path mn mx T Ts : gridded tp -> pt_samples ypr fuel' 1 tp = Ok (T :: Ts) -> kuka_free prim k0 scene T = [] -> (0 < mn)%nat -> (0 < mx)%nat ->
  snd (kuka_inc_columns prim to32 fuel (inc_samples ypr fuel' src) scene (tp :: path) mn mx k0 0%nat) = OutOfFuel.
Proof.
  intros G E Z Hn Hx. rewrite kuka_inc_eq. rewrite (incremental_diverges to32 _ _ _ (hit prim rob scene)); auto.
  intros s. exists T, Ts, (S s). rewrite free_kuka. split; auto. unfold inc_state. replace (inc_samples ypr fuel' src s tp) with (Ok (T :: Ts)); [reflexivity|]. destruct tp; cbn in *; tauto || auto.
Qed.
Lemma inc_ends samples scene path mn mx :
  (forall tp, In tp path -> forall j, exists T Ts, samples j tp = Ok (T :: Ts) /\ kuka_free prim k0 scene T <> []) ->
  exists Q, snd (kuka_inc_columns prim to32 mx samples scene path mn mx k0 0%nat) = Ok Q.
Proof.
  intros H. rewrite kuka_inc_eq. destruct (incremental_stops to32 (kikp a1 a2 d4 d6 k0) (fun q s => (hit prim rob scene q, s)) (inc_state samples) (hit prim rob scene) (fun _ _ => eq_refl) 6 mn mx) with (path := path) (st := 0%nat) as (Q & j & E).
  - intros t qs q E I. apply kikp_length in E. rewrite Forall_forall in E. auto.
  - intros tp s I. destruct (H tp I s) as (T & Ts & E & N). exists T, Ts, (S s). unfold inc_state. rewrite E, free_kuka. auto.
  - exists Q. rewrite E. reflexivity.
Qed.
End IncKuka.
