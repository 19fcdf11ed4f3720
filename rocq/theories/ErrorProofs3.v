(** * Exceptions of dp.py, the example scripts, the box reader and the Kuka; the
    boxes drawn for the planar arm. *)
From Coq Require Import String Reals Lra Lia List Bool Arith ZArith.
From Verif Require Import PyBase Cost SpecPath Dp Mat Util Geometry GeometryProofs Robot RobotProofs Ik Path Planning PlanningProofs Resources ResourcesProofs Pipeline Examples.
From Verif Require Io.
Import ListNotations.
Local Open Scope R_scope.

(** ** dp.py *)
Section D.
Context {K : CostStruct}.
Lemma mapM_only {A B} (f : A -> res B) e l : (forall x, In x l -> (exists y, f x = Ok y) \/ f x = Raise e) -> (exists ys, mapM f l = Ok ys) \/ mapM f l = Raise e.
Proof.
  induction l as [|x l IH]; intros H; [left; eexists; reflexivity|]. cbn [mapM]. destruct (H x (or_introl eq_refl)) as [(y & ->)| ->]; [|right; reflexivity]. cbn [bind].
  destruct IH as [(ys & ->)| ->]; [intros z Hz; apply H; right; auto|left; eexists; reflexivity|right; reflexivity].
Qed.
Lemma mapM_len {X Y} (f : X -> res Y) : forall l ys, mapM f l = Ok ys -> length ys = length l.
Proof.
  induction l as [|x l IH]; intros ys H; cbn [mapM] in H; [injection H as <-; reflexivity|]. destruct (f x); cbn [bind] in H; try discriminate. destruct (mapM f l) as [zs| |]; cbn [bind] in H; try discriminate. injection H as <-. cbn. f_equal. auto.
Qed.
Lemma step_only (c : matrix K) v : (exists r, bellman_step c v = Ok r) \/ bellman_step c v = Raise ValueError.
Proof.
  unfold bellman_step. destruct (mapM_only (fun row => row_add row v) ValueError (m_rows c)) as [(rhs & E)|E].
  { intros row _. unfold row_add. destruct (Nat.eqb _ _); [left; eauto|]. destruct row as [|x [|? ?]], v as [|y [|? ?]]; eauto. }
  2:{ rewrite E. right. reflexivity. }
  rewrite E. cbn [bind]. destruct (Nat.eqb _ 0); [right; reflexivity|].
  destruct (mapM_only min_list ValueError rhs) as [(m & M)|M]; [intros [|] _; cbn; eauto|rewrite M; cbn [bind]|rewrite M; right; reflexivity].
  destruct (mapM_only argmin ValueError rhs) as [(a & A)|A]; [intros [|] _; cbn; eauto|rewrite A; left; cbn [bind]; eauto|rewrite A; right; reflexivity].
Qed.
Lemma loop_shape : forall (tcs : list (matrix K)) d vis vs, bellman_loop tcs d = Ok (vis, vs) -> exists v vs', vs = v :: vs' /\ length v = match tcs with [] => d | c :: _ => length (m_rows c) end.
Proof.
  intros [|c tcs] d vis vs E; cbn [bellman_loop] in E.
  - injection E as <- <-. eexists _, _. split; [reflexivity|]. apply repeat_length.
  - destruct (bellman_loop tcs d) as [[vi0 vs0]| |]; cbn [bind] in E; try discriminate. destruct vs0 as [|vn vs0]; [discriminate|]. destruct (bellman_step c vn) as [[vi v]| |] eqn:B; cbn [bind] in E; try discriminate. injection E as <- <-.
    eexists _, _. split; [reflexivity|]. unfold bellman_step in B. destruct (mapM _ (m_rows c)) as [rhs| |] eqn:M1; cbn [bind] in B; try discriminate. destruct (Nat.eqb _ 0); [discriminate|].
    destruct (mapM min_list rhs) as [m| |] eqn:M2; cbn [bind] in B; try discriminate. destruct (mapM argmin rhs) as [a| |]; cbn [bind] in B; try discriminate. injection B as _ <-.
    rewrite <- (mapM_len _ _ _ M1). exact (mapM_len _ _ _ M2).
Qed.
Lemma loop_only : forall (tcs : list (matrix K)) d, (exists r, bellman_loop tcs d = Ok r) \/ bellman_loop tcs d = Raise ValueError.
Proof.
  induction tcs as [|c tcs IH]; intros d; cbn [bellman_loop]; [left; eauto|]. destruct (IH d) as [([vis vs] & E)|E]; rewrite E; [|right; reflexivity]. cbn [bind].
  destruct (loop_shape _ _ _ _ E) as (v & vs' & -> & _). destruct (step_only c v) as [([vi w] & F)|F]; rewrite F; [left; cbn [bind]; eauto|right; reflexivity].
Qed.
(** a value function, or ValueError *)
Lemma value_only (tcs : list (matrix K)) : tcs <> [] -> (exists r, calculate_value_function tcs = Ok r) \/ calculate_value_function tcs = Raise ValueError.
Proof.
  intros N. unfold calculate_value_function, py_last. destruct (rev tcs) as [|l t] eqn:E; [|cbn [bind]; apply loop_only]. apply (f_equal (@length _)) in E. rewrite rev_length in E. destruct tcs; [congruence|discriminate].
Qed.
Lemma value_none : calculate_value_function (@nil (matrix K)) = Raise IndexError.
Proof. reflexivity. Qed.
Lemma py_last_cons {A} (x y : A) l : py_last (x :: y :: l) = py_last (y :: l).
Proof. unfold py_last. cbn [rev]. destruct (rev l ++ [y]) eqn:E; [destruct (rev l); discriminate|]. reflexivity. Qed.
(** two matrices that do not fit *)
Lemma value_mismatch (c c2 : matrix K) rest : m_rows c <> [] -> Forall (fun row => length row <> length (m_rows c2) /\ length row <> 1%nat) (m_rows c) -> length (m_rows c2) <> 1%nat ->
  calculate_value_function (c :: c2 :: rest) = Raise ValueError.
Proof.
  intros N F L. unfold calculate_value_function. rewrite py_last_cons. destruct (py_last (c2 :: rest)) as [l| |] eqn:PL.
  2,3: (exfalso; unfold py_last in PL; destruct (rev (c2 :: rest)) eqn:E; [|discriminate]; apply (f_equal (@length _)) in E; rewrite rev_length in E; discriminate).
  cbn [bind]. change (bellman_loop (c :: c2 :: rest) (m_cols l)) with ('(vis, vs) <- bellman_loop (c2 :: rest) (m_cols l) ;; match vs with [] => Raise IndexError | v_next :: _ => '(vi, v) <- bellman_step c v_next ;; Ok (vi :: vis, v :: vs) end).
  destruct (loop_only (c2 :: rest) (m_cols l)) as [([vis vs] & E)|E]; rewrite E; [|reflexivity]. cbn [bind]. destruct (loop_shape _ _ _ _ E) as (v & vs' & -> & Lv).
  assert (B : bellman_step c v = Raise ValueError); [|rewrite B; reflexivity]. unfold bellman_step. destruct (m_rows c) as [|row rows]; [congruence|]. inversion F as [|? ? [F1 F2] _]; subst. cbn [mapM].
  assert (A : row_add row v = Raise ValueError); [|rewrite A; reflexivity]. unfold row_add. rewrite (proj2 (Nat.eqb_neq _ _)) by congruence. destruct row as [|x [|? ?]], v as [|y [|? ?]]; cbn [length] in *; try congruence; try lia; reflexivity.
Qed.
End D.

(** a matrix of whole numbers *)
Definition zmat (n : nat) (rows : list (list Z)) : matrix ZCost := {| m_cols := n; m_rows := map (map (fun z => Some z : ZCost)) rows |}.

(** ** io.py *)
Lemma box_size d sz l : Io.getitem d "size" = Ok sz -> Io.nums sz = Ok l -> length l <> 3%nat -> Io.create_box d = Raise TypeError.
Proof. intros E1 E2 L. unfold Io.create_box. rewrite E1. cbn [bind]. rewrite E2. cbn [bind]. destruct l as [|? [|? [|? [|? ?]]]]; try reflexivity. exfalso. apply L. reflexivity. Qed.

(** ** robots.py *)
Lemma helper_short k T Tw : kuka_target (k_rob k) T = Ok Tw -> (length (r_links (k_arm k)) < 3)%nat -> kuka_ik k T = (k, Raise IndexError).
Proof.
  intros E L. unfold kuka_ik. rewrite E. assert (A : arm2_ik (k_arm k) Tw = Raise IndexError); [|rewrite A; reflexivity].
  unfold arm2_ik, link_a, py_index. destruct (r_links (k_arm k)) as [|l1 [|l2 [|l3 ls]]]; try reflexivity. cbn in L. lia.
Qed.
Lemma tapply_eye4 v : tapply eye4 v = v.
Proof. unfold eye4; vring. Qed.
(** the corners of the boxes of the planar arm *)
Lemma planar_corners a1 a2 a3 : Forall2 (fun (g : coll) a => exists s T, g = Coll [s] [T] /\
  forall x, In x (get_vertices s T) <-> Rabs (vx x) = Rabs a / 4 /\ Rabs (vy x) = 0.05 /\ Rabs (vz x) = 0.05) (planar_geom a1 a2 a3) [a1; a2; a3].
Proof.
  assert (G : forall a, exists s T, coll1 (Shape (- a / 2) 0.1 0.1) eye4 = Coll [s] [T] /\
    forall x, In x (get_vertices s T) <-> Rabs (vx x) = Rabs a / 4 /\ Rabs (vy x) = 0.05 /\ Rabs (vz x) = 0.05).
  { intros a. eexists _, _. split; [reflexivity|]. intros x. destruct (vertices_corners (Shape (- a / 2) 0.1 0.1) eye4) as (cs & -> & _ & A). rewrite in_map_iff. split.
    - intros ([[b1 b2] b3] & <- & _). rewrite tapply_eye4. unfold corner. cbn [vx vy vz dx dy dz]. replace (- a / 2 / 2) with (- (a / 4)) by lra.
      assert (Q : forall b y, Rabs (GeometryProofs.sgn b y) = Rabs y) by (intros [] y; cbn; rewrite ?Rabs_Ropp; reflexivity). rewrite !Q, Rabs_Ropp. unfold Rdiv. rewrite Rabs_mult, (Rabs_pos_eq (/ 4)), (Rabs_pos_eq (0.1 * / 2)) by lra. lra.
    - intros (X & Y & Z). assert (Q : forall y c, Rabs y = Rabs c -> exists b, y = GeometryProofs.sgn b c). { intros y c H. destruct (Rcase_abs y), (Rcase_abs c); unfold Rabs in H; destruct (Rcase_abs y), (Rcase_abs c); try lra; [exists true|exists false|exists false|exists true]; cbn; lra. }
      destruct (Q (vx x) (- a / 2 / 2)) as (b1 & E1). { rewrite X. replace (- a / 2 / 2) with (- (a * / 4)) by lra. rewrite Rabs_Ropp, Rabs_mult, (Rabs_pos_eq (/ 4)) by lra. lra. }
      destruct (Q (vy x) (0.1 / 2)) as (b2 & E2); [rewrite Y, Rabs_pos_eq; lra|]. destruct (Q (vz x) (0.1 / 2)) as (b3 & E3); [rewrite Z, Rabs_pos_eq; lra|].
      exists (b1, b2, b3). split; [|apply A]. rewrite tapply_eye4. unfold corner. cbn [dx dy dz]. rewrite <- E1, <- E2, <- E3. destruct x; reflexivity. }
  repeat constructor; apply G.
Qed.

(** ** examples *)
Lemma pass_none prim tool scene path tp : In tp path -> (forall q, In q (pp_s tp) -> is_in_collision prim (fst tool) scene (Some (tool_frame (snd tool) q (pp_p tp))) None = true) -> exists e, pass_plan prim tool scene path = Raise e.
Proof.
  intros I H. unfold pass_plan. replace (existsb _ _) with true; [eauto|]. symmetry. apply existsb_exists. exists (pass_row prim tool scene tp). split; [apply in_map; auto|].
  unfold pass_row. rewrite map_length. replace (filter _ (pp_s tp)) with (@nil quat); [reflexivity|]. symmetry. induction (pp_s tp) as [|q l IH]; [reflexivity|]. cbn [filter]. rewrite (H q (or_introl eq_refl)). cbn [negb]. apply IH. intros q' Hq. apply H. right. exact Hq.
Qed.
Lemma table_raises {O} (get : O -> robot) put prim to32 ik disc scene tp path T Ts qt q_table F g qf tb o l e :
  disc tp = Ok (AFrame T :: Ts) -> snd (fk tb qt) = Ok F -> snd (ik o (tmul F T) g) = Raise e ->
  snd (table_columns get put prim to32 ik disc scene (tp :: path) (qt :: q_table) (g :: qf) tb o l) = Raise e.
Proof.
  intros E1 E2 E3. cbn [table_columns]. rewrite E1. cbn [table_frames table_turns]. destruct (fk tb qt) as [tb' F']. cbn [snd] in E2. subst F'. cbn [solve_fixed].
  destruct (ik o (tmul F T) g) as [o' r]. cbn [snd] in E3. subst r. reflexivity.
Qed.
