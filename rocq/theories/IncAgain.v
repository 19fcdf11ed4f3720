(** * The incremental planner ends when solutions keep turning up. *)
From Coq Require Import String Reals Lra Lia Psatz List Bool Arith ZArith.
From Verif Require Import PyBase Cost SpecPath GraphCommon CppGraph CppGraphProofs CppSearch CppHeap CppMain CppFinal CppExamples Mat Util UtilProofs HaltonProofs Geometry GeometryProofs Robot RobotProofs RobotForms Ik IkProofs KukaProofs RailProofs Path PathProofs Planning PlanningProofs PlanningCart PlanningIter Resources ResourcesProofs TaskProofs Pipeline PipelineProofs PipelineExamples Iterative IterativeProofs.
Import ListNotations.

Section Recurs.
Context (cc : list R -> bool) (ikp : mat4 -> option (list (list R))) (samples : nat -> pathpt -> res (list mat4)) (tp : pathpt) (mn mx : nat).
Context (every : forall j, exists T Ts, samples j tp = Ok (T :: Ts)) (again : forall j, exists d T Ts, samples (j + d) tp = Ok (T :: Ts) /\ free cc (ikp T) <> []).
Notation loop := (inc_loop ikp (fun q s => (cc q, s)) (inc_state samples)).
Lemma loop_done fuel j q_sol cnt : mx <= cnt -> loop fuel tp mn mx j q_sol cnt = Ok (q_sol, j).
Proof. intros H. destruct fuel; cbn [inc_loop]; (destruct (Nat.ltb_spec cnt mx); [lia|reflexivity]). Qed.
Lemma loop_ends : forall n cnt, mx - cnt <= n -> forall d j, (exists T Ts, samples (j + d) tp = Ok (T :: Ts) /\ free cc (ikp T) <> []) ->
  forall q_sol, exists r f0, forall fuel, f0 <= fuel -> loop fuel tp mn mx j q_sol cnt = Ok r.
Proof.
  induction n as [|n IHn]; intros cnt Hn.
  - intros d j _ q_sol. exists (q_sol, j), 0. intros fuel _. apply loop_done. lia.
  - induction d as [|d IHd]; intros j Hd q_sol; (destruct (Nat.leb_spec mx cnt) as [Hc|Hc]; [exists (q_sol, j), 0; intros fuel _; apply loop_done; lia|]);
      destruct (every j) as (T & Ts & ET); set (new := free cc (ikp T));
      assert (step : forall fuel, loop (S fuel) tp mn mx j q_sol cnt = if mn <=? cnt + length new then Ok (q_sol ++ new, S j) else loop fuel tp mn mx (S j) (q_sol ++ new) (cnt + length new)).
    1,3: intros fuel; cbn [inc_loop]; (destruct (Nat.ltb_spec cnt mx); [|lia]); unfold inc_state at 1; rewrite ET; cbn [bind py_index nth_error];
      (replace (match ikp T with Some qs => keep_free (fun q s => (cc q, s)) qs (S j) q_sol | None => (q_sol, S j) end) with (q_sol ++ new, S j) by (unfold new; destruct (ikp T); cbn [free]; [rewrite keep_free_pure|rewrite app_nil_r]; reflexivity));
      rewrite app_length; replace (length q_sol + length new - length q_sol) with (length new) by lia; reflexivity.
    all: destruct (Nat.leb_spec mn (cnt + length new)) as [Hm|Hm]; [exists (q_sol ++ new, S j), 1; intros [|fuel] Hf; [lia|rewrite step; reflexivity]|].
    + assert (N : 1 <= length new). { destruct Hd as (T' & Ts' & E' & F). rewrite Nat.add_0_r, ET in E'. injection E' as <- <-. unfold new. destruct (free cc (ikp T)); [congruence|cbn; lia]. }
      destruct (again (S j)) as (d' & A). destruct (IHn (cnt + length new) ltac:(lia) d' (S j) A (q_sol ++ new)) as (r & f0 & E). exists r, (S f0). intros [|fuel] Hf; [lia|]. rewrite step. apply E. lia.
    + destruct (Nat.eq_dec (length new) 0) as [Z|Z].
      * destruct (IHd (S j)) with (q_sol := q_sol ++ new) as (r & f0 & E); [replace (S j + d) with (j + S d) by lia; exact Hd|]. exists r, (S f0). intros [|fuel] Hf; [lia|]. rewrite step, Z, Nat.add_0_r. apply E. lia.
      * destruct (again (S j)) as (d' & A). destruct (IHn (cnt + length new) ltac:(lia) d' (S j) A (q_sol ++ new)) as (r & f0 & E). exists r, (S f0). intros [|fuel] Hf; [lia|]. rewrite step. apply E. lia.
Qed.
End Recurs.

Section RecursKuka.
Context (prim : shape -> mat3 -> vec3 -> shape -> mat3 -> vec3 -> bool) (to32 : R -> R) (a1 a2 d4 d6 : R) (Hne : (a2 * d4 <> 0)%R).
Context (k0 : kuka) (K0 : kuka_ok a1 a2 d4 d6 k0).
Notation rob := (k_rob k0).
(** every call gives a frame, and calls whose first frame has a clear solution keep coming *)
Definition recurs samples scene (tp : pathpt) : Prop := (forall j, exists T Ts, samples j tp = Ok (T :: Ts)) /\
  forall j, exists j' T Ts, j <= j' /\ samples j' tp = Ok (T :: Ts) /\ kuka_free prim k0 scene T <> [].
Lemma inc_ends_again samples scene path mn mx : Forall (recurs samples scene) path ->
  exists Q f0, forall fuel, f0 <= fuel -> snd (kuka_inc_columns prim to32 fuel samples scene path mn mx k0 0) = Ok Q.
Proof.
  intros H. assert (G : forall j, exists Q j' f0, forall fuel, f0 <= fuel -> cart_to_joint_incremental to32 (kikp a1 a2 d4 d6 k0) (fun q s => (hit prim rob scene q, s)) (inc_state samples) fuel path mn mx j = Ok (Q, j')).
  2:{ destruct (G 0) as (Q & j' & f0 & E). exists Q, f0. intros fuel Hf. rewrite (kuka_inc_eq prim to32 a1 a2 d4 d6 Hne k0 K0), (E fuel Hf). reflexivity. }
  induction H as [|tp path [He Ha] _ IH]; intros j; cbn [cart_to_joint_incremental]; [exists [], j, 0; auto|].
  assert (again : forall j, exists d T Ts, samples (j + d) tp = Ok (T :: Ts) /\ free (hit prim rob scene) (kikp a1 a2 d4 d6 k0 T) <> []).
  { intros i. destruct (Ha i) as (j' & T & Ts & L & E & N). exists (j' - i), T, Ts. replace (i + (j' - i)) with j' by lia. rewrite (free_kuka prim a1 a2 d4 d6 Hne k0 K0). auto. }
  destruct (again j) as (d & A). destruct (loop_ends (hit prim rob scene) (kikp a1 a2 d4 d6 k0) samples tp mn mx He again (mx - 0) 0 (le_n _) d j A []) as ([l j1] & f1 & E1).
  destruct (IH j1) as (Q & j2 & f2 & E2). exists (entry_of to32 l :: Q), j2, (Nat.max f1 f2). intros fuel Hf. rewrite (E1 fuel) by lia. cbn [bind].
  rewrite (pack_total to32 6); [|eapply inc_loop_length; [apply kikp_length| |exact (E1 fuel ltac:(lia))]; constructor]. cbn [bind]. rewrite E2 by lia. reflexivity.
Qed.
(** and so the planner succeeds *)
Lemma inc_succeeds samples scene path mn mx pq : path <> [] -> 0 < mn -> 0 < mx -> pq_ok pq -> Forall (recurs samples scene) path ->
  exists rows f0, let cost := walk_cost (K := RCost) (jcost (K := RCost) rsq (eff_weights 1%R 6 None)) in
    forall fuel, f0 <= fuel -> snd (kuka_inc_plan prim to32 (K := RCost) rsq pq fuel samples scene path mn mx k0) = Ok (GspOk rows (cost rows)).
Proof.
  intros Hp Hn Hx Hq H. destruct (inc_ends_again samples scene path mn mx H) as (Q & f0 & E).
  pose proof (inc_enough prim to32 a1 a2 d4 d6 Hne k0 K0 f0 samples scene path mn mx Q (E f0 (le_n _))) as F.
  assert (D : exists data, Q = arrays F32 6 data /\ length data = length path /\ uniform 6 data /\ Forall (fun col => col <> []) data).
  { clear - F Hn Hx Hne K0. induction F as [|tp e path Q (Ts & _ & -> & L & _) _ (data & -> & L' & U & N)]; [exists []; repeat split; constructor|].
    pose proof (kuka_free_length prim a1 a2 d4 d6 Hne k0 K0 scene Ts) as L6. destruct (flat_map (kuka_free prim k0 scene) Ts) as [|q l] eqn:Ef; [cbn in L; lia|].
    exists (map (map to32) (q :: l) :: data). inversion L6 as [|? ? Lq _]; subst. split; [cbn [arrays map]; f_equal; unfold entry_of; rewrite Lq; reflexivity|]. split; [cbn; congruence|]. split.
    - constructor; auto. apply Forall_map. eapply Forall_impl; [|exact L6]. intros x Hl. rewrite map_length. exact Hl.
    - constructor; auto. discriminate. }
  destruct D as (data & -> & L & U & N). assert (Hd : data <> []) by (intros Z; subst data; destruct path; [congruence|discriminate]).
  destruct (gsp_dij_spec (K := RCost) 1%R rsq pq to32 F32 6 data None U Hd N Hq) as (js & p & H1 & _); [intros; apply rsq_finite|].
  exists p, f0. intros cost fuel Hf. rewrite (kuka_inc_plan_eq prim to32 k0), (E fuel Hf). exact H1.
Qed.
End RecursKuka.
