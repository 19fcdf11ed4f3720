(** * The cost function of pygraph.py is a distance: proofs of C155. *)
From Coq Require Import List Arith Lia Bool Reals Lra Psatz.
From Verif Require Import PyBase Cost SpecPath GraphCommon PyGraph PyGraphMain PyCost Mat Util Examples ExamplesProofs ErrorProofs.
Import ListNotations.
Local Open Scope R_scope.

(** ** Specification *)
(** vectors of n numbers with length one *)
Definition unit_vec (n : nat) (u : list R) : Prop := length u = n /\ fold_right (fun x s => x ^ 2 + s) 0 u = 1.
(** the value of the cost function *)
Definition arc (u v : list R) : R := acos (Rmin (Rabs (dot_sum u v)) 1).
Lemma arc_value u v : length u = length v -> py_cost u v = Ok (Some (arc u v)).
Proof. intros E. rewrite cost_shapes_ok; auto. Qed.

(** ** Products *)
Lemma dot_comm : forall u v, dot_sum u v = dot_sum v u.
Proof. induction u as [|x u IH]; intros [|y v]; cbn [dot_sum]; auto. rewrite IH. ring. Qed.
Lemma dot_self u : dot_sum u u = fold_right (fun x s => x ^ 2 + s) 0 u.
Proof. induction u as [|x u IH]; cbn [dot_sum fold_right]; auto. rewrite IH. ring. Qed.
Lemma dot_neg : forall u v, dot_sum (map Ropp u) v = - dot_sum u v.
Proof. induction u as [|x u IH]; intros [|y v]; cbn [dot_sum map]; try ring. rewrite IH. ring. Qed.
(** the square of a combination of three vectors *)
Lemma gram : forall u v w, length u = length v -> length v = length w -> forall r s t,
  0 <= r ^ 2 * dot_sum u u + s ^ 2 * dot_sum v v + t ^ 2 * dot_sum w w + 2 * (r * s * dot_sum u v) + 2 * (r * t * dot_sum u w) + 2 * (s * t * dot_sum v w).
Proof.
  induction u as [|x u IH]; intros [|y v] [|z w] L1 L2 r s t; try discriminate; cbn [dot_sum]; [lra|]. injection L1 as L1. injection L2 as L2.
  pose proof (IH v w L1 L2 r s t) as H. pose proof (pow2_ge_0 (r * x + s * y + t * z)) as Q. nra.
Qed.
Lemma form_disc p q m : 0 <= p -> 0 <= q -> (forall r t, 0 <= p * r ^ 2 + q * t ^ 2 + 2 * (m * (r * t))) -> m ^ 2 <= p * q.
Proof.
  intros Hp Hq H. destruct (Req_dec q 0) as [Z|N].
  - subst q. pose proof (H m (- (p + 1) / 2)) as A. assert (m ^ 2 <= 0) by nra. lra.
  - pose proof (H q (- m)) as A. assert (0 <= q * (p * q - m ^ 2)) by nra. assert (0 < q) by lra. nra.
Qed.
Lemma Rabs_def2_le x m : Rabs x <= m -> - m <= x <= m.
Proof. unfold Rabs. destruct (Rcase_abs x); lra. Qed.
Section Unit.
Context (n : nat).
Lemma unit_dot u : unit_vec n u -> dot_sum u u = 1.
Proof. intros [_ H]. rewrite dot_self. auto. Qed.
Lemma dot_le u v : unit_vec n u -> unit_vec n v -> Rabs (dot_sum u v) <= 1.
Proof.
  intros U V. pose proof (unit_dot u U) as A. pose proof (unit_dot v V) as B. destruct U as [LU _], V as [LV _].
  pose proof (gram u v v ltac:(congruence) eq_refl 1 1 0) as P. pose proof (gram u v v ltac:(congruence) eq_refl 1 (-1) 0) as Q. rewrite A, B in *. apply Rabs_le. lra.
Qed.
Lemma arc_unit u v : unit_vec n u -> unit_vec n v -> arc u v = acos (Rabs (dot_sum u v)).
Proof. intros U V. unfold arc. rewrite Rmin_left by (apply dot_le; auto). reflexivity. Qed.
Lemma arc_cos u v : unit_vec n u -> unit_vec n v -> cos (arc u v) = Rabs (dot_sum u v).
Proof. intros U V. rewrite arc_unit by auto. apply cos_acos. pose proof (dot_le u v U V). pose proof (Rabs_pos (dot_sum u v)). lra. Qed.
End Unit.
Lemma arc_range u v : 0 <= arc u v <= PI / 2.
Proof.
  unfold arc. set (m := Rmin _ 1). assert (0 <= m <= 1). { split; [apply Rmin_glb; [apply Rabs_pos|lra]|apply Rmin_r]. }
  split; [apply acos_bound|]. rewrite <- acos_0. apply acos_anti; lra.
Qed.
Lemma arc_sym u v : arc u v = arc v u.
Proof. unfold arc. rewrite dot_comm. reflexivity. Qed.
Lemma arc_sign u v : arc (map Ropp u) v = arc u v.
Proof. unfold arc. rewrite dot_neg, Rabs_Ropp. reflexivity. Qed.
Lemma dot_one : forall u v, length u = length v -> dot_sum u u + dot_sum v v - 2 * dot_sum u v = 0 -> u = v.
Proof.
  assert (P : forall u v, length u = length v -> 0 <= dot_sum u u + dot_sum v v - 2 * dot_sum u v) by (intros u v L; pose proof (gram u v v L eq_refl 1 (-1) 0); lra).
  induction u as [|x u IH]; intros [|y v] L H; try discriminate; auto. injection L as L. cbn [dot_sum] in H. pose proof (P u v L) as Q. pose proof (pow2_ge_0 (x - y)) as S.
  assert (x = y) by nra. f_equal; auto. apply IH; auto. nra.
Qed.
Lemma map_opp_opp u : map Ropp (map Ropp u) = u.
Proof. rewrite map_map. erewrite map_ext; [apply map_id|]. intros x. cbn. ring. Qed.
Lemma arc_zero n u v : unit_vec n u -> unit_vec n v -> arc u v = 0 <-> u = v \/ u = map Ropp v.
Proof.
  intros U V. pose proof (unit_dot n u U) as A. pose proof (unit_dot n v V) as B. pose proof (arc_cos n u v U V) as C. assert (L : length u = length v) by (destruct U, V; congruence). split.
  - intros Z. rewrite Z, cos_0 in C. unfold Rabs in C. destruct (Rcase_abs (dot_sum u v)).
    + right. apply dot_one; [rewrite map_length; auto|]. rewrite (dot_comm u (map Ropp v)), !dot_neg, (dot_comm v (map Ropp v)), dot_neg, (dot_comm v u), A, B. lra.
    + left. apply dot_one; auto. rewrite A, B. lra.
  - intros E. assert (E1 : Rabs (dot_sum u v) = 1) by (destruct E as [->| ->]; [rewrite B|rewrite dot_neg, B, Rabs_Ropp]; apply Rabs_R1). unfold arc. rewrite E1, Rmin_left, acos_1; lra.
Qed.
(** the triangle inequality *)
Lemma arc_triangle n u v w : unit_vec n u -> unit_vec n v -> unit_vec n w -> arc u w <= arc u v + arc v w.
Proof.
  intros U V W. pose proof (unit_dot n u U) as A. pose proof (unit_dot n v V) as B. pose proof (unit_dot n w W) as C. pose proof (dot_le n u v U V) as Ha. pose proof (dot_le n v w V W) as Hb. pose proof (dot_le n u w U W) as Hc.
  pose proof (arc_cos n u v U V) as CA. pose proof (arc_cos n v w V W) as CB. pose proof (arc_cos n u w U W) as CC. pose proof (arc_range u v) as RA. pose proof (arc_range v w) as RB. pose proof (arc_range u w) as RC.
  assert (G := gram u v w ltac:(destruct U, V; congruence) ltac:(destruct V, W; congruence)). rewrite A, B, C in G. set (a := dot_sum u v) in *. set (b := dot_sum v w) in *. set (c := dot_sum u w) in *.
  assert (D : (c - a * b) ^ 2 <= (1 - a ^ 2) * (1 - b ^ 2)).
  { assert (Ha' : -1 <= a <= 1) by (apply Rabs_def2_le; auto). assert (Hb' : -1 <= b <= 1) by (apply Rabs_def2_le; auto). apply form_disc; [nra|nra|]. intros r t. pose proof (G r (- (r * a + t * b)) t) as Z. nra. }
  set (x := arc u v) in *. set (y := arc v w) in *. set (z := arc u w) in *.
  assert (SX : sin x ^ 2 = 1 - a ^ 2). { pose proof (sin2_cos2 x) as T. unfold Rsqr in T. rewrite CA in T. replace (a ^ 2) with (Rabs a * Rabs a) by (rewrite <- Rabs_mult; replace (a * a) with (a ^ 2) by ring; apply Rabs_pos_eq, pow2_ge_0). lra. }
  assert (SY : sin y ^ 2 = 1 - b ^ 2). { pose proof (sin2_cos2 y) as T. unfold Rsqr in T. rewrite CB in T. replace (b ^ 2) with (Rabs b * Rabs b) by (rewrite <- Rabs_mult; replace (b * b) with (b ^ 2) by ring; apply Rabs_pos_eq, pow2_ge_0). lra. }
  pose proof PI_RGT_0. assert (S0 : 0 <= sin x) by (apply sin_ge_0; lra). assert (S1 : 0 <= sin y) by (apply sin_ge_0; lra).
  assert (E : Rabs (c - a * b) <= sin x * sin y).
  { rewrite <- SX, <- SY in D. apply Rsqr_incr_0_var; [|nra]. rewrite <- Rsqr_abs. unfold Rsqr. nra. }
  assert (K : cos (x + y) <= cos z).
  { rewrite cos_plus, CA, CB, CC, <- Rabs_mult. pose proof (Rabs_triang (a * b - c) c) as T. replace (a * b - c + c) with (a * b) in T by ring. rewrite Rabs_minus_sym in T. lra. }
  apply Rnot_lt_le. intros N. apply cos_decreasing_1 in N; lra.
Qed.

(** ** Paths *)
Fixpoint way (p : list (list R)) : R := match p with x :: ((y :: _) as p') => arc x y + way p' | _ => 0 end.
Lemma way_cost : forall p x acc, walk_cost_from (K := RCost) arc_cost (Some acc) x p = Some (acc + way (x :: p)).
Proof.
  induction p as [|y p IH]; intros x acc; cbn [walk_cost_from]; [cbn [way]; f_equal; ring|]. change (arc_cost x y) with (Some (arc x y) : RCost). change (cadd (Some acc : RCost) (Some (arc x y))) with (Some (acc + arc x y) : RCost).
  rewrite IH. f_equal. change (way (x :: y :: p)) with (arc x y + way (y :: p)). ring.
Qed.
Lemma way_walk p : walk_cost (K := RCost) arc_cost p = Some (way p).
Proof. destruct p as [|x p]; [reflexivity|]. cbn [walk_cost]. change (czero (c0 := RCost)) with (Some 0 : RCost). rewrite way_cost. f_equal. ring. Qed.
Lemma way_direct n : forall p x, Forall (unit_vec n) (x :: p) -> arc x (last p x) <= way (x :: p).
Proof.
  induction p as [|y p IH]; intros x H; inversion H as [|? ? Hx H']; subst.
  - cbn [last way]. rewrite (proj2 (arc_zero n x x Hx Hx)) by auto. lra.
  - change (way (x :: y :: p)) with (arc x y + way (y :: p)). pose proof (IH y H') as I. assert (E : last (y :: p) x = last p y).
    { clear. revert x y. induction p as [|z p IH]; intros x y; [reflexivity|]. change (last (y :: z :: p) x) with (last (z :: p) x). change (last (z :: p) y) with (last (z :: p) y). rewrite (IH x z), (IH y z). reflexivity. }
    rewrite E. inversion H' as [|? ? Hy Hp]; subst. assert (HL : unit_vec n (last p y)).
    { clear - Hy Hp. revert y Hy. induction p as [|z p IH]; intros y Hy; auto. inversion Hp; subst. cbn [last]. destruct p; auto. }
    pose proof (arc_triangle n x y _ Hx Hy HL). lra.
Qed.
Lemma way_bound : forall p, way p <= INR (length p - 1) * (PI / 2).
Proof.
  induction p as [|x [|y p] IH]; [cbn; lra|cbn; lra|]. change (way (x :: y :: p)) with (arc x y + way (y :: p)). replace (length (x :: y :: p) - 1)%nat with (S (length (y :: p) - 1)) by (cbn; lia).
  rewrite S_INR. pose proof (arc_range x y). lra.
Qed.
Lemma picks_len {D} : forall (Q : list (list D)) js p, picks Q js p -> length p = length Q.
Proof. induction Q as [|c Q IH]; intros [|j js] [|x p] H; cbn in H; try contradiction; auto. cbn. f_equal. eapply IH, H. Qed.
Lemma picks_all {D} (P : D -> Prop) : forall (Q : list (list D)) js p, Forall (Forall P) Q -> picks Q js p -> Forall P p.
Proof.
  induction Q as [|c Q IH]; intros [|j js] [|x p] F H; cbn in H; try contradiction; auto. inversion F as [|? ? Fc FQ]; subst. destruct H as [H1 H2]. constructor; [|eapply IH; eauto].
  rewrite Forall_forall in Fc. apply Fc. eapply nth_error_In; eauto.
Qed.
Lemma picks_some {D} : forall (Q : list (list D)), Forall (fun c => c <> []) Q -> exists js p, picks Q js p.
Proof.
  induction 1 as [|c Q N F (js & p & IH)]; [exists [], []; exact I|]. destruct c as [|x c]; [congruence|]. exists (0%nat :: js), (x :: p). split; auto.
Qed.
(** the search with the cost function, on columns of unit vectors *)
Lemma arc_search n data : data <> [] -> Forall (fun c => c <> []) data -> Forall (Forall (unit_vec n)) data ->
  exists x p, get_shortest_path (K := RCost) py_cost data = Ok (SpOk (x :: p) (Some (way (x :: p)) : RCost)) /\
    length (x :: p) = length data /\ Forall (unit_vec n) (x :: p) /\
    arc x (last p x) <= way (x :: p) <= INR (length data - 1) * (PI / 2) /\ forall js p', picks data js p' -> way (x :: p) <= way p'.
Proof.
  intros N0 NE U. assert (T : forall a b, adjacent data a b -> py_cost a b = Ok (arc_cost a b)).
  { apply (py_cost_total data n). eapply Forall_impl; [|exact U]. intros c. apply Forall_impl. intros u [L _]. exact L. }
  destruct (@pg_fails_iff RCost _ py_cost arc_cost data N0 T) as (r & E & F). destruct r as [|path c].
  1:{ exfalso. destruct (picks_some data NE) as (js & p & P). pose proof (proj1 F eq_refl js p P) as Z. rewrite way_walk in Z. discriminate. }
  destruct (@pg_agree RCost _ py_cost arc_cost data path c T E) as ((js & P) & W). pose proof (picks_len _ _ _ P) as L. pose proof (picks_all _ _ _ _ U P) as UP.
  rewrite way_walk in W. destruct path as [|x p]; [destruct data; [congruence|discriminate]|]. exists x, p. rewrite E, <- W. split; [reflexivity|]. split; [auto|]. split; [auto|]. split.
  - split; [apply (way_direct n); auto|]. rewrite <- L. apply way_bound.
  - intros js' p' P'. pose proof (@pg_optimal RCost _ py_cost arc_cost data (x :: p) c T E js' p' P') as O. rewrite <- W, way_walk in O. unfold cle in O. cbn [clt RCost xrlt] in O. apply rltb_false in O. exact O.
Qed.

(** ** Vectors of other lengths *)
Lemma arc_short : exists u v : list R, length u = length v /\ arc u u <> 0 /\ arc v u = 0 /\ v <> u /\ v <> map Ropp u.
Proof.
  exists [1 / 2], [2]. split; [reflexivity|]. unfold arc. cbn [dot_sum map]. split; [|split; [|split; intros H; injection H; lra]].
  - replace (1 / 2 * (1 / 2) + 0) with (1 / 4) by lra. rewrite Rabs_pos_eq by lra. rewrite Rmin_left by lra. intros Z. assert (C : cos (acos (1 / 4)) = 1 / 4) by (apply cos_acos; lra). rewrite Z, cos_0 in C. lra.
  - replace (2 * (1 / 2) + 0) with 1 by lra. rewrite Rabs_R1, Rmin_left by lra. apply acos_1.
Qed.
