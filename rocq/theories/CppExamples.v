(** * Instances used by the graph.cpp theorems: exact squared differences and a
    queue that searches for the minimum. *)
From Coq Require Import List Arith Lia Bool ZArith Permutation Reals Lra.
From Verif Require Import PyBase Cost SpecPath GraphCommon GraphProofs CppGraph CppGraphProofs CppSearch CppMain.
Import ListNotations.
Local Open Scope nat_scope.

(** graph.cpp:183 [cost += weights[i] * pow(n1[i] - n2[i], 2.0)], exact. *)
Definition zsq (acc : ZCost) (w a b : Z) : ZCost := zadd acc (Some (w * ((a - b) * (a - b)))%Z).
Definition rsq (acc : RCost) (w a b : R) : RCost := xradd acc (Some (w * ((a - b) * (a - b)))%R).

Lemma rsq_wsq : forall w a b (acc : R), exists d, wsq (K := RCost) rsq (Some acc) w a b = Some (acc + d)%R /\
  (Forall (fun x => 0 <= x)%R w -> (0 <= d)%R).
Proof.
  induction w as [|wi w IH]; intros [|x a] [|y b] acc; cbn [wsq];
    try (exists 0%R; split; [f_equal; lra|intros; lra]).
  unfold rsq at 2. cbn [xradd]. destruct (IH a b (acc + wi * ((y - x) * (y - x)))%R) as (d & E & Hd).
  exists (wi * ((y - x) * (y - x)) + d)%R. split; [rewrite E; f_equal; lra|].
  intros Hw. inversion Hw; subst. specialize (Hd H2). pose proof (Rle_0_sqr (y - x)) as Hs. unfold Rsqr in Hs. nra.
Qed.
Lemma rsq_jcost w a b : exists d, jcost (K := RCost) rsq w a b = Some d /\ (Forall (fun x => 0 <= x)%R w -> (0 <= d)%R).
Proof. destruct (rsq_wsq w a b 0) as (d & E & H). exists d. unfold jcost. simpl czero. rewrite E. split; [f_equal; lra|auto]. Qed.

Lemma rsq_nonneg w (d : RCost) a b : Forall (fun x => 0 <= x)%R w -> cle d (cadd d (jcost (K := RCost) rsq w a b)).
Proof.
  intros Hw. destruct (rsq_jcost w a b) as (e & E & He). rewrite E. unfold cle. simpl. destruct d as [d|]; simpl; auto.
  apply rltb_false. specialize (He Hw). lra.
Qed.
Lemma rsq_finite w : forall p, clt (walk_cost (K := RCost) (jcost (K := RCost) rsq w) p) cinf = true.
Proof.
  assert (H : forall p x acc, acc <> None -> walk_cost_from (K := RCost) (jcost (K := RCost) rsq w) acc x p <> None).
  { induction p as [|y p IH]; intros x acc Ha; cbn [walk_cost_from]; auto. apply IH.
    destruct (rsq_jcost w x y) as (d & -> & _). simpl. destruct acc; [discriminate|congruence]. }
  intros [|x p]; [reflexivity|]. cbn [walk_cost]. specialize (H p x (Some 0%R)).
  change (@czero RCost) with (Some 0%R). simpl. match goal with |- xrlt ?v None = true => destruct v; auto end. exfalso. apply H; [discriminate|reflexivity].
Qed.

(** A list searched for its first least element. *)
Section Scan.
Context {K : CostStruct} {F : Type}.
Fixpoint scan (a : narr K (list F)) (best : ref) (seen rest : list ref) : ref * list ref :=
  match rest with
  | [] => (best, seen)
  | r :: rest' => if clt (dist_of a r) (dist_of a best) then scan a r (best :: seen) rest' else scan a best (r :: seen) rest'
  end.
Definition scan_queue : pqueue K F :=
  mkPQ (fun _ q r => r :: q) (fun a q => match q with [] => None | r :: q' => Some (scan a r [] q') end).

Lemma scan_spec a : forall rest best seen r q', scan a best seen rest = (r, q') ->
  Permutation (best :: seen ++ rest) (r :: q') /\ cle (dist_of a r) (dist_of a best) /\
  forall x, In x rest -> cle (dist_of a r) (dist_of a x).
Proof.
  induction rest as [|y rest IH]; intros best seen r q' H; cbn [scan] in H.
  - injection H as <- <-. rewrite app_nil_r. split; auto. split; [apply cle_refl|]. intros x [].
  - destruct (clt (dist_of a y) (dist_of a best)) eqn:E; apply IH in H; destruct H as (H1 & H2 & H3).
    + split; [rewrite <- H1; simpl|].
      * rewrite (Permutation_middle (best :: seen) rest y). reflexivity.
      * split; [eapply cle_trans; [exact H2|apply clt_cle; auto]|]. intros x [<-|Hx]; auto.
    + split; [rewrite <- H1; simpl; constructor; symmetry; apply Permutation_middle|].
      split; auto. intros x [<-|Hx]; auto. eapply cle_trans; [exact H2|exact E].
Qed.
Lemma scan_queue_ok : pq_ok scan_queue.
Proof.
  constructor; simpl; auto.
  - intros a [|x q]; split; try discriminate; auto.
  - intros a [|x q] r q' H; [discriminate|]. destruct (scan a x [] q) as [r0 q0] eqn:E. injection H as <- <-.
    apply scan_spec in E. apply E.
Qed.
Lemma scan_queue_min : pops_minimum scan_queue.
Proof.
  intros a [|x q] r q' H y Hy; [discriminate|]. simpl in H. destruct (scan a x [] q) as [r0 q0] eqn:E. injection H as <- <-.
  apply scan_spec in E. destruct E as (_ & E1 & E2). destruct Hy as [<-|Hy]; auto.
Qed.
End Scan.
