(** * The cost function of acrobotics/pygraph.py over the reals. *)
From Coq Require Import List Arith Lia Bool Reals Lra.
From Verif Require Import PyBase Cost SpecPath.
Import ListNotations.

(** numpy u @ v of two 1-d arrays; different lengths raise ValueError.
    Simplification: exact real arithmetic instead of float64. *)
Fixpoint dot_sum (u v : list R) : R :=
  match u, v with
  | x :: u', y :: v' => (x * y + dot_sum u' v')%R
  | _, _ => 0%R
  end.
Definition np_dot (u v : list R) : res R :=
  if Nat.eqb (length u) (length v) then Ok (dot_sum u v) else Raise ValueError.

(** pygraph.py:20-21 cost_function: arccos(min(|u @ v|, 1.0)) *)
Definition arc_cost (u v : list R) : RCost := Some (acos (Rmin (Rabs (dot_sum u v)) 1)).
Definition py_cost (u v : list R) : res RCost :=
  d <- np_dot u v ;; Ok (Some (acos (Rmin (Rabs d) 1)) : RCost).

Lemma py_cost_total data n : Forall (Forall (fun u => length u = n)) data ->
  forall x y, adjacent data x y -> py_cost x y = Ok (arc_cost x y).
Proof.
  intros H x y (i & c1 & c2 & H1 & H2 & Hx & Hy).
  rewrite Forall_forall in H. pose proof (nth_error_In _ _ H1) as I1. pose proof (nth_error_In _ _ H2) as I2.
  apply H in I1, I2. rewrite Forall_forall in I1, I2. apply I1 in Hx. apply I2 in Hy.
  unfold py_cost, np_dot. rewrite Hx, Hy, Nat.eqb_refl. reflexivity.
Qed.
