(** * Property theorems C155: the cost function of pygraph.py as a distance.

    [unit_vec n u]: u has n numbers and their squares add up to one.  [arc u v]:
    the number that [py_cost] returns (see C155_value).  [way p]: the sum of [arc]
    over the successive vectors of p. *)
From Coq Require Import List Arith Lia Bool Reals Lra.
From Verif Require Import PyBase Cost SpecPath PyGraph PyCost PyCostProofs.
Import ListNotations.
Local Open Scope R_scope.

Theorem C155_value : forall u v, length u = length v -> py_cost u v = Ok (Some (arc u v)).
Proof. exact arc_value. Qed.
Print Assumptions C155_value.
Theorem C155_range : forall u v, 0 <= arc u v <= PI / 2.
Proof. exact arc_range. Qed.
Print Assumptions C155_range.
Theorem C155_cosine : forall n u v, unit_vec n u -> unit_vec n v -> cos (arc u v) = Rabs (dot_sum u v).
Proof. exact arc_cos. Qed.
Print Assumptions C155_cosine.
Theorem C155_symmetric : forall u v, arc u v = arc v u.
Proof. exact arc_sym. Qed.
Print Assumptions C155_symmetric.
(** a vector and its opposite, one orientation for quaternions, cost the same *)
Theorem C155_sign : forall u v, arc (map Ropp u) v = arc u v.
Proof. exact arc_sign. Qed.
Print Assumptions C155_sign.
Theorem C155_zero : forall n u v, unit_vec n u -> unit_vec n v -> arc u v = 0 <-> u = v \/ u = map Ropp v.
Proof. exact arc_zero. Qed.
Print Assumptions C155_zero.
Theorem C155_triangle : forall n u v w, unit_vec n u -> unit_vec n v -> unit_vec n w -> arc u w <= arc u v + arc v w.
Proof. exact arc_triangle. Qed.
Print Assumptions C155_triangle.
Example C155_vectors : unit_vec 4 [1; 0; 0; 0] /\ unit_vec 4 [0.6; 0.8; 0; 0] /\ unit_vec 4 [0.5; 0.5; -0.5; 0.5].
Proof. repeat split; cbn; lra. Qed.

(** the search succeeds; its total is at least the cost of going straight from
    the first vector to the last, at most a quarter turn per step, and minimal *)
Theorem C155_search : forall n data, data <> [] -> Forall (fun c => c <> []) data -> Forall (Forall (unit_vec n)) data ->
  exists x p, get_shortest_path (K := RCost) py_cost data = Ok (SpOk (x :: p) (Some (way (x :: p)) : RCost)) /\
    length (x :: p) = length data /\ Forall (unit_vec n) (x :: p) /\
    arc x (last p x) <= way (x :: p) <= INR (length data - 1) * (PI / 2) /\ forall js p', picks data js p' -> way (x :: p) <= way p'.
Proof. exact arc_search. Qed.
Print Assumptions C155_search.
Example C155_data : Forall (Forall (unit_vec 2)) [[[1; 0]]; [[0.6; 0.8]; [0; 1]]; [[0; -1]]].
Proof. repeat constructor; cbn; lra. Qed.

(** none of it holds for vectors of other lengths: staying put can cost
    something and moving nothing *)
Theorem C155_other_lengths_refuted : exists u v : list R, length u = length v /\ arc u u <> 0 /\ arc v u = 0 /\ v <> u /\ v <> map Ropp u.
Proof. exact arc_short. Qed.
Print Assumptions C155_other_lengths_refuted.
