(** * Property C18: run_dijkstra with the libstdc++ heap on two and three columns. *)
From Coq Require Import List Arith ZArith Reals.
From Verif Require Import PyBase Cost SpecPath GraphCommon CppGraph CppGraphProofs CppExamples CppFinal CppTwo.
Import ListNotations.

(** On two columns, with costs that are finite and never negative, the search
    as it is (heap not rebuilt) returns a cheapest path and its cost.  Missing:
    three columns and more, where the statement is false. *)
Theorem C18_two_columns_partial :
  forall (K : CostStruct) (F : Type) (f1 : F) (sq_acc : K -> F -> F -> F -> K) n data ow (s : cgraph K F),
  uniform n data -> load f1 n data ow = Ok s -> length data = 2 -> Forall (fun col => col <> []) data ->
  (forall js p, picks data js p -> clt (walk_cost (jcost sq_acc (eff_weights f1 n ow)) p) cinf = true) ->
  (forall x y d, adjacent data x y -> cle d (cadd d (jcost sq_acc (eff_weights f1 n ow) x y))) ->
  exists s' js p, run_dijkstra sq_acc stl_queue s = Ok s' /\ get_path 2 s' = Ok (Some (map Z.of_nat js)) /\ picks data js p /\
    get_path_cost s' = walk_cost (jcost sq_acc (eff_weights f1 n ow)) p /\
    forall js' p', picks data js' p' ->
      cle (walk_cost (jcost sq_acc (eff_weights f1 n ow)) p) (walk_cost (jcost sq_acc (eff_weights f1 n ow)) p').
Proof. exact @cpp_dij_two. Qed.
Print Assumptions C18_two_columns_partial.

(** The same for real numbers, where only the weights have to be non-negative. *)
Theorem C18_two_columns_real_partial :
  forall (n : nat) (data : list (list (list R))) ow s,
  uniform n data -> load 1%R n data ow = Ok s -> length data = 2 -> Forall (fun col => col <> []) data ->
  (forall w, ow = Some w -> Forall (fun x => 0 <= x)%R w) ->
  exists s' js p, run_dijkstra (K := RCost) rsq stl_queue s = Ok s' /\ get_path 2 s' = Ok (Some (map Z.of_nat js)) /\ picks data js p /\
    get_path_cost s' = walk_cost (jcost rsq (eff_weights 1%R n ow)) p /\
    forall js' p', picks data js' p' ->
      cle (walk_cost (jcost rsq (eff_weights 1%R n ow)) p) (walk_cost (jcost rsq (eff_weights 1%R n ow)) p').
Proof. exact cpp_dij_two_real. Qed.
Print Assumptions C18_two_columns_real_partial.

(** Three columns are enough for a wrong answer: 17 instead of 13, with unit weights. *)
Theorem C18_three_columns_refuted :
  exists s s' js js' p p',
  uniform 1 heap_cols3 /\ load 1%Z 1 heap_cols3 None = Ok s /\ run_dijkstra zsq stl_queue s = Ok s' /\
  get_path 3 s' = Ok (Some (map Z.of_nat js)) /\ picks heap_cols3 js p /\ get_path_cost s' = walk_cost (jcost zsq [1%Z]) p /\
  picks heap_cols3 js' p' /\ walk_cost (jcost zsq [1%Z]) p = Some 17%Z /\ walk_cost (jcost zsq [1%Z]) p' = Some 13%Z.
Proof. exact cpp_dij_three_refuted. Qed.
Print Assumptions C18_three_columns_refuted.

(** On two columns the weights must not be negative: -16 instead of -25. *)
Theorem C18_two_columns_negative_refuted :
  exists s s' p p',
  uniform 1 neg_cols /\ load 1%Z 1 neg_cols (Some [-1]%Z) = Ok s /\ run_dijkstra zsq stl_queue s = Ok s' /\
  get_path 2 s' = Ok (Some [0; 0]%Z) /\ picks neg_cols [0; 0] p /\ get_path_cost s' = walk_cost (jcost zsq [-1]%Z) p /\
  picks neg_cols [1; 0] p' /\ walk_cost (jcost zsq [-1]%Z) p = Some (-16)%Z /\ walk_cost (jcost zsq [-1]%Z) p' = Some (-25)%Z.
Proof. exact cpp_dij_two_negative_refuted. Qed.
Print Assumptions C18_two_columns_negative_refuted.

(** Two columns on which the hypotheses hold; the best start is not the first. *)
Example C18_two_columns_example :
  let data := [[[0]; [1]]; [[5]; [7]]]%Z in
  exists s s', uniform 1 data /\ load 1%Z 1 data None = Ok s /\ length data = 2 /\ Forall (fun col => col <> []) data /\
    run_dijkstra zsq stl_queue s = Ok s' /\ get_path 2 s' = Ok (Some [1; 0]%Z) /\ get_path_cost s' = Some 16%Z.
Proof.
  do 2 eexists. unfold uniform. split; [repeat constructor|]. split; [vm_compute; reflexivity|]. split; [reflexivity|].
  split; [repeat constructor; discriminate|]. split; [vm_compute; reflexivity|]. split; vm_compute; reflexivity.
Qed.
