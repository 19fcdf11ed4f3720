(** * Functions of graph.cpp that nothing calls, and the int index of add_data_column.

    As in CppGraph.v; costs have no NaN. *)
From Coq Require Import List Arith ZArith Bool Reals.
From Verif Require Import PyBase Cost GraphCommon CppGraph.
Import ListNotations.

Section Unused.
Context {K : CostStruct} {F : Type} (sq_acc : K -> F -> F -> F -> K).
Local Notation jv := (list F).

(** graph.cpp:192-200 the loop body of visit *)
Definition visit1 (w : list F) (cur : ref) (a : narr K jv) (nb : ref) : res (narr K jv) :=
  ncur <- deref a cur ;;
  nnb <- deref a nb ;;
  c <- cost2 sq_acc w (n_data nnb) (n_data ncur) ;;
  let dist := cadd (n_dist ncur) c in
  Ok (if clt dist (n_dist nnb) then write a nb (set_label nnb dist (PNode (fst cur) (snd cur))) else a).
(** graph.cpp:188-201 visit *)
Definition visit (w : list F) (a : narr K jv) (cur : ref) : res (narr K jv) :=
  ncur <- deref a cur ;;
  nb <- get_neighbors a ncur ;;
  foldM (visit1 w cur) nb a.
(** graph.cpp:155-166 init_unvisited: what is appended to uv *)
Definition init_unvisited (a : narr K jv) : list ref := flat_map (col_refs a) (seq 1 (length a - 1)).
(** graph.cpp:12-15 sort_function *)
Definition sort_function (n1 n2 : node K jv) : bool := clt (n_dist n2) (n_dist n1).
(** graph.cpp:451-454 set_graph_data *)
Definition set_graph_data (data : list (list jv)) (s : cgraph K F) : cgraph K F :=
  mkCG data (na s) (path_found s) (shortest_path_cost s) (num_goals s) (max_path_index s) (weights s).

(** a value of type int, 32 bits; a sum or product outside the range is undefined
    behaviour, here the exception OutOfBounds *)
Definition int32 (z : Z) : res Z := if ((- 2 ^ 31 <=? z) && (z <? 2 ^ 31))%Z then Ok z else Raise OutOfBounds.
(** graph.cpp:280 index = j + ncols * i *)
Definition index32 (ncols i j : Z) : res Z := p <- int32 (ncols * i) ;; int32 (j + p).
(** graph.cpp:271-286 add_data_column with index of type int (never negative here) *)
Definition mat_row32 (mat : list F) (ncols i : nat) : res jv :=
  mapM (fun j => k <- index32 (Z.of_nat ncols) (Z.of_nat i) (Z.of_nat j) ;;
                 match nth_error mat (Z.to_nat k) with Some x => Ok x | None => Raise OutOfBounds end) (seq 0 ncols).
Definition add_data_column32 (mat : list F) (nrows ncols : nat) (s : cgraph K F) : res (cgraph K F) :=
  new_col <- mapM (mat_row32 mat ncols) (seq 0 nrows) ;;
  Ok (mkCG (gd s ++ [new_col]) (na s) (path_found s) (shortest_path_cost s) (num_goals s) (max_path_index s) (weights s)).
End Unused.

(** graph.cpp:168-176 cost_function in exact arithmetic *)
Fixpoint cost1_loop (w n1 n2 : list R) (acc : R) : res R :=
  match n1 with
  | [] => Ok acc
  | x :: n1' =>
      match w, n2 with
      | wi :: w', y :: n2' => cost1_loop w' n1' n2' (acc + wi * Rabs (x - y))%R
      | _, _ => Raise OutOfBounds
      end
  end.
Definition cost1 (w n1 n2 : list R) : res R := cost1_loop w n1 n2 0%R.
