(** * Node arrays and the relaxation step shared by pygraph.py and graph.cpp.

    Both implementations keep nodes in a two-level array and pass references
    to them around.  A reference is modelled by its position (column, row). *)
From Coq Require Import List Arith Lia Bool.
From Verif Require Import PyBase Cost.
Import ListNotations.

(** The [parent] field: Python None, the dummy node created before the start
    column (pygraph.py:135, graph.cpp:9), or a reference to another node. *)
Inductive parent : Type := PNone | PDummy | PNode (i j : nat).

Definition ref : Type := (nat * nat)%type.

Section GraphCommon.
Context {K : CostStruct} {D : Type}.

(** pygraph.py:24-31 class Node, graph.h:29-37 struct Node.  [n_data] is the
    joint value itself instead of a pointer to it (it is never written). *)
Record node : Type := mkNode {
  n_pi : nat; n_si : nat; n_data : D; n_dist : K; n_parent : parent; n_visited : bool }.

Definition narr : Type := list (list node).

(** Reading and writing through a reference. *)
Definition deref (na : narr) (r : ref) : res node :=
  match nth_error na (fst r) with
  | Some col => match nth_error col (snd r) with Some n => Ok n | None => Raise OutOfBounds end
  | None => Raise OutOfBounds
  end.
Definition write (na : narr) (r : ref) (n : node) : narr :=
  match nth_error na (fst r) with
  | Some col => upd na (fst r) (upd col (snd r) n)
  | None => na
  end.

Definition set_label (n : node) (d : K) (p : parent) : node :=
  mkNode (n_pi n) (n_si n) (n_data n) d p (n_visited n).
Definition set_visited (n : node) : node :=
  mkNode (n_pi n) (n_si n) (n_data n) (n_dist n) (n_parent n) true.

(** References to all nodes of column i. *)
Definition col_refs (na : narr) (i : nat) : list ref :=
  match nth_error na i with
  | Some col => map (fun j => (i, j)) (seq 0 (length col))
  | None => []
  end.

(** pygraph.py:154-162 and graph.cpp:50-64, 105-119: one neighbour.
    [cost cur nb] is the transition cost, [push na q r] the queue insertion
    (a heap reads distances from na while inserting). *)
Definition relax1 (cost : D -> D -> res K) (push : narr -> list ref -> ref -> list ref)
  (cur : ref) (st : narr * list ref) (nb : ref) : res (narr * list ref) :=
  let '(na, q) := st in
  ncur <- deref na cur ;;
  nnb <- deref na nb ;;
  c <- cost (n_data ncur) (n_data nnb) ;;
  let new_dist := cadd (n_dist ncur) c in
  let nnb1 := if clt new_dist (n_dist nnb)
              then set_label nnb new_dist (PNode (fst cur) (snd cur)) else nnb in
  let na1 := write na nb nnb1 in
  if n_visited nnb1 then Ok (na1, q)
  else Ok (write na1 nb (set_visited nnb1), push na1 q nb).

(** FIFO queue: Queue.put / std::queue::push. *)
Definition fifo_push (na : narr) (q : list ref) (r : ref) : list ref := q ++ [r].

(** while not Q.empty(): current = Q.get(); <expand current>
    (pygraph.py:148-162, graph.cpp:42-64) *)
Fixpoint bfs_loop (expand : narr -> list ref -> ref -> res (narr * list ref))
  (fuel : nat) (na : narr) (q : list ref) : res narr :=
  match q with
  | [] => Ok na
  | cur :: q' =>
      match fuel with
      | O => OutOfFuel
      | S fuel' => '(na', q'') <- expand na q' cur ;; bfs_loop expand fuel' na' q''
      end
  end.

(** for node in node_array[start]: parent = dummy, visited = True, dist = 0, put
    (pygraph.py:136-140, graph.cpp:29-35) *)
Definition start_node (n : node) : node :=
  mkNode (n_pi n) (n_si n) (n_data n) czero PDummy true.
Definition start_column (na : narr) (s : nat) : narr :=
  match nth_error na s with
  | Some col => upd na s (map start_node col)
  | None => na
  end.

(** Number of nodes: enough fuel for every loop that pops each node once. *)
Definition count_nodes (na : narr) : nat := fold_right (fun col n => length col + n) 0 na.
End GraphCommon.
Arguments node : clear implicits.
Arguments narr : clear implicits.
