(** * Specification vocabulary for "one sample per stage" problems. *)
From Coq Require Import List Arith.
From Verif Require Import Cost.
Import ListNotations.

(** [picks Q js p]: p takes, from every stage of Q in order, the element whose
    index is the corresponding entry of js. *)
Fixpoint picks {D} (Q : list (list D)) (js : list nat) (p : list D) : Prop :=
  match Q, js, p with
  | [], [], [] => True
  | col :: Q', j :: js', x :: p' => nth_error col j = Some x /\ picks Q' js' p'
  | _, _, _ => False
  end.

(** An index sequence choosing one existing element of every stage. *)
Fixpoint in_range {D} (Q : list (list D)) (js : list nat) : Prop :=
  match Q, js with
  | [], [] => True
  | col :: Q', j :: js' => j < length col /\ in_range Q' js'
  | _, _ => False
  end.

(** Entry (i, j) of a matrix given as a list of rows. *)
Definition entry {K : CostStruct} (m : list (list K)) (i j : nat) : K :=
  nth j (nth i m []) czero.

(** Cost of an index sequence through transition matrices, added from the last
    transition backwards: c0 + (c1 + (... + (c_last + 0))). *)
Fixpoint route_cost {K : CostStruct} (ms : list (list (list K))) (js : list nat) : K :=
  match ms, js with
  | m :: ms', j :: ((j' :: _) as js') => cadd (entry m j j') (route_cost ms' js')
  | _, _ => czero
  end.

(** Cost of a path of samples, added from the start: ((0 + c1) + c2) + ... *)
Fixpoint walk_cost_from {K : CostStruct} {D} (c : D -> D -> K) (acc : K) (x : D) (p : list D) : K :=
  match p with
  | [] => acc
  | y :: p' => walk_cost_from c (cadd acc (c x y)) y p'
  end.
Definition walk_cost {K : CostStruct} {D} (c : D -> D -> K) (p : list D) : K :=
  match p with [] => czero | x :: p' => walk_cost_from c czero x p' end.

(** Every step of the path costs strictly less than the limit. *)
Fixpoint steps_below {K : CostStruct} {D} (c : D -> D -> K) (limit : K) (p : list D) : Prop :=
  match p with
  | x :: ((y :: _) as p') => clt (c x y) limit = true /\ steps_below c limit p'
  | _ => True
  end.

(** Lexicographic order on index sequences. *)
Inductive lex_le : list nat -> list nat -> Prop :=
| lex_nil : lex_le [] []
| lex_lt : forall a b l m, a < b -> length l = length m -> lex_le (a :: l) (b :: m)
| lex_eq : forall a l m, lex_le l m -> lex_le (a :: l) (a :: m).

(** Cost of choosing indices js in the stages Q when moving between stages d1
    and d2 costs [tc d1 d2] (a matrix, rows = states of d1), added from the
    last transition backwards. *)
Fixpoint stage_cost {K : CostStruct} {D} (tc : list D -> list D -> list (list K))
  (Q : list (list D)) (js : list nat) : K :=
  match Q, js with
  | d1 :: ((d2 :: _) as Q'), j :: ((j' :: _) as js') =>
      cadd (entry (tc d1 d2) j j') (stage_cost tc Q' js')
  | _, _ => czero
  end.

(** A matrix (list of rows) with n rows of m entries each. *)
Definition has_dims {A} (rows : list (list A)) (n m : nat) : Prop :=
  length rows = n /\ Forall (fun r => length r = m) rows.

(** js is optimal from every stage on: no other continuation from the state it
    reaches at stage k is cheaper than its own. *)
Definition suffix_optimal {K : CostStruct} {D} (tc : list D -> list D -> list (list K))
  (Q : list (list D)) (js : list nat) : Prop :=
  forall k js', in_range (skipn k Q) js' -> hd_error js' = hd_error (skipn k js) ->
    cle (stage_cost tc (skipn k Q) (skipn k js)) (stage_cost tc (skipn k Q) js').

(** Index sequences for stages of given sizes. *)
Fixpoint in_dims (ns : list nat) (js : list nat) : Prop :=
  match ns, js with
  | [], [] => True
  | n :: ns', j :: js' => j < n /\ in_dims ns' js'
  | _, _ => False
  end.

(** x and y are samples of two consecutive stages. *)
Definition adjacent {D} (Q : list (list D)) (x y : D) : Prop :=
  exists i c1 c2, nth_error Q i = Some c1 /\ nth_error Q (S i) = Some c2 /\ In x c1 /\ In y c2.
