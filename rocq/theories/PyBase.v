(** * Python/C++ run-time conventions shared by every model file.

    Exceptions are values, loops that the host language bounds only
    dynamically run on fuel and return [OutOfFuel] when it is exhausted. *)
From Coq Require Import List Arith Lia Bool.
Import ListNotations.

(** The exceptions the modelled code can raise.  [NullDeref] and [OutOfBounds]
    stand for undefined behaviour of the C++ code (crash, stray read). *)
Inductive exn : Type :=
| IndexError | ValueError | KeyError | TypeError | AttributeError | NameError
| UnboundLocalError | AssertionError | NotImplementedError | ZeroDivisionError
| GenericException          (* raise Exception(...) *)
| NullDeref | OutOfBounds.

Inductive res (A : Type) : Type :=
| Ok (a : A)
| Raise (e : exn)
| OutOfFuel.
Arguments Ok {A}. Arguments Raise {A}. Arguments OutOfFuel {A}.

Definition bind {A B} (r : res A) (f : A -> res B) : res B :=
  match r with Ok a => f a | Raise e => Raise e | OutOfFuel => OutOfFuel end.

Declare Scope res_scope.
Delimit Scope res_scope with res.
Notation "x <- r ;; k" := (bind r (fun x => k))
  (at level 61, r at next level, right associativity) : res_scope.
Notation "' p <- r ;; k" := (bind r (fun p => k))
  (at level 61, p pattern, r at next level, right associativity) : res_scope.
Open Scope res_scope.

(** [l[i]] on a Python list or a numpy axis with a non-negative index. *)
Definition py_index {A} (l : list A) (i : nat) : res A :=
  match nth_error l i with Some x => Ok x | None => Raise IndexError end.

(** [l[-1]] *)
Definition py_last {A} (l : list A) : res A :=
  match rev l with x :: _ => Ok x | [] => Raise IndexError end.

(** Sequential evaluation of a list comprehension whose body may raise. *)
Fixpoint mapM {A B} (f : A -> res B) (l : list A) : res (list B) :=
  match l with
  | [] => Ok []
  | x :: xs => y <- f x ;; ys <- mapM f xs ;; Ok (y :: ys)
  end.

(** [foldM] : a [for] loop with state whose body may raise. *)
Fixpoint foldM {A S} (f : S -> A -> res S) (l : list A) (s : S) : res S :=
  match l with
  | [] => Ok s
  | x :: xs => s' <- f s x ;; foldM f xs s'
  end.

(** In-place assignment [l[i] = x] (no effect out of range). *)
Fixpoint upd {A} (l : list A) (i : nat) (x : A) : list A :=
  match l, i with
  | [], _ => []
  | _ :: t, O => x :: t
  | h :: t, S i' => h :: upd t i' x
  end.

Lemma upd_length {A} (l : list A) i x : length (upd l i x) = length l.
Proof. revert i; induction l as [|h t IH]; intros [|i]; simpl; auto. Qed.

Lemma nth_error_upd_same {A} (l : list A) i x :
  i < length l -> nth_error (upd l i x) i = Some x.
Proof.
  revert i; induction l as [|h t IH]; intros [|i] H; simpl in *; try lia; auto.
  apply IH; lia.
Qed.

Lemma nth_error_upd_other {A} (l : list A) i j x :
  i <> j -> nth_error (upd l i x) j = nth_error l j.
Proof.
  revert i j; induction l as [|h t IH]; intros [|i] [|j] H; simpl; auto; try lia.
Qed.

Lemma nth_error_upd {A} (l : list A) i j x :
  nth_error (upd l i x) j =
  if Nat.eq_dec i j then (if lt_dec i (length l) then Some x else None)
  else nth_error l j.
Proof.
  destruct (Nat.eq_dec i j) as [->|Hn].
  - destruct (lt_dec j (length l)) as [Hl|Hl].
    + apply nth_error_upd_same; auto.
    + apply nth_error_None. rewrite upd_length. lia.
  - apply nth_error_upd_other; auto.
Qed.

Lemma bind_Ok {A B} (r : res A) (k : A -> res B) y : bind r k = Ok y -> exists x, r = Ok x /\ k x = Ok y.
Proof. destruct r; cbn; intros; try discriminate; eauto. Qed.
Lemma mapM_Ok_length {A B} (f : A -> res B) l ys :
  mapM f l = Ok ys -> length ys = length l.
Proof.
  revert ys; induction l as [|x xs IH]; simpl; intros ys H.
  - injection H as <-; reflexivity.
  - destruct (f x); simpl in H; try discriminate.
    destruct (mapM f xs) eqn:E; simpl in H; try discriminate.
    injection H as <-. simpl. f_equal. apply IH; reflexivity.
Qed.

Lemma mapM_Ok_Forall2 {A B} (f : A -> res B) l ys :
  mapM f l = Ok ys <-> Forall2 (fun x y => f x = Ok y) l ys.
Proof.
  revert ys; induction l as [|x xs IH]; simpl; intros ys; split; intros H.
  - injection H as <-; constructor.
  - inversion H; reflexivity.
  - destruct (f x) eqn:Ef; simpl in H; try discriminate.
    destruct (mapM f xs) eqn:E; simpl in H; try discriminate.
    injection H as <-. constructor; auto. apply IH; reflexivity.
  - inversion H; subst. rewrite H2; simpl.
    apply IH in H4. rewrite H4. reflexivity.
Qed.

Lemma py_index_Ok {A} (l : list A) i x : py_index l i = Ok x <-> nth_error l i = Some x.
Proof. unfold py_index; destruct (nth_error l i); split; congruence. Qed.
