(** * Small robots used in the examples of PropPlanning and the counterexamples. *)
From Coq Require Import String List Arith ZArith Lia Bool Reals Lra.
From Verif Require Import PyBase Cost SpecPath GraphCommon CppGraph CppMain CppExamples Planning PlanningProofs PlanningCart PlanningIter.
Import ListNotations.
Local Open Scope nat_scope.

(** poses are numbers; pose t < 5 is solved by t and t + 10, others by nothing *)
Definition toy_ik (t : nat) : option (list (list Z)) :=
  if t <? 5 then Some [[Z.of_nat t]; [Z.of_nat t + 10]%Z] else None.
Definition toy_ik_fix (t : nat) (g : nat) : option (list (list Z)) := toy_ik (t + g).
(** configuration 3 collides; the state counts the calls *)
Definition toy_cc (q : list Z) : bool := match q with [3%Z] => true | _ => false end.
Definition toy_coll (q : list Z) (s : nat) : bool * nat := (toy_cc q, s + 1).
Lemma toy_history q s : fst (toy_coll q s) = toy_cc q.
Proof. reflexivity. Qed.
(** point tp gives the poses tp, tp+1, … *)
Definition toy_samples (tp n : nat) (s : nat) : res (list nat * nat) := Ok (seq tp n, s + 1).
Definition toy_discretise (tp : nat) (s : nat) : res (list nat * nat) := Ok (seq tp 2, s).
Definition toy_near (tp n : nat) (d : nat) (s : nat) : res (list nat * nat) := Ok (seq tp n, s + 1).
Definition toy_fk (q : list Z) : res nat := match q with [z] => Ok (Z.to_nat z mod 10) | _ => Raise IndexError end.

(** C29: the solutions of the first of two samples are dropped. *)
Lemma simple_refuted : exists Q st',
  cart_to_joint_simple (fun z : Z => z) toy_ik_fix toy_coll toy_discretise [0] [0] 0 None = Ok (Q, st') /\
  toy_discretise 0 0 = Ok ([0; 1], 0) /\
  Q <> [entry_of (fun z => z) (flat_map (fsols toy_ik_fix toy_cc [0]) [0; 1])].
Proof. eexists. eexists. split; [vm_compute; reflexivity|]. split; [reflexivity|]. discriminate. Qed.

(** C26: a first point without solution. *)
Lemma first_empty_refuted : exists (Q : list (qent Z)), In QNil Q /\
  forall (pq : pqueue ZCost Z) ow, get_shortest_path 1%Z zsq pq (fun z => z) Q "dijkstra" ow = Raise AttributeError.
Proof. exists [QNil; QArr F32 1 [[0%Z]]]. split; [left; auto|]. reflexivity. Qed.

(** C30: a robot without any solution and the defaults of the code. *)
Lemma incremental_refuted : exists (ik : nat -> option (list (list Z))) (tp : nat),
  forall fuel st, cart_to_joint_incremental (fun z : Z => z) ik toy_coll toy_samples fuel [tp] 500 1000 st = OutOfFuel.
Proof.
  exists (fun _ => None), 0. apply (incremental_diverges _ _ _ _ toy_cc toy_history); try lia.
  intros s. exists 0, [], (s + 1). split; reflexivity.
Qed.

(** C33: a point of the documented class TolPositionPt. *)
Lemma point_class_refuted : exists c, c = CTolPos /\
  solution_point (F:=Z) (fun _ : nat => c) 0 0 = Raise NameError.
Proof. eexists. split; reflexivity. Qed.

Section Solve.
Context {Q A B C : Type} (grid incremental : res Q) (iterative : res B) (optimize : res C) (shortest : Q -> string -> res A).
Notation solve_ := (solve grid incremental iterative optimize shortest).
Definition known (m : string) : Prop := In m ["grid"; "grid_iterative"; "optimization"; "grid_incremental"]%string.
Lemma solve_no_scene default method :
  known (match method with Some m => m | None => default end) -> solve_ false default method = Raise AttributeError.
Proof. unfold solve. intros [<-|[<-|[<-|[<-|[]]]]]; reflexivity. Qed.
Lemma solve_unknown b default method :
  ~ known (match method with Some m => m | None => default end) -> solve_ b default method = Raise GenericException.
Proof.
  unfold solve, known. intros H. destruct (match method with Some m => m | None => default end) as [|]  eqn:E; [reflexivity|]. rewrite <- E in *.
  repeat match goal with |- context[String.eqb ?x ?y] => destruct (String.eqb_spec x y) as [e|]; [exfalso; apply H; rewrite e; cbn; tauto|] end.
  reflexivity.
Qed.
Lemma solve_with_scene default method m : m = match method with Some m => m | None => default end ->
  (m = "grid"%string -> solve_ true default method = (q <- grid ;; r <- shortest q "dijkstra"%string ;; Ok (AGrid r))) /\
  (m = "grid_iterative"%string -> solve_ true default method = (r <- iterative ;; Ok (AIter r))) /\
  (m = "optimization"%string -> solve_ true default method = (r <- optimize ;; Ok (AOpt r))) /\
  (m = "grid_incremental"%string -> solve_ true default method = (q <- incremental ;; r <- shortest q "dijkstra"%string ;; Ok (AGrid r))).
Proof. unfold solve. intros <-. repeat split; intros ->; reflexivity. Qed.
End Solve.

(** ** set_initial_path *)
Lemma set_initial_path_spec {F} npath (q : ndarr F) :
  match q with
  | ND1 v => exists m, set_initial_path npath q = Ok m /\ length m = npath /\ (forall i, i < npath -> nth_error m i = Some v)
  | ND2 rows _ => (length rows = npath -> set_initial_path npath q = Ok rows) /\ (length rows <> npath -> set_initial_path npath q = Raise AssertionError)
  | NDother _ => set_initial_path npath q = Raise GenericException
  end.
Proof.
  destruct q as [v|rows c|sh]; cbn [set_initial_path]; auto.
  - exists (repeat v npath). repeat split; [apply repeat_length|]. intros i Hi. rewrite nth_error_repeat; auto.
  - split; intros H; destruct (Nat.eqb_spec (length rows) npath); congruence.
Qed.
