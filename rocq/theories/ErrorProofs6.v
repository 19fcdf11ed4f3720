(** * Planning without points, graphs without columns, rows of numbers at the rotation table. *)
From Coq Require Import String Reals Lia List Bool Arith ZArith.
From Verif Require Import PyBase Cost GraphCommon CppGraph Mat Util Geometry Robot RobotProofs Ik Path Planning Resources Pipeline PathProofs HaltonProofs Iterative Examples.
Import ListNotations.

Lemma no_columns {K : CostStruct} {F} f1 (sq_acc : K -> F -> F -> F -> K) pq to32 method ow : Planning.get_shortest_path f1 sq_acc pq to32 [] method ow = Raise IndexError.
Proof. reflexivity. Qed.
Lemma no_points {O} (get : O -> robot) put prim to32 ik {K : CostStruct} (sq_acc : K -> R -> R -> R -> K) pq samples scene method ow o :
  grid_plan get put prim to32 ik sq_acc pq samples scene [] method ow o = (o, Raise IndexError).
Proof. reflexivity. Qed.
Lemma no_graph {K : CostStruct} {F} f1 (sq_acc : K -> F -> F -> F -> K) pq (g : cgraph K F) : na g = [] -> run_dijkstra sq_acc pq g = Raise OutOfBounds /\ (gd g = [] -> CppGraph.init f1 g = Raise OutOfBounds).
Proof. intros E. unfold run_dijkstra, CppGraph.init. rewrite E. split; [reflexivity|]. intros ->. reflexivity. Qed.
Lemma table_row {O} (get : O -> robot) put prim to32 ik disc scene tp path Ts qt q_table qf tb o l F : disc tp = Ok (ARow :: Ts) -> snd (fk tb qt) = Ok F ->
  snd (table_columns get put prim to32 ik disc scene (tp :: path) (qt :: q_table) qf tb o l) = Raise ValueError.
Proof. intros E1 E2. cbn [table_columns]. rewrite E1. cbn [table_frames table_turns]. destruct (fk tb qt) as [tb' r]. cbn [snd] in E2. subst r. reflexivity. Qed.
Lemma free_table {O} (get : O -> robot) put prim to32 ik ypr fuel scene p rnd path qt q_table qf tb o l F : (100 <= length rnd)%nat -> Forall unit_row rnd -> snd (fk tb qt) = Ok F ->
  snd (table_columns get put prim to32 ik (pt_discretise ypr fuel) scene (Pipeline.PFree p rnd :: path) (qt :: q_table) qf tb o l) = Raise ValueError.
Proof.
  intros L U E. destruct (free_rpy ypr fuel rnd p 100 None None) as (rows & E1 & E2 & _); [apply meth_random; auto|lia|auto|].
  destruct rows as [|r rows]; [discriminate|]. apply (table_row get put prim to32 ik (pt_discretise ypr fuel) scene _ path (map (fun _ => ARow) rows) qt q_table qf tb o l F); auto.
  cbn [pt_discretise]. rewrite E1. reflexivity.
Qed.
