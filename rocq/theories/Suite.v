(** * The data of the test suite: tests/test_*.py. *)
From Coq Require Import String.
From Coq Require Import Reals Lra Lia List Bool Arith ZArith.
From Verif Require Import PyBase Cost GraphCommon Mat Util Geometry Robot Resources Dp PyGraph CppGraph Io.
Import ListNotations.
Local Open Scope R_scope.

(** ** Graphs *)
(** tests/test_dp.py:8-12, the arrays of the first test_calculate_value_function (replaced by the second definition of that name) *)
Definition dp_costs4 : list (matrix ZCost) :=
  let z (x : Z) : ZCost := Some x in
  [{| m_cols := 3; m_rows := [[z 550; z 900; z 770]] |};
   {| m_cols := 3; m_rows := [[z 680; z 790; z 1050]; [z 580; z 760; z 660]; [z 510; z 700; z 830]] |};
   {| m_cols := 2; m_rows := [[z 610; z 790]; [z 540; z 940]; [z 790; z 270]] |};
   {| m_cols := 1; m_rows := [[z 1030]; [z 1390]] |}]%Z.
(** tests/test_dp.py:46-49 and tests/test_graph.py:5-7 *)
Definition small_data : list (list (list Z)) := [[[0; 0]; [0; 1]]; [[1; -1]; [1; 0]; [1; 1]]; [[0; 2]; [2; 2]]]%Z.
(** the sum of the absolute differences: tests/test_dp.py:63, the cost function of tests/test_pygraph.py (pygraph.py:12-13, commented out) *)
Definition l1 (a b : list Z) : Z := fold_left Z.add (map (fun p => Z.abs (fst p - snd p)) (combine a b)) 0%Z.
(** tests/test_dp.py:58-65 f *)
Definition l1_matrix (d1 d2 : list (list Z)) : matrix ZCost := {| m_cols := length d2; m_rows := map (fun a => map (fun b => Some (l1 a b) : ZCost) d2) d1 |}.
(** tests/test_dp.py:50 C_exact *)
Definition dp_costs : list (matrix ZCost) :=
  let z (x : Z) : ZCost := Some x in
  [{| m_cols := 3; m_rows := [[z 2; z 1; z 2]; [z 3; z 2; z 1]] |}; {| m_cols := 2; m_rows := [[z 4; z 4]; [z 3; z 3]; [z 2; z 2]] |}]%Z.
(** tests/test_graph.py:17-28; add_data_column takes the numbers of a column row by row *)
Definition graph_calls {K : CostStruct} {F : Type} (f1 : F) (sq : K -> F -> F -> F -> K) (d1 d2 d3 : list F) : res (option (list Z)) :=
  g <- add_data_column d1 2 2 (@cnew K F) ;; g <- add_data_column d2 3 2 g ;; g <- add_data_column d3 2 2 g ;;
  g <- init f1 g ;; g <- run_dijkstra sq stl_queue g ;; CppGraph.get_path 3 g.
(** tests/test_pygraph.py:8-15, 17, 19, 21-28 (the file is commented out) *)
Definition py_data1 : list (list (list Z)) := [[[0; 0]]; [[1; -1]; [1; 0]; [1; 1]]; [[0; 2]; [2; 2]]; [[4; 5]; [5; 9]]; [[4; 6]; [5; 10]]; [[4; 13]; [5; 11]]]%Z.
Definition py_data3 : list (list (list Z)) := [[[0; 0]]; []; [[-2; -2]; [2; 2]]]%Z.
Definition py_data4 : list (list (list Z)) := [[[0; 0]]; [[1; -1]; [1; 0]; [1; 1]]; [[0; 2]; [2; 2]]; [[4; 5]; [5; 9]]; [[4; 6]; [5; 10]]; [[99; 99]; [99; 99]]]%Z.
Definition l1_cost (a b : list Z) : res ZCost := Ok (Some (l1 a b)).

(** ** Collisions *)
(** tests/test_robot.py:209, 210 *)
Definition q_up : list R := [0; PI / 2; 0; 0; 0; 0].
Definition q_folded : list R := [0; 1.5; -1.3; 0; -1.5; 0].
(** tests/test_robot.py:221-228 *)
Definition obj1 : coll := Coll [Shape 0.2 0.3 0.5; Shape 0.1 0.3 0.1] [pose_x 0 0.75 0 0.5; pose_x 0 0.75 0.5 0.5].
Definition obj2 : coll := Coll [Shape 0.2 0.3 0.5; Shape 0.1 0.3 0.1] [pose_x 0 0.3 (-0.7) 0.5; pose_x 0 0.75 0.5 0.5].
(** tests/test_collision_checking.py:6-10 *)
Definition q_table : list R := [-0.08307708; -0.61114407; 3.64637661; 0.77815741; -2.17606544; 2.35626125].
Definition table_scene : coll := Coll [Shape 0.5 0.5 0.1] [pose_x 0 0.8 0 0].

(** ** Task file: tests/test_io.py:4-28 *)
Definition jf3 (x y z : R) : json := JList [JFloat x; JFloat y; JFloat z].
Definition test_task : json := JObj
  [("name", JStr "line_orient_free");
   ("path", JObj [("type", JStr "LINE"); ("tolerance", JStr "orientation_free"); ("start_pose", JObj [("xyz", jf3 0.8 (-0.2) 0.2); ("rpy", jf3 0 0 0)]);
                  ("end_point", jf3 0.8 0.2 0.2); ("num_points", JInt 10)]);
   ("obstacles", JList [JObj [("type", JStr "box"); ("size", jf3 0.5 0.5 0.1); ("xyz", jf3 0.8 0 0.12); ("rpy", jf3 0 0 0)]])]%string.

(** ** Geometry: tests/test_geometry.py:34-38 and 88-91, the rows of the normals *)
Definition axes6 : list vec3 := [V3 1 0 0; V3 (-1) 0 0; V3 0 1 0; V3 0 (-1) 0; V3 0 0 1; V3 0 0 (-1)].
