(** * Model of acrobotics/samplers.py, examples/small_passage.py and
    examples/rotation_table.py (plotting and printing left out).

    Numbers are exact reals, a quaternion array is a [quat]. *)
From Coq Require Import String List Arith Bool Reals.
From Verif Require Import PyBase Cost Dp GraphCommon Mat Util Geometry Robot Ik Path Planning Pipeline.
Import ListNotations.
Local Open Scope R_scope.

(** ** samplers.py *)
(** samplers.py:1-2: the global name Quaternion; the module imports cos, sin,
    pi, sqrt and uniform only *)
Definition global_Quaternion : res (R -> R -> R -> R -> quat) := Raise NameError.
(** samplers.py:13-21; u1, u2, u3 are the numbers drawn, [glob] what the name
    Quaternion stands for; its arguments are read in the order w, x, y, z *)
Definition random_quaternion (glob : res (R -> R -> R -> R -> quat)) (u1 u2 u3 : R) : res quat :=
  let w := sqrt (1 - u1) * sin (2 * PI * u2) in
  let x := sqrt (1 - u1) * cos (2 * PI * u2) in
  let y := sqrt u1 * sin (2 * PI * u3) in
  let z := sqrt u1 * cos (2 * PI * u3) in
  f <- glob ;; Ok (f x y z w).
(** samplers.py:23-29; the second branch ends without a return: None *)
Definition random_quaternion_near (glob : res (R -> R -> R -> R -> quat)) (q_near : quat) (distance u1 u2 u3 : R) : res (option quat) :=
  if Rge_dec distance (0.25 * PI) then q <- random_quaternion glob u1 u2 u3 ;; Ok (Some q)
  else let d := u1 in Ok None.

(** ** small_passage.py *)
Definition qdot (u v : quat) : R := qw u * qw v + qx u * qx v + qy u * qy v + qz u * qz v.
(** small_passage.py:43-50 cost_function, one entry *)
Definition turn_cost (u v : quat) : R := acos (Rmin (Rabs (qdot u v)) 1).
(** small_passage.py:43-50 cost_function on arrays with rows of four numbers *)
Definition turn_costs (C1 C2 : list quat) : matrix RCost :=
  {| m_cols := length C2; m_rows := map (fun u => map (fun v => Some (turn_cost u v) : RCost) C2) C1 |}.

Section Passage.
Context (prim : shape -> mat3 -> vec3 -> shape -> mat3 -> vec3 -> bool).
(** a path point: tp.p and the quaternions that tp.get_samples(1000, rep="quat") returns *)
Record passpt : Type := Pp { pp_p : vec3; pp_s : list quat }.
(** small_passage.py:32-33: the pose of the tool tip *)
Definition tip_frame (q : quat) (p : vec3) : mat4 :=
  let T := qtransform q in M4 (rot T) (vadd (pos T) p) (brow T) (bww T).
(** small_passage.py:17, 34: the pose of the tool *)
Definition tool_frame (tf_tt : mat4) (q : quat) (p : vec3) : mat4 := tmul (tip_frame q p) (tf_inverse tf_tt).
(** small_passage.py:31-36 the loop over the samples; transformation_matrix
    normalises the quaternion in place *)
Definition pass_row (tool : coll * mat4) (scene : coll) (tp : passpt) : list quat :=
  map qnormalise (filter (fun q => negb (is_in_collision prim (fst tool) scene (Some (tool_frame (snd tool) q (pp_p tp))) None)) (pp_s tp)).
(** small_passage.py:19-40, 72.  Simplification: with a point that has no free
    sample the products C1 @ C2.T fail (or, when all are empty, the search
    does); the class of that exception is not followed *)
Definition pass_plan (tool : coll * mat4) (scene : coll) (path : list passpt) : res (dp_result RCost quat) :=
  let data := map (pass_row tool scene) path in
  if existsb (fun row => Nat.eqb (length row) 0) data then Raise ValueError
  else shortest_path data turn_costs.
(** small_passage.py:75-78: zip stops at the shorter list *)
Definition pass_frames (sol : list quat) (path : list passpt) : list mat4 :=
  map (fun qp => let T := qtransform (fst qp) in M4 (rot T) (pp_p (snd qp)) (brow T) (bww T)) (combine sol path).
End Passage.

(** ** rotation_table.py *)
(** rotation_table.py:26 the shape of the table top *)
Definition table_coll : coll := Coll [Shape 0.1 0.1 0.02] [pose_y (PI / 2) 0.01 0 0].
(** rotation_table.py:26-30 *)
Definition table_robot : robot :=
  let r := robot_init [new_link (DH 0 0 0 0) JR table_coll] in
  Rb (r_links r) (r_limits r) (r_base r) (Some (Coll [] [], pose_y (- PI / 2) 0 0 0)) (pose_y (PI / 2) 0 0 0) (r_mat r) (r_self r) (r_prio r).

Section Table.
Context {O : Type} (get : O -> robot) (put : O -> robot -> O).
Context (prim : shape -> mat3 -> vec3 -> shape -> mat3 -> vec3 -> bool) (to32 : R -> R).
Context (ik : O -> mat4 -> R -> O * res (option (list (list R)))).
Local Notation jv := (list R).
(** rotation_table.py:53-60 the loop over q_table; line 54 assigns to Ti, so
    the next turn starts from the turned frame.  A row of six numbers cannot be
    multiplied by the 4x4 matrix.  The state is that of the table and the robot. *)
Fixpoint table_turns (scene : coll) (s : sample) (q_table : list jv) (qf : list R) (tb : robot) (o : O) (acc : list jv) : robot * O * res (list jv) :=
  match q_table with
  | [] => (tb, o, Ok acc)
  | qt :: q_table' =>
      let (tb', F) := fk tb qt in
      match F, s with
      | Ok F, AFrame T =>
          let T' := tmul F T in
          match solve_fixed get put prim ik scene (AFrame T') qf o acc with
          | (o', Ok acc') => table_turns scene (AFrame T') q_table' qf tb' o' acc'
          | (o', Raise e) => (tb', o', Raise e)
          | (o', OutOfFuel) => (tb', o', OutOfFuel)
          end
      | Ok _, ARow => (tb', o, Raise ValueError)
      | Raise e, _ => (tb', o, Raise e)
      | OutOfFuel, _ => (tb', o, OutOfFuel)
      end
  end.
(** rotation_table.py:51-60 the loop over the samples; q_sol starts anew each time *)
Fixpoint table_frames (scene : coll) (Ts : list sample) (q_table : list jv) (qf : list R) (tb : robot) (o : O) (q_sol : option (list jv)) : robot * O * res (option (list jv)) :=
  match Ts with
  | [] => (tb, o, Ok q_sol)
  | s :: Ts' =>
      match table_turns scene s q_table qf tb o [] with
      | (tb', o', Ok l) => table_frames scene Ts' q_table qf tb' o' (Some l)
      | (tb', o', Raise e) => (tb', o', Raise e)
      | (tb', o', OutOfFuel) => (tb', o', OutOfFuel)
      end
  end.
(** rotation_table.py:36-66 cart_to_joint_simple *)
Fixpoint table_columns (disc : pathpt -> res (list sample)) (scene : coll) (path : list pathpt) (q_table : list jv) (qf : list R) (tb : robot) (o : O) (q_sol : option (list jv))
  : robot * O * res (list (qent R)) :=
  match path with
  | [] => (tb, o, Ok [])
  | tp :: path' =>
      match disc tp with
      | Ok Ts =>
          match table_frames scene Ts q_table qf tb o q_sol with
          | (tb', o', Ok None) => (tb', o', Raise UnboundLocalError)
          | (tb', o', Ok (Some l)) =>
              match pack to32 l with
              | Ok e => let '(tb'', o'', Q) := table_columns disc scene path' q_table qf tb' o' (Some l) in (tb'', o'', Q <- Q ;; Ok (e :: Q))
              | Raise e => (tb', o', Raise e)
              | OutOfFuel => (tb', o', OutOfFuel)
              end
          | (tb', o', Raise e) => (tb', o', Raise e)
          | (tb', o', OutOfFuel) => (tb', o', OutOfFuel)
          end
      | Raise e => (tb, o, Raise e)
      | OutOfFuel => (tb, o, OutOfFuel)
      end
  end.
End Table.
(** the function run on a KukaOnRail and the table of rotation_table.py *)
Definition rail_table prim to32 := table_columns rl_rob rail_put prim to32 rail_call.
