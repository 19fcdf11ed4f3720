(** * The planning functions of planning.py run on the robots of resources/robots.py.

    Planning.v treats robot.ik, robot.is_in_collision and tp.get_samples as
    parameters.  Here they are the models of Ik.v, Robot.v and Path.v, with the
    robot object (cached link matrices, collision_priority, helper robots)
    threaded through the loops and their exceptions passed on.
    Simplifications: numbers are reals, [to32] is the rounding of
    astype("float32") and [sq_acc] the accumulation in the C++ cost function;
    printing is dropped.  A point with free orientation carries the numbers that
    np.random gives when it is sampled. *)
From Coq Require Import String List Arith Bool Reals.
From Verif Require Import PyBase Cost GraphCommon CppGraph Mat Util Geometry Robot Ik Path Planning.
Import ListNotations.
Local Open Scope R_scope.

(** the point classes of path.py with usable samples *)
Inductive pathpt : Type :=
| PEuler (p : eulerpt) | PPos (p : pospt) | PAxis (p : axispt) | PFree (p : list R) (rnd : list (list R)).
(** tp.get_samples(n, rep="transform"), path.py:67-93, 136-153, 172-180, 195-214 *)
Definition pt_samples (ypr : quat -> vec3) (fuel : nat) (n : nat) (tp : pathpt) : res (list mat4) :=
  match tp with
  | PEuler p => euler_samples p
  | PPos p => pos_samples p
  | PAxis p => axis_samples p
  | PFree p rnd =>
      s <- free_samples ypr fuel rnd p n (Some "transform"%string) None ;;
      match s with STfs l => Ok l | _ => Raise TypeError end
  end.

(** What tp.discretise() yields: frames, or rows of six numbers. *)
Inductive sample : Type := AFrame (T : mat4) | ARow.
(** tp.discretise(), path.py:95-96, 216-217: TolPositionPt and AxisAnglePt have
    no such method; FreeOrientationPt calls get_samples(100) without rep *)
Definition pt_discretise (ypr : quat -> vec3) (fuel : nat) (tp : pathpt) : res (list sample) :=
  match tp with
  | PEuler p => l <- euler_samples p ;; Ok (map AFrame l)
  | PPos _ | PAxis _ => Raise AttributeError
  | PFree p rnd =>
      s <- free_samples ypr fuel rnd p 100 None None ;;
      match s with SRows l => Ok (map (fun _ => ARow) l) | _ => Raise TypeError end
  end.

Section Obj.
(** A robot object: the Robot part of its state and how a changed one is put back. *)
Context {O : Type} (get : O -> robot) (put : O -> robot -> O).
Context (prim : shape -> mat3 -> vec3 -> shape -> mat3 -> vec3 -> bool) (to32 : R -> R).
Local Notation jv := (list R).

(** planning.py:299-301 (and 111-113, 334-337): the loop over sol["sol"] *)
Fixpoint check_sols (scene : coll) (qs : list jv) (o : O) (acc : list jv) : O * res (list jv) :=
  match qs with
  | [] => (o, Ok acc)
  | q :: qs' =>
      let (r, c) := robot_collision prim (get o) q scene in
      match c with
      | Ok true => check_sols scene qs' (put o r) acc
      | Ok false => check_sols scene qs' (put o r) (acc ++ [q])
      | Raise e => (put o r, Raise e)
      | OutOfFuel => (put o r, OutOfFuel)
      end
  end.

(** one call of robot.ik and the loop over its solutions *)
Definition solve_one (scene : coll) (call : O * res (option (list jv))) (acc : list jv) : O * res (list jv) :=
  match call with
  | (o, Ok None) => (o, Ok acc)
  | (o, Ok (Some qs)) => check_sols scene qs o acc
  | (o, Raise e) => (o, Raise e)
  | (o, OutOfFuel) => (o, OutOfFuel)
  end.

Section Grid.
(** robot.ik(Ti): None is success False *)
Context (ik : O -> mat4 -> O * res (option (list jv))).
(** planning.py:296-307 the loop over the samples of one point *)
Fixpoint solve_frames (scene : coll) (Ts : list mat4) (o : O) (acc : list jv) : O * res (list jv) :=
  match Ts with
  | [] => (o, Ok acc)
  | T :: Ts' =>
      match solve_one scene (ik o T) acc with
      | (o', Ok acc') => solve_frames scene Ts' o' acc'
      | (o', Raise e) => (o', Raise e)
      | (o', OutOfFuel) => (o', OutOfFuel)
      end
  end.
(** planning.py:283-313 cart_to_joint_no_redundancy *)
Fixpoint grid_columns (samples : pathpt -> res (list mat4)) (scene : coll) (path : list pathpt) (o : O) : O * res (list (qent R)) :=
  match path with
  | [] => (o, Ok [])
  | tp :: path' =>
      match samples tp with
      | Ok Ts =>
          match solve_frames scene Ts o [] with
          | (o', Ok q_sol) =>
              match pack to32 q_sol with
              | Ok e => let (o'', Q) := grid_columns samples scene path' o' in (o'', Q <- Q ;; Ok (e :: Q))
              | Raise e => (o', Raise e)
              | OutOfFuel => (o', OutOfFuel)
              end
          | (o', Raise e) => (o', Raise e)
          | (o', OutOfFuel) => (o', OutOfFuel)
          end
      | Raise e => (o, Raise e)
      | OutOfFuel => (o, OutOfFuel)
      end
  end.
(** planning.py:56-60 PlanningTask.solve with method "grid": the columns, then the search *)
Definition grid_plan {K : CostStruct} (sq_acc : K -> R -> R -> R -> K) (pq : pqueue K R)
  (samples : pathpt -> res (list mat4)) (scene : coll) (path : list pathpt) (method : string) (ow : option (list R)) (o : O)
  : O * res (gsp K R) :=
  let (o', Q) := grid_columns samples scene path o in
  (o', Q <- Q ;; get_shortest_path 1 sq_acc pq to32 Q method ow).
End Grid.

Section Simple.
(** robot.ik(Ti, qfi) for a robot with one redundant joint *)
Context (ik : O -> mat4 -> R -> O * res (option (list jv))).
(** planning.py:108-113 the loop over q_fixed; a sample that is a row of six
    numbers and not a frame is refused by the matrix product in robot.ik *)
Fixpoint solve_fixed (scene : coll) (s : sample) (qf : list R) (o : O) (acc : list jv) : O * res (list jv) :=
  match qf with
  | [] => (o, Ok acc)
  | g :: qf' =>
      match s with
      | ARow => (o, Raise ValueError)
      | AFrame T =>
          match solve_one scene (ik o T g) acc with
          | (o', Ok acc') => solve_fixed scene s qf' o' acc'
          | (o', Raise e) => (o', Raise e)
          | (o', OutOfFuel) => (o', OutOfFuel)
          end
      end
  end.
(** planning.py:106-113 the loop over the samples; q_sol starts anew each time *)
Fixpoint simple_frames (scene : coll) (Ts : list sample) (qf : list R) (o : O) (q_sol : option (list jv)) : O * res (option (list jv)) :=
  match Ts with
  | [] => (o, Ok q_sol)
  | s :: Ts' =>
      match solve_fixed scene s qf o [] with
      | (o', Ok l) => simple_frames scene Ts' qf o' (Some l)
      | (o', Raise e) => (o', Raise e)
      | (o', OutOfFuel) => (o', OutOfFuel)
      end
  end.
(** planning.py:92-118 cart_to_joint_simple *)
Fixpoint simple_columns (disc : pathpt -> res (list sample)) (scene : coll) (path : list pathpt) (qf : list R) (o : O) (q_sol : option (list jv))
  : O * res (list (qent R)) :=
  match path with
  | [] => (o, Ok [])
  | tp :: path' =>
      match disc tp with
      | Ok Ts =>
          match simple_frames scene Ts qf o q_sol with
          | (o', Ok None) => (o', Raise UnboundLocalError)
          | (o', Ok (Some l)) =>
              match pack to32 l with
              | Ok e => let (o'', Q) := simple_columns disc scene path' qf o' (Some l) in (o'', Q <- Q ;; Ok (e :: Q))
              | Raise e => (o', Raise e)
              | OutOfFuel => (o', OutOfFuel)
              end
          | (o', Raise e) => (o', Raise e)
          | (o', OutOfFuel) => (o', OutOfFuel)
          end
      | Raise e => (o, Raise e)
      | OutOfFuel => (o, OutOfFuel)
      end
  end.
(** gui/task_editor.py:165-174 (and the examples): the columns, then the search *)
Definition simple_plan {K : CostStruct} (sq_acc : K -> R -> R -> R -> K) (pq : pqueue K R)
  (disc : pathpt -> res (list sample)) (scene : coll) (path : list pathpt) (qf : list R) (method : string) (ow : option (list R)) (o : O)
  : O * res (gsp K R) :=
  let (o', Q) := simple_columns disc scene path qf o None in
  (o', Q <- Q ;; get_shortest_path 1 sq_acc pq to32 Q method ow).
End Simple.
End Obj.

(** ** The robot objects *)
Definition kuka_put (k : kuka) (r : robot) : kuka := Kk r (k_arm k) (k_wrist k).
(** robots.py:322-351 Kuka.ik as the planner reads it *)
Definition kuka_call (k : kuka) (T : mat4) : kuka * res (option (list (list R))) :=
  let (k', r) := kuka_ik k T in
  (k', r <- r ;; Ok (match r with IkFail => None | IkOk s => Some (read (k_wrist k') s) end)).
Definition kuka_columns prim to32 := grid_columns k_rob kuka_put prim to32 kuka_call.
Definition kuka_plan prim to32 {K : CostStruct} := grid_plan k_rob kuka_put prim to32 kuka_call (K := K).

Definition rail_put (rl : rail) (r : robot) : rail := Rl r (rl_kuka rl).
(** robots.py:389-409 KukaOnRail.ik as the planner reads it *)
Definition rail_call (rl : rail) (T : mat4) (q_fixed : R) : rail * res (option (list (list R))) :=
  let (rl', r) := rail_ik rl T q_fixed in
  (rl', r <- r ;; Ok (match r with IkFail => None | IkOk s => Some (read (k_wrist (rl_kuka rl')) s) end)).
Definition rail_columns prim to32 := simple_columns rl_rob rail_put prim to32 rail_call.
Definition rail_plan prim to32 {K : CostStruct} := simple_plan rl_rob rail_put prim to32 rail_call (K := K).
