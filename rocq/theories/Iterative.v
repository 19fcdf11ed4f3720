(** * cart_to_joint_incremental and cart_to_joint_iterative of planning.py run on robot objects.

    As in Pipeline.v the robot object is threaded through the loops.  Numbers are reals,
    [to32] is the rounding of astype("float32"), printing and the time measurements are
    dropped (only their number is kept). *)
From Coq Require Import String List Arith Bool Reals.
From Verif Require Import PyBase Cost GraphCommon CppGraph Mat Util Geometry Robot Ik Path Planning Pipeline.
Import ListNotations.
Local Open Scope R_scope.

(** self.tp_current of a SolutionPoint: the given point or the TolOrientationPt that
    resample makes (planning.py:151-159, 210-212).  Its orientation is the Quaternion of
    the rotation matrix; here the matrix is kept.  Simplified: the test of pyquaternion
    that the matrix is orthogonal is left out, it passes for every fk of a rigid robot. *)
Inductive curpt : Type := CurPt (tp : pathpt) | CurOri (p : vec3) (o : mat3).
(** the class tested by isinstance, planning.py:162-169 *)
Definition cur_class (c : curpt) : pclass :=
  match c with
  | CurPt (PFree _ _) => CFree | CurPt (PPos _) => CTolPos | CurPt (PAxis _) => CAxis | CurPt (PEuler _) => CTolEuler
  | CurOri _ _ => CTolOri
  end.
(** planning.py:226-229 get_samples of a SolutionPoint.  [near] is Quaternion.random_near:
    [near j A d i] is the i-th quaternion drawn around the orientation A with distance d
    in call j of get_samples.  None: the class Quaternion has no random_near, as in the
    published pyquaternion; path.py:236 then raises in the first pass of its loop. *)
Definition cur_samples (ypr : quat -> vec3) (fuel : nat) (near : option (nat -> mat3 -> R -> nat -> quat)) (c : curpt) (n : nat) (d : R) (j : nat) : res (list mat4) :=
  match c with
  | CurPt tp => pt_samples ypr fuel n tp
  | CurOri p o =>
      match near with
      | Some f => ori_samples (f j o d) [vx p; vy p; vz p] n
      | None => match n with O => Ok [] | S _ => Raise AttributeError end
      end
  end.
(** the fields of SolutionPoint that matter: tp_current, tol_type, quat_dist_tol *)
Record solpt : Type := SolPt { so_cur : curpt; so_class : pclass; so_tol : R }.
(** planning.py:161-175 SolutionPoint(tp): the undefined name TolPositionPoint is read
    for every point that is not a FreeOrientationPt *)
Definition new_solpt (tp : pathpt) : res solpt :=
  match cur_class (CurPt tp) with
  | CFree => Ok (SolPt (CurPt tp) CFree (PI / 4))
  | _ => Raise NameError
  end.

Section Obj.
Context {Ob : Type} (get : Ob -> robot) (put : Ob -> robot -> Ob).
Context (prim : shape -> mat3 -> vec3 -> shape -> mat3 -> vec3 -> bool) (to32 : R -> R).
Local Notation jv := (list R).
Context (ik : Ob -> mat4 -> Ob * res (option (list jv))).

(** ** Incremental *)
(** planning.py:329-345 the while loop for one point; [samples j tp] is
    tp.get_samples(1, rep="transform") in call j; cnt counts the appended solutions *)
Fixpoint inc_point (fuel : nat) (samples : nat -> pathpt -> res (list mat4)) (scene : coll) (tp : pathpt) (mn mx : nat)
  (o : Ob) (j : nat) (q_sol : list jv) (cnt : nat) : Ob * res (list jv * nat) :=
  if Nat.ltb cnt mx then
    match fuel with
    | O => (o, OutOfFuel)
    | S fuel' =>
        match (Ts <- samples j tp ;; py_index Ts 0) with
        | Ok T =>
            match solve_one get put prim scene (ik o T) q_sol with
            | (o', Ok q_sol') =>
                let cnt' := (cnt + (length q_sol' - length q_sol))%nat in
                if Nat.leb mn cnt' then (o', Ok (q_sol', S j))
                else inc_point fuel' samples scene tp mn mx o' (S j) q_sol' cnt'
            | (o', Raise e) => (o', Raise e)
            | (o', OutOfFuel) => (o', OutOfFuel)
            end
        | Raise e => (o, Raise e)
        | OutOfFuel => (o, OutOfFuel)
        end
    end
  else (o, Ok (q_sol, j)).
(** planning.py:316-351 cart_to_joint_incremental *)
Fixpoint inc_columns (fuel : nat) (samples : nat -> pathpt -> res (list mat4)) (scene : coll) (path : list pathpt) (mn mx : nat)
  (o : Ob) (j : nat) : Ob * res (list (qent R)) :=
  match path with
  | [] => (o, Ok [])
  | tp :: path' =>
      match inc_point fuel samples scene tp mn mx o j [] 0 with
      | (o', Ok (q_sol, j')) =>
          match pack to32 q_sol with
          | Ok e => let (o'', Q) := inc_columns fuel samples scene path' mn mx o' j' in (o'', Q <- Q ;; Ok (e :: Q))
          | Raise e => (o', Raise e)
          | OutOfFuel => (o', OutOfFuel)
          end
      | (o', Raise e) => (o', Raise e)
      | (o', OutOfFuel) => (o', OutOfFuel)
      end
  end.
(** planning.py:78-81 PlanningTask.solve with method "grid_incremental" *)
Definition inc_plan {K : CostStruct} (sq_acc : K -> R -> R -> R -> K) (pq : pqueue K R) (fuel : nat)
  (samples : nat -> pathpt -> res (list mat4)) (scene : coll) (path : list pathpt) (mn mx : nat) (o : Ob) : Ob * res (gsp K R) :=
  let (o', Q) := inc_columns fuel samples scene path mn mx o 0 in
  (o', Q <- Q ;; get_shortest_path 1 sq_acc pq to32 Q "dijkstra" None).

(** ** Iterative *)
(** planning.py:198 np.array(joint_solutions) and astype("float32") of line 255 *)
Definition pack_array (l : list jv) : res (qent R) :=
  match l with
  | [] => Ok (QArr F32 0 [])
  | q :: _ => if forallb (fun q' => Nat.eqb (length q') (length q)) l then Ok (QArr F32 (length q) (map (map to32) l)) else Raise ValueError
  end.
(** planning.py:248-256 the columns of one iteration; a missing scene is refused by
    calc_joint_solutions (lines 182-184) after the samples are drawn; j counts the calls
    of get_samples *)
Fixpoint it_columns (samples : curpt -> nat -> R -> nat -> res (list mat4)) (scene : option coll) (sps : list solpt) (num : nat)
  (o : Ob) (j : nat) : Ob * res (list (qent R) * nat) :=
  match sps with
  | [] => (o, Ok ([], j))
  | sp :: sps' =>
      match samples (so_cur sp) num (so_tol sp) j with
      | Ok Ts =>
          match scene with
          | None => (o, Raise ValueError)
          | Some sc =>
              match solve_frames get put prim ik sc Ts o [] with
              | (o', Ok l) =>
                  match pack_array l with
                  | Ok e =>
                      let (o'', r) := it_columns samples scene sps' num o' (S j) in
                      (o'', '(Q, j') <- r ;; Ok (e :: Q, j'))
                  | Raise e => (o', Raise e)
                  | OutOfFuel => (o', OutOfFuel)
                  end
              | (o', Raise e) => (o', Raise e)
              | (o', OutOfFuel) => (o', OutOfFuel)
              end
          end
      | Raise e => (o, Raise e)
      | OutOfFuel => (o, OutOfFuel)
      end
  end.
(** planning.py:200-212 resample: only FreeOrientationPt reaches it (tol_type TOL_ORI) *)
Definition it_resample (o : Ob) (sp : solpt) (q : jv) : Ob * res solpt :=
  match so_class sp with
  | CFree =>
      let (r, t) := fk (get o) q in
      (put o r, T <- t ;; Ok (SolPt (CurOri (pos T) (rot T)) CFree (so_tol sp / 2)))
  | CTolPos => (o, Raise NameError)
  | _ => (o, Raise ValueError)
  end.
(** planning.py:267-269 *)
Fixpoint it_resample_all (qs : list jv) (sps : list solpt) (o : Ob) : Ob * res (list solpt) :=
  match qs, sps with
  | q :: qs', sp :: sps' =>
      match it_resample o sp q with
      | (o', Ok sp') => let (o'', r) := it_resample_all qs' sps' o' in (o'', rest <- r ;; Ok (sp' :: rest))
      | (o', Raise e) => (o', Raise e)
      | (o', OutOfFuel) => (o', OutOfFuel)
      end
  | _, _ => (o, Ok sps)
  end.
(** planning.py:246-280 *)
Fixpoint it_loop {K : CostStruct} (sq_acc : K -> R -> R -> R -> K) (pq : pqueue K R) (samples : curpt -> nat -> R -> nat -> res (list mat4))
  (iters : nat) (scene : option coll) (sps : list solpt) (num : nat) (o : Ob) (j : nat)
  (costs : list K) (paths : list (list jv)) (ntimes : nat) (last : option (list jv * K)) : Ob * res (iter_sol K R) :=
  match iters with
  | O =>
      (o, match last with
          | None => Raise UnboundLocalError
          | Some (p, c) => Ok (ItOk p c costs paths ntimes)
          end)
  | S iters' =>
      match it_columns samples scene sps num o j with
      | (o', Ok (Q, j')) =>
          if forallb (fun e => negb (Nat.eqb (qlen e) 0)) Q then
            match get_shortest_path 1 sq_acc pq to32 Q "dijkstra" None with
            | Ok (GspOk p c) =>
                match it_resample_all p sps o' with
                | (o'', Ok sps') => it_loop sq_acc pq samples iters' scene sps' num o'' j' (costs ++ [c]) (paths ++ [p]) (ntimes + 1) (Some (p, c))
                | (o'', Raise e) => (o'', Raise e)
                | (o'', OutOfFuel) => (o'', OutOfFuel)
                end
            | Ok GspFail => (o', Ok ItFail)
            | Raise e => (o', Raise e)
            | OutOfFuel => (o', OutOfFuel)
            end
          else (o', Ok ItFail)
      | (o', Raise e) => (o', Raise e)
      | (o', OutOfFuel) => (o', OutOfFuel)
      end
  end.
(** planning.py:232-280 cart_to_joint_iterative *)
Definition it_plan {K : CostStruct} (sq_acc : K -> R -> R -> R -> K) (pq : pqueue K R) (samples : curpt -> nat -> R -> nat -> res (list mat4))
  (scene : option coll) (path : list pathpt) (num max_iters : nat) (o : Ob) : Ob * res (iter_sol K R) :=
  match mapM new_solpt path with
  | Ok sps => it_loop sq_acc pq samples max_iters scene sps num o 0 [] [] 0 None
  | Raise e => (o, Raise e)
  | OutOfFuel => (o, OutOfFuel)
  end.
End Obj.

(** tp.get_samples(1, rep="transform") in call j, planning.py:331: only a FreeOrientationPt
    draws, from the numbers src j; the other classes ignore the 1 *)
Definition inc_samples (ypr : quat -> vec3) (fuel : nat) (src : nat -> list (list R)) (j : nat) (tp : pathpt) : res (list mat4) :=
  match tp with PFree p _ => pt_samples ypr fuel 1 (PFree p (src j)) | _ => pt_samples ypr fuel 1 tp end.

Definition kuka_inc_columns prim to32 := inc_columns k_rob kuka_put prim to32 kuka_call.
Definition kuka_inc_plan prim to32 {K : CostStruct} := inc_plan k_rob kuka_put prim to32 kuka_call (K := K).
Definition kuka_it_plan prim to32 {K : CostStruct} := it_plan k_rob kuka_put prim to32 kuka_call (K := K).
