(** * examples/optimization_based.py: the optimisation of the Kuka over the table.
    The plots of lines 30-36 are not modelled. *)
From Coq Require Import Reals List Bool Arith.
From Verif Require Import PyBase Mat Util Geometry Robot Ik Optim Resources PipelineExamples.
Import ListNotations.
Local Open Scope R_scope.

(** optimization_based.py:20-21: the first point, with the axes of the world *)
Definition tee : mat4 := M4 mid (V3 0.8 (-0.2) 0.2) v0 1.
(** optimization_based.py:24: one constant motion per solution *)
Definition q_inits (N : nat) (q_ik : list (list R)) : list (list (list R)) := map (fun qi => repeat qi N) q_ik.
(** optimization_based.py:9-27; the result of a failed inverse kinematics has no
    "sol" and a failed optimisation no "path".  [solve] is opti.solve() as a
    function of the initial guess, see Optim.get_optimal_path; N = 15 is the
    number of points of path_ori_free (path_on_table.py:24). *)
Definition script (solve : list (list R) -> option (bool * list (list R))) : res (list (list R)) :=
  r <- snd (kuka_ik kuka_object tee) ;;
  match r with
  | IkFail => Raise KeyError
  | IkOk s =>
      q_init <- py_index (q_inits 15 (read (k_wrist (fst (kuka_ik kuka_object tee))) s)) 5 ;;
      o <- get_optimal_path (path_ori_free 15) (k_rob kuka_object) (Some scene1) (solve q_init) ;;
      match o with OptFail => Raise KeyError | OptOk p => Ok p end
  end.
