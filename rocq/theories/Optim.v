(** * Model of acrobotics/optimization.py.

    casadi and ipopt are external.  The optimisation variables are given
    values (joint rows [q], multipliers [lam], [mu]); a constraint is the
    proposition it states about these values.  [lam k i j] and [mu k i j] are
    the variables of lines 92-97; their indices are always in range because
    the joint rows, which have six entries, are indexed first.  Printing and
    solver options are left out. *)
From Coq Require Import Reals List Bool Arith.
From Verif Require Import PyBase Mat Util Geometry Robot.
Import ListNotations.
Local Open Scope R_scope.

(** casadi dot *)
Definition ldot (a b : list R) : R := fold_right Rplus 0 (map (fun p => fst p * snd p) (combine a b)).
(** A.T @ l for a matrix A given by its rows *)
Definition wsum (A : list vec3) (l : list R) : vec3 := fold_right vadd v0 (map (fun p => vscale (snd p) (fst p)) (combine A l)).

(** optimization.py:51-58 create_collision_constraints *)
Definition create_collision_constraints (lam mu : list R) (Ar Ao : list vec3) (br bo : list R) (eps : R) : list Prop :=
  [ - ldot br lam - ldot bo mu >= eps;
    vadd (wsum Ar lam) (wsum Ao mu) = v0;
    vdot (wsum Ar lam) (wsum Ar lam) <= 1;
    Forall (fun x => x >= 0) lam;
    Forall (fun x => x >= 0) mu ].
(** default value of eps *)
Definition eps0 : R := / 1000000.

(** optimization.py:68-72: A @ Ri.T has the rows Ri a; b + Ar @ pi *)
Definition move_poly (P : polyhedron) (T : mat4) : polyhedron :=
  let Ar := map (mapply (rot T)) (pA P) in
  Poly Ar (map (fun p => fst p + snd p) (combine (pb P) (map (fun a => vdot a (pos T)) Ar))).
(** optimization.py:61-78 create_cc_for_joint_pose *)
Definition create_cc_for_joint_pose (r : robot) (poly_robot poly_scene : list polyhedron) (q : list R)
    (lamk muk : nat -> nat -> list R) : res (list Prop) :=
  fk <- fk_all_links_casadi r q ;;
  cs <- mapM (fun i =>
    T <- py_index fk i ;;
    c <- mapM (fun j =>
      P <- py_index poly_robot i ;;
      O <- py_index poly_scene j ;;
      let M := move_poly P T in
      Ok (create_collision_constraints (lamk i j) (muk i j) (pA M) (pA O) (pb M) (pb O) eps0)) (seq 0 (length poly_scene)) ;;
    Ok (concat c)) (seq 0 (ndof r)) ;;
  Ok (concat cs).
(** optimization.py:81-107 create_cc; poly_robot[0] is read first *)
Definition create_cc (r : robot) (scene : coll) (q : list (list R)) (lam mu : nat -> nat -> nat -> list R) : res (list Prop) :=
  let poly_robot := flat_map (fun l => get_polyhedrons (l_geom l)) (r_links r) in
  let poly_scene := get_polyhedrons scene in
  _ <- py_index poly_robot 0 ;;
  cs <- mapM (fun k => qk <- py_index q k ;; create_cc_for_joint_pose r poly_robot poly_scene qk (lam k) (mu k)) (seq 0 (length q)) ;;
  Ok (concat cs).
(** optimization.py:24-29 path constraints; [p] is the attribute p of a point *)
Definition path_constraint (r : robot) (p : list R) (q : list R) : res (list Prop) :=
  T <- fk_casadi r q ;;
  x <- py_index p 0 ;; y <- py_index p 1 ;; z <- py_index p 2 ;;
  Ok [x = vx (pos T); y = vy (pos T); z = vz (pos T)].
(** optimization.py:8-31: everything passed to opti.subject_to; q has one row
    of six variables per path point *)
Definition all_constraints (xyz : list (list R)) (r : robot) (scene : option coll) (q : list (list R)) (lam mu : nat -> nat -> nat -> list R) : res (list Prop) :=
  cc <- (match scene with Some s => create_cc r s q lam mu | None => Ok [] end) ;;
  pc <- mapM (fun i => p <- py_index xyz i ;; qi <- py_index q i ;; path_constraint r p qi) (seq 0 (length xyz)) ;;
  Ok (cc ++ concat pc).
(** optimization.py:32-35 objective *)
Definition objective (q : list (list R)) : R :=
  fold_right Rplus 0 (map (fun p => fold_right Rplus 0 (map (fun ab => (fst ab - snd ab) ^ 2) (combine (fst p) (snd p)))) (combine (removelast q) (tl q))).
(** the values meet all constraints; a row holds six numbers *)
Definition feasible xyz r scene (q : list (list R)) lam mu : Prop :=
  length q = length xyz /\ Forall (fun row => length row = 6%nat) q /\
  exists cs, all_constraints xyz r scene q lam mu = Ok cs /\ Forall (fun c => c) cs.
(** optimization.py:41-48: [solver] is opti.solve(): None when it raises, otherwise
    the success flag and the value of q.  Building the constraints can raise,
    which does not depend on the values. *)
Inductive optres : Type := OptFail | OptOk (path : list (list R)).
Definition get_optimal_path (xyz : list (list R)) (r : robot) (scene : option coll) (solver : option (bool * list (list R))) : res optres :=
  _ <- all_constraints xyz r scene (repeat (repeat 0 6) (length xyz)) (fun _ _ _ => []) (fun _ _ _ => []) ;;
  match solver with
  | None => Raise GenericException
  | Some (true, q) => Ok (OptOk q)
  | Some (false, _) => Ok OptFail
  end.
