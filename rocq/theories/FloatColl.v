(** * The collision check in floating point (C139).

    Robot.is_in_collision again, with the frames of the links and the product of a frame
    and a shape transform rounded as numpy does (FloatFk.v).  The box test of fcl is the
    parameter [prim] of Geometry.v, now called with rounded matrices. *)
From Coq Require Import Reals List Bool Arith.
From Verif Require Import PyBase Mat Geometry Robot FloatFk.
Import ListNotations.
Local Open Scope R_scope.

(** geometry.py:166-169 *)
Definition fmoved (A : arith) (tf : option mat4) (l : list mat4) : list mat4 :=
  match tf with Some T => map (fmul A T) l | None => l end.
(** geometry.py:161-176 Collection.is_in_collision *)
Definition fcollide (A : arith) (prim : shape -> mat3 -> vec3 -> shape -> mat3 -> vec3 -> bool) (self other : coll) (tf_self tf_other : option mat4) : bool :=
  outer_loop prim (combine (fmoved A tf_self (c_tf self)) (c_s self)) (combine (fmoved A tf_other (c_tf other)) (c_s other)).

Section Check.
Context (collide : coll -> coll -> option mat4 -> option mat4 -> bool).
(** robot.py:167-176 *)
Fixpoint fself_inner (m : nat -> nat -> bool) (i : nat) (ti : mat4) (gi : coll) (l : list (nat * (mat4 * coll))) : bool :=
  match l with
  | [] => false
  | (j, (tj, gj)) :: l' =>
      if m i j then if collide gi gj (Some ti) (Some tj) then true else fself_inner m i ti gi l' else fself_inner m i ti gi l'
  end.
Fixpoint fself_outer (m : nat -> nat -> bool) (l l2 : list (nat * (mat4 * coll))) : bool :=
  match l with
  | [] => false
  | (i, (ti, gi)) :: l' => if fself_inner m i ti gi l2 then true else fself_outer m l' l2
  end.
(** robot.py:177-181 *)
Fixpoint ftool_loop (tool : coll) (tf_tool : mat4) (l : list (mat4 * coll)) : bool :=
  match l with
  | [] => false
  | (tf, g) :: l' => if collide g tool (Some tf) (Some tf_tool) then true else ftool_loop tool tf_tool l'
  end.
(** robot.py:167-182 _check_self_collision *)
Definition fcheck_self (r : robot) (tfs : list mat4) (gs : list coll) : res bool :=
  let z := zip3 (ndof r) tfs gs in
  if fself_outer (r_mat r) z z then Ok true
  else match r_tool r with
       | None => Ok false
       | Some (tool, _) => tf_tool <- py_last tfs ;; Ok (ftool_loop tool tf_tool (combine (removelast tfs) (removelast gs)))
       end.
(** robot.py:200-205 *)
Fixpoint fprio_loop (gs : list coll) (tfs : list mat4) (scene : coll) (p : list nat) : res (option nat) :=
  match p with
  | [] => Ok None
  | i :: p' =>
      g <- py_index gs i ;; tf <- py_index tfs i ;;
      if collide g scene (Some tf) None then Ok (Some i) else fprio_loop gs tfs scene p'
  end.
End Check.
(** robot.py:189-215 is_in_collision *)
Definition frobot_collision (A : arith) prim (r : robot) (q : list R) (scene : coll) : robot * res bool :=
  let collide := fcollide A prim in
  if match r_base r with Some b => collide b scene (Some (r_tfb r)) None | None => false end then (r, Ok true)
  else
    let gs := map l_geom (r_links r) in
    let (r1, fs) := ffk_all_links A r q in
    match fs with
    | Ok tfs =>
        match fprio_loop collide gs tfs scene (r_prio r1) with
        | Ok (Some i) => (set_prio r1 (i :: remove_first i (r_prio r1)), Ok true)
        | Ok None =>
            (r1, hit <- match r_tool r1 with
                        | Some (tool, _) => tf_tool <- py_last tfs ;; Ok (collide tool scene (Some tf_tool) None)
                        | None => Ok false
                        end ;;
                 if hit then Ok true
                 else if r_self r1 then fcheck_self collide r1 tfs gs else Ok false)
        | Raise e => (r1, Raise e)
        | OutOfFuel => (r1, OutOfFuel)
        end
    | Raise e => (r1, Raise e)
    | OutOfFuel => (r1, OutOfFuel)
    end.
