(** * Model of the rest of acrobotics/resources/robots.py: the Puma with its geometry,
    and of tests/kuka_forward_kinematics.py.

    Numbers are exact reals. *)
From Coq Require Import Reals List Bool Arith.
From Verif Require Import PyBase Mat Util Geometry Robot.
Import ListNotations.
Local Open Scope R_scope.

(** tests/kuka_forward_kinematics.py:12-20 fk_kuka, for any lengths (the file has the default ones) *)
Definition fk_kuka (a1 a2 d4 d6 q1 q2 q3 q4 q5 q6 : R) : mat4 :=
  M4 (M3
    (((sin q1*sin q4 + cos q1*cos q4*cos (q2 + q3))*cos q5 - sin q5*sin (q2 + q3)*cos q1)*cos q6 + (sin q1*cos q4 - sin q4*cos q1*cos (q2 + q3))*sin q6)
    (-((sin q1*sin q4 + cos q1*cos q4*cos (q2 + q3))*cos q5 - sin q5*sin (q2 + q3)*cos q1)*sin q6 + (sin q1*cos q4 - sin q4*cos q1*cos (q2 + q3))*cos q6)
    ((sin q1*sin q4 + cos q1*cos q4*cos (q2 + q3))*sin q5 + sin (q2 + q3)*cos q1*cos q5)
    (((sin q1*cos q4*cos (q2 + q3) - sin q4*cos q1)*cos q5 - sin q1*sin q5*sin (q2 + q3))*cos q6 - (sin q1*sin q4*cos (q2 + q3) + cos q1*cos q4)*sin q6)
    (-((sin q1*cos q4*cos (q2 + q3) - sin q4*cos q1)*cos q5 - sin q1*sin q5*sin (q2 + q3))*sin q6 - (sin q1*sin q4*cos (q2 + q3) + cos q1*cos q4)*cos q6)
    ((sin q1*cos q4*cos (q2 + q3) - sin q4*cos q1)*sin q5 + sin q1*sin (q2 + q3)*cos q5)
    ((sin q5*cos (q2 + q3) + sin (q2 + q3)*cos q4*cos q5)*cos q6 - sin q4*sin q6*sin (q2 + q3))
    (-(sin q5*cos (q2 + q3) + sin (q2 + q3)*cos q4*cos q5)*sin q6 - sin q4*sin (q2 + q3)*cos q6)
    (sin q5*sin (q2 + q3)*cos q4 - cos q5*cos (q2 + q3)))
  (V3
    (a1*cos q1 + a2*cos q1*cos q2 + d4*sin (q2 + q3)*cos q1 + d6*((sin q1*sin q4 + cos q1*cos q4*cos (q2 + q3))*sin q5 + sin (q2 + q3)*cos q1*cos q5))
    (a1*sin q1 + a2*sin q1*cos q2 + d4*sin q1*sin (q2 + q3) + d6*((sin q1*cos q4*cos (q2 + q3) - sin q4*cos q1)*sin q5 + sin q1*sin (q2 + q3)*cos q5))
    (a2*sin q2 - d4*cos (q2 + q3) + d6*(sin q5*sin (q2 + q3)*cos q4 - cos q5*cos (q2 + q3))))
  v0 1.

(** ** Puma geometry *)
(** robots.py:424-431: Collection(Shape(...), np.eye(4)), a shape where a list is expected *)
Inductive geom : Type := Proper (c : coll) | Lone (s : shape) (tf : mat4).
Definition puma_geoms : list geom := repeat (Lone (Shape 0.1 0.1 0.1) eye4) 6.
Section Prim.
Context (prim : shape -> mat3 -> vec3 -> shape -> mat3 -> vec3 -> bool).
(** geometry.py:161-176 Collection.is_in_collision for either kind of self: moving
    the rows of the lone transform goes well, zip over the lone shape does not *)
Definition geom_collision (g : geom) (other : coll) (tf_self : option mat4) : res bool :=
  match g with
  | Proper c => Ok (is_in_collision prim c other tf_self None)
  | Lone _ _ => Raise TypeError
  end.
(** robot.py:200-205 *)
Fixpoint geom_loop (gs : list geom) (tfs : list mat4) (scene : coll) (p : list nat) : res (option nat) :=
  match p with
  | [] => Ok None
  | i :: p' =>
      g <- py_index gs i ;; tf <- py_index tfs i ;; h <- geom_collision g scene (Some tf) ;;
      if h : bool then Ok (Some i) else geom_loop gs tfs scene p'
  end.
(** robot.py:189-206 is_in_collision of a robot whose links have the geometries gs,
    up to the loop over the links; what comes after it is [rest] *)
Definition geoms_collision (gs : list geom) (rest : robot -> list mat4 -> res bool) (r : robot) (q : list R) (scene : coll) : robot * res bool :=
  if match r_base r with Some b => is_in_collision prim b scene (Some (r_tfb r)) None | None => false end then (r, Ok true)
  else
    let (r1, fs) := fk_all_links r q in
    match fs with
    | Ok tfs =>
        match geom_loop gs tfs scene (r_prio r1) with
        | Ok (Some i) => (set_prio r1 (i :: remove_first i (r_prio r1)), Ok true)
        | Ok None => (r1, rest r1 tfs)
        | Raise e => (r1, Raise e)
        | OutOfFuel => (r1, OutOfFuel)
        end
    | Raise e => (r1, Raise e)
    | OutOfFuel => (r1, OutOfFuel)
    end.
End Prim.
