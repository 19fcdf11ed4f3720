(** * Model of acrobotics/robot.py (plotting left out) and the robots without
    inverse kinematics of acrobotics/resources/robots.py.

    A call on a robot returns the robot after the call and the result, because
    every link owns one matrix object [_T] that each call overwrites, and
    because collision checks reorder [collision_priority].  Numbers are exact
    reals.  Joint vectors are lists; q[i] out of range raises IndexError.
    Geometry of the bundled robots is left out (an empty collection). *)
From Coq Require Import Reals List Bool Arith.
From Verif Require Import PyBase Mat Util Geometry.
Import ListNotations.
Local Open Scope R_scope.

(** robot.py:17 DHLink *)
Record dhlink : Type := DH { da : R; dalpha : R; dd : R; dtheta : R }.
(** joint_type: "r", "p" or any other value *)
Inductive jtype : Type := JR | JP | JOther.
(** robot.py:20-33 Link *)
Record link : Type := Lk { l_dh : dhlink; l_jt : jtype; l_geom : coll; l_T : mat4 }.
Definition new_link (dh : dhlink) (jt : jtype) (g : coll) : link := Lk dh jt g eye4.
Definition set_T (l : link) (T : mat4) : link := Lk (l_dh l) (l_jt l) (l_geom l) T.
(** robot.py:46-57: the assignments to the entries of T; T[2,0] and the bottom
    row keep their old values *)
Definition write_T (T : mat4) (a alpha d theta : R) : mat4 :=
  let c_theta := cos theta in let s_theta := sin theta in let c_alpha := cos alpha in let s_alpha := sin alpha in
  M4 (M3 c_theta (- s_theta * c_alpha) (s_theta * s_alpha)
         s_theta (c_theta * c_alpha) (- c_theta * s_alpha)
         (m20 (rot T)) s_alpha c_alpha)
     (V3 (a * c_theta) (a * s_theta) d) (brow T) (bww T).
(** robot.py:35-58 get_link_relative_transform *)
Definition link_transform (l : link) (qi : R) : link * res mat4 :=
  let dh := l_dh l in
  match l_jt l with
  | JR => let T := write_T (l_T l) (da dh) (dalpha dh) (dd dh) qi in (set_T l T, Ok T)
  | JP => let T := write_T (l_T l) (da dh) (dalpha dh) qi (dtheta dh) in (set_T l T, Ok T)
  | JOther => (l, Raise UnboundLocalError)
  end.
(** robot.py:60-74 get_link_relative_transform_casadi (evaluated at numbers) *)
Definition link_transform_casadi (l : link) (qi : R) : mat4 :=
  let a := da (l_dh l) in let alpha := dalpha (l_dh l) in let d := dd (l_dh l) in let theta := qi in
  let c_t := cos theta in let s_t := sin theta in let c_a := cos alpha in let s_a := sin alpha in
  M4 (M3 c_t (- s_t * c_a) (s_t * s_a) s_t (c_t * c_a) (- c_t * s_a) 0 s_a c_a) (V3 (a * c_t) (a * s_t) d) (V3 0 0 0) 1.

(** robot.py:93-122 Robot; a Tool is a Collection with a tip transform *)
Record robot : Type := Rb {
  r_links : list link; r_limits : list (R * R); r_base : option coll; r_tool : option (coll * mat4); r_tfb : mat4;
  r_mat : nat -> nat -> bool; r_self : bool; r_prio : list nat }.
Definition set_links (r : robot) (ls : list link) : robot := Rb ls (r_limits r) (r_base r) (r_tool r) (r_tfb r) (r_mat r) (r_self r) (r_prio r).
Definition set_prio (r : robot) (p : list nat) : robot := Rb (r_links r) (r_limits r) (r_base r) (r_tool r) (r_tfb r) (r_mat r) (r_self r) p.
Definition ndof (r : robot) : nat := length (r_links r).
(** robot.py:117-118: np.tril(ones, k=-3) + np.triu(ones, k=3) *)
Definition band (i j : nat) : bool := (j + 3 <=? i) || (i + 3 <=? j).
Definition robot_init (ls : list link) : robot :=
  Rb ls (repeat (- PI, PI) (length ls)) None None eye4 band true (seq 0 (length ls)).

(** robot.py:129-131, loop of fk *)
Fixpoint fk_loop (ls : list link) (q : list R) (T : mat4) : list link * res mat4 :=
  match ls with
  | [] => ([], Ok T)
  | l :: ls' =>
      match q with
      | [] => (ls, Raise IndexError)
      | qi :: q' =>
          match link_transform l qi with
          | (l1, Ok Ti) => let (ls1, r) := fk_loop ls' q' (tmul T Ti) in (l1 :: ls1, r)
          | (l1, Raise e) => (l1 :: ls', Raise e)
          | (l1, OutOfFuel) => (l1 :: ls', OutOfFuel)
          end
      end
  end.
(** robot.py:124-134 fk *)
Definition fk (r : robot) (q : list R) : robot * res mat4 :=
  let (ls, T) := fk_loop (r_links r) q (r_tfb r) in
  (set_links r ls, T <- T ;; Ok (match r_tool r with Some (_, tf_tt) => tmul T tf_tt | None => T end)).
(** robot.py:150-153, loop of fk_all_links *)
Fixpoint frames_loop (ls : list link) (q : list R) (T : mat4) : list link * res (list mat4) :=
  match ls with
  | [] => ([], Ok [])
  | l :: ls' =>
      match q with
      | [] => (ls, Raise IndexError)
      | qi :: q' =>
          match link_transform l qi with
          | (l1, Ok Ti) => let T1 := tmul T Ti in let (ls1, r) := frames_loop ls' q' T1 in (l1 :: ls1, fs <- r ;; Ok (T1 :: fs))
          | (l1, Raise e) => (l1 :: ls', Raise e)
          | (l1, OutOfFuel) => (l1 :: ls', OutOfFuel)
          end
      end
  end.
(** robot.py:145-154 fk_all_links *)
Definition fk_all_links (r : robot) (q : list R) : robot * res (list mat4) :=
  let (ls, fs) := frames_loop (r_links r) q (r_tfb r) in (set_links r ls, fs).
(** robot.py:136-143 fk_casadi *)
Fixpoint casadi_loop (ls : list link) (q : list R) (T : mat4) : res mat4 :=
  match ls, q with
  | [], _ => Ok T
  | _ :: _, [] => Raise IndexError
  | l :: ls', qi :: q' => casadi_loop ls' q' (tmul T (link_transform_casadi l qi))
  end.
Definition fk_casadi (r : robot) (q : list R) : res mat4 :=
  T <- casadi_loop (r_links r) q (r_tfb r) ;; Ok (match r_tool r with Some (_, tf_tt) => tmul T tf_tt | None => T end).
(** robot.py:156-165 fk_all_links_casadi *)
Fixpoint casadi_frames (ls : list link) (q : list R) (T : mat4) : res (list mat4) :=
  match ls, q with
  | [], _ => Ok []
  | _ :: _, [] => Raise IndexError
  | l :: ls', qi :: q' => let T1 := tmul T (link_transform_casadi l qi) in fs <- casadi_frames ls' q' T1 ;; Ok (T1 :: fs)
  end.
Definition fk_all_links_casadi (r : robot) (q : list R) : res (list mat4) := casadi_frames (r_links r) q (r_tfb r).

Section Coll.
Context (prim : shape -> mat3 -> vec3 -> shape -> mat3 -> vec3 -> bool).
Notation collide := (is_in_collision prim).

(** robot.py:168, 169: zip(range(ndof), tf_links, geom_links) *)
Definition zip3 (n : nat) (tfs : list mat4) (gs : list coll) : list (nat * (mat4 * coll)) := combine (seq 0 n) (combine tfs gs).
Fixpoint self_inner (m : nat -> nat -> bool) (i : nat) (ti : mat4) (gi : coll) (l : list (nat * (mat4 * coll))) : bool :=
  match l with
  | [] => false
  | (j, (tj, gj)) :: l' =>
      if m i j then if collide gi gj (Some ti) (Some tj) then true else self_inner m i ti gi l' else self_inner m i ti gi l'
  end.
Fixpoint self_outer (m : nat -> nat -> bool) (l l2 : list (nat * (mat4 * coll))) : bool :=
  match l with
  | [] => false
  | (i, (ti, gi)) :: l' => if self_inner m i ti gi l2 then true else self_outer m l' l2
  end.
(** robot.py:177-181 *)
Fixpoint tool_loop (tool : coll) (tf_tool : mat4) (l : list (mat4 * coll)) : bool :=
  match l with
  | [] => false
  | (tf, g) :: l' => if collide g tool (Some tf) (Some tf_tool) then true else tool_loop tool tf_tool l'
  end.
(** robot.py:167-182 _check_self_collision *)
Definition check_self (r : robot) (tfs : list mat4) (gs : list coll) : res bool :=
  let z := zip3 (ndof r) tfs gs in
  if self_outer (r_mat r) z z then Ok true
  else match r_tool r with
       | None => Ok false
       | Some (tool, _) => tf_tool <- py_last tfs ;; Ok (tool_loop tool tf_tool (combine (removelast tfs) (removelast gs)))
       end.
(** robot.py:184-187 is_in_self_collision *)
Definition is_in_self_collision (r : robot) (q : list R) : robot * res bool :=
  let gs := map l_geom (r_links r) in
  let (r1, fs) := fk_all_links r q in (r1, tfs <- fs ;; check_self r1 tfs gs).

(** robot.py:200-205: the first index in priority order that hits *)
Fixpoint prio_loop (gs : list coll) (tfs : list mat4) (scene : coll) (p : list nat) : res (option nat) :=
  match p with
  | [] => Ok None
  | i :: p' =>
      g <- py_index gs i ;; tf <- py_index tfs i ;;
      if collide g scene (Some tf) None then Ok (Some i) else prio_loop gs tfs scene p'
  end.
(** list.remove *)
Fixpoint remove_first (i : nat) (l : list nat) : list nat :=
  match l with [] => [] | x :: l' => if Nat.eqb x i then l' else x :: remove_first i l' end.
(** robot.py:189-215 is_in_collision *)
Definition robot_collision (r : robot) (q : list R) (scene : coll) : robot * res bool :=
  if match r_base r with Some b => collide b scene (Some (r_tfb r)) None | None => false end then (r, Ok true)
  else
    let gs := map l_geom (r_links r) in
    let (r1, fs) := fk_all_links r q in
    match fs with
    | Ok tfs =>
        match prio_loop gs tfs scene (r_prio r1) with
        | Ok (Some i) => (set_prio r1 (i :: remove_first i (r_prio r1)), Ok true)
        | Ok None =>
            (r1, hit <- match r_tool r1 with
                        | Some (tool, _) => tf_tool <- py_last tfs ;; Ok (collide tool scene (Some tf_tool) None)
                        | None => Ok false
                        end ;;
                 if hit then Ok true
                 else if r_self r1 then check_self r1 tfs gs else Ok false)
        | Raise e => (r1, Raise e)
        | OutOfFuel => (r1, OutOfFuel)
        end
    | Raise e => (r1, Raise e)
    | OutOfFuel => (r1, OutOfFuel)
    end.

(** one call of a public method; OpLink is robot.links[i].get_link_relative_transform(qi) *)
Inductive op : Type :=
| OpFk (q : list R) | OpFrames (q : list R) | OpSelf (q : list R) | OpColl (q : list R) (scene : coll) | OpLink (i : nat) (qi : R).
Definition link_op (r : robot) (i : nat) (qi : R) : robot :=
  match nth_error (r_links r) i with Some l => set_links r (upd (r_links r) i (fst (link_transform l qi))) | None => r end.
Definition run_op (r : robot) (o : op) : robot :=
  match o with
  | OpFk q => fst (fk r q)
  | OpFrames q => fst (fk_all_links r q)
  | OpSelf q => fst (is_in_self_collision r q)
  | OpColl q scene => fst (robot_collision r q scene)
  | OpLink i qi => link_op r i qi
  end.
Definition run_ops (r : robot) (os : list op) : robot := fold_left run_op os r.
End Coll.

(** ** resources/robots.py, geometry left out *)
Definition nogeom : coll := Coll [] [].
Definition lr (a alpha d theta : R) : link := new_link (DH a alpha d theta) JR nogeom.
Definition lp (a alpha d theta : R) : link := new_link (DH a alpha d theta) JP nogeom.
(** robots.py:12-24 *)
Definition PlanarArm (a1 a2 a3 : R) : robot := robot_init [lr a1 0 0 0; lr a2 0 0 0; lr a3 0 0 0].
(** robots.py:30-42 *)
Definition SphericalArm (d2 : R) : robot := robot_init [lr 0 (- PI / 2) 0 0; lr 0 (PI / 2) d2 0; lp 0 0 0 0].
(** robots.py:48-60 *)
Definition SphericalWrist (d3 : R) : robot := robot_init [lr 0 (- PI / 2) 0 0; lr 0 (PI / 2) 0 0; lr 0 0 d3 0].
(** robots.py:96-108 *)
Definition AnthropomorphicArm (a2 a3 : R) : robot := robot_init [lr 0 (PI / 2) 0 0; lr a2 0 0 0; lr a3 0 0 0].
(** robots.py:168-180 *)
Definition Arm2 (a1 a2 a3 : R) : robot := robot_init [lr a1 (PI / 2) 0 0; lr a2 0 0 0; lr a3 (PI / 2) 0 0].
(** robots.py:309-318 *)
Definition Kuka (a1 a2 d4 d6 : R) : robot :=
  robot_init [lr a1 (PI / 2) 0 0; lr a2 0 0 0; lr 0 (PI / 2) 0 0; lr 0 (- PI / 2) d4 0; lr 0 (PI / 2) 0 0; lr 0 0 d6 0].
(** robots.py:376-386 *)
Definition KukaOnRail (a1 a2 d4 d6 : R) : robot :=
  robot_init [lp 0 (PI / 2) 0 0; lr a1 (PI / 2) 0 0; lr a2 0 0 0; lr 0 (PI / 2) 0 0; lr 0 (- PI / 2) d4 0; lr 0 (PI / 2) 0 0; lr 0 0 d6 0].
(** robots.py:432-441 *)
Definition Puma (a3 a4 d1 d3 d4 : R) : robot :=
  robot_init [lr 0 0 d1 0; lr 0 (- PI / 2) 0 0; lr a3 0 d3 0; lr a4 (- PI / 2) d4 0; lr 0 (- PI / 2) 0 0; lr 0 (PI / 2) 0 0].
