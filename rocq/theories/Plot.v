(** * Model of the plotting functions of geometry.py and robot.py.

    A line object of matplotlib is its two end points, or None while it has no
    data.  Plotting returns the lines it adds to the axes, in order; colours,
    axes limits and what matplotlib does at draw time are left out.
    Robot.plot passes tf_base of the base geometry as an extra positional
    argument, which matplotlib takes as further data to plot; these stray lines
    are left out. *)
From Coq Require Import Reals List Bool Arith.
From Verif Require Import PyBase Mat Util Geometry Robot.
Import ListNotations.
Local Open Scope R_scope.

Definition line : Type := option (vec3 * vec3).
(** geometry.py:116-118 get_empty_lines *)
Definition get_empty_lines : list line := repeat None 12.
(** geometry.py:120-129 update_lines *)
Definition update_lines (s : shape) (lines : list line) (tf : mat4) : res (list line) :=
  mapM (fun i => e <- py_index (get_edges s tf) i ;; Ok (Some e)) (seq 0 (length lines)).
(** geometry.py:103-114 Shape.plot *)
Definition shape_plot (s : shape) (tf : mat4) : res (list line) := update_lines s get_empty_lines tf.
(** geometry.py:141-148 Collection.plot; [tf] is the keyword argument *)
Definition coll_plot (c : coll) (tf : option mat4) : res (list line) :=
  ls <- mapM (fun p => shape_plot (fst p) (match tf with Some T => tmul T (snd p) | None => snd p end)) (combine (c_s c) (c_tf c)) ;; Ok (concat ls).
(** robot.py:76-77 Link.plot *)
Definition link_plot (l : link) (tf : mat4) : res (list line) := coll_plot (l_geom l) (Some tf).
(** robot.py:217-226 Robot.plot *)
Definition robot_plot (r : robot) (q : list R) : robot * res (list line) :=
  match match r_base r with Some b => coll_plot b None | None => Ok [] end with
  | Ok base =>
      let (r1, fs) := fk_all_links r q in
      (r1, tfs <- fs ;;
           links <- mapM (fun p => tf <- py_index tfs (fst p) ;; link_plot (snd p) tf) (combine (seq 0 (ndof r1)) (r_links r1)) ;;
           tool <- match r_tool r1 with Some (t, _) => tf <- py_last tfs ;; coll_plot t (Some tf) | None => Ok [] end ;;
           Ok (base ++ concat links ++ tool))
  | Raise e => (r, Raise e)
  | OutOfFuel => (r, OutOfFuel)
  end.
(** robot.py:246-249 plot_path *)
Fixpoint plot_path (r : robot) (qs : list (list R)) : robot * res (list (list line)) :=
  match qs with
  | [] => (r, Ok [])
  | q :: qs' =>
      match robot_plot r q with
      | (r1, Ok p) => let (r2, ps) := plot_path r1 qs' in (r2, ps <- ps ;; Ok (p :: ps))
      | (r1, Raise e) => (r1, Raise e)
      | (r1, OutOfFuel) => (r1, OutOfFuel)
      end
  end.

(** ** animate_path *)
(** robot.py:252-260 get_emtpy_lines: twelve lines per shape *)
Definition anim_lines (r : robot) : list (list line) :=
  flat_map (fun l => map (fun _ => get_empty_lines) (c_s (l_geom l))) (r_links r) ++
  match r_tool r with Some (t, _) => map (fun _ => get_empty_lines) (c_s t) | None => [] end.
(** robot.py:268-269 (and 274-275): lines[cnt] = s.update_lines(lines[cnt], Ti), cnt = cnt + 1 *)
Definition anim_step (st : nat * list (list line)) (b : mat4 * shape) : res (nat * list (list line)) :=
  let (cnt, lines) := st in
  l <- py_index lines cnt ;; l' <- update_lines (snd b) l (fst b) ;; Ok (S cnt, upd lines cnt l').
(** robot.py:262-275 update_lines of one frame *)
Definition anim_update (r : robot) (q_path : list (list R)) (lines : list (list line)) (frame : nat) : robot * res (list (list line)) :=
  match py_index q_path frame with
  | Ok q =>
      let (r1, fs) := fk_all_links r q in
      (r1, tfs <- fs ;;
           st <- foldM (fun st p => foldM (fun st b => anim_step st (tmul (fst p) (fst b), snd b)) (combine (c_tf (l_geom (snd p))) (c_s (l_geom (snd p)))) st)
                       (combine tfs (r_links r1)) (0%nat, lines) ;;
           st <- match r_tool r1 with
                 | Some (t, _) => foldM (fun st b => tf <- py_last tfs ;; anim_step st (tmul tf (fst b), snd b)) (combine (c_tf t) (c_s t)) st
                 | None => Ok st
                 end ;;
           Ok (snd st))
  | Raise e => (r, Raise e)
  | OutOfFuel => (r, OutOfFuel)
  end.
(** robot.py:277-281: FuncAnimation calls update_lines for some sequence of frames *)
Fixpoint animate (r : robot) (q_path : list (list R)) (frames : list nat) (lines : list (list line)) : robot * res (list (list line)) :=
  match frames with
  | [] => (r, Ok lines)
  | k :: frames' =>
      match anim_update r q_path lines k with
      | (r1, Ok lines') => animate r1 q_path frames' lines'
      | (r1, Raise e) => (r1, Raise e)
      | (r1, OutOfFuel) => (r1, OutOfFuel)
      end
  end.
Definition animate_path (r : robot) (q_path : list (list R)) (frames : list nat) : robot * res (list (list line)) :=
  animate r q_path frames (anim_lines r).
