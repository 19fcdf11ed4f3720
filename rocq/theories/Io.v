(** * Model of acrobotics/io.py.

    A parsed json document is a value of [json]; true and false are left out.
    A json vector must be a flat list of numbers: anything else counts as
    TypeError here (numpy would take scalars, nested lists and strings of digits
    further, and read null as nan).
    Reading the file and parsing its text (json.load) are left out: load_task
    and load_settings are parse_task_data and the identity on the document. *)
From Coq Require Import String Reals Lra List Bool Arith ZArith.
From Verif Require Import PyBase Mat Util Geometry Path.
Import ListNotations.
Local Open Scope R_scope.

Inductive json : Type := JInt (z : Z) | JFloat (x : R) | JStr (s : string) | JList (l : list json) | JObj (l : list (string * json)) | JNull.
(** d[key] *)
Fixpoint assoc (k : string) (l : list (string * json)) : res json :=
  match l with [] => Raise KeyError | (k', v) :: l' => if String.eqb k k' then Ok v else assoc k l' end.
Definition getitem (d : json) (k : string) : res json := match d with JObj l => assoc k l | _ => Raise TypeError end.
Definition num_of (j : json) : res R := match j with JInt z => Ok (IZR z) | JFloat x => Ok x | _ => Raise TypeError end.
Definition nums (j : json) : res (list R) := match j with JList l => mapM num_of l | _ => Raise TypeError end.
(** operator.index *)
Definition int_of (j : json) : res Z := match j with JInt z => Ok z | _ => Raise TypeError end.
(** v == "text" *)
Definition is_str (j : json) (s : string) : bool := match j with JStr s' => String.eqb s' s | _ => false end.

(** numpy broadcasting of two flat arrays *)
Definition bcast2 (a b : list R) : res (list (R * R)) :=
  if Nat.eqb (length a) (length b) then Ok (combine a b)
  else match a, b with
       | [x], _ => Ok (map (fun y => (x, y)) b)
       | _, [y] => Ok (map (fun x => (x, y)) a)
       | _, _ => Raise ValueError
       end.

(** io.py:15-19 create_transform *)
Definition rot3 (rpy : list R) : res mat3 :=
  a <- py_index rpy 0 ;; b <- py_index rpy 1 ;; c <- py_index rpy 2 ;; Ok (mmul (mmul (rot_x a) (rot_y b)) (rot_z c)).
Definition create_transform (xyz rpy : list R) : res mat4 :=
  T <- set_pos eye4 xyz ;; Rm <- rot3 rpy ;; Ok (M4 Rm (pos T) (brow T) (bww T)).

(** pyquaternion (external): Quaternion(matrix=R) for an orthogonal matrix;
    its tests of orthogonality and determinant pass for the rotations used here *)
Definition quat_of_matrix (A : mat3) : quat :=
  let m := mtr A in
  let scaled t w x y z := let k := 0.5 / sqrt t in Quat (k * w) (k * x) (k * y) (k * z) in
  if Rlt_dec (m22 m) 0 then
    if Rlt_dec (m11 m) (m00 m) then
      let t := 1 + m00 m - m11 m - m22 m in scaled t (m12 m - m21 m) t (m01 m + m10 m) (m20 m + m02 m)
    else
      let t := 1 - m00 m + m11 m - m22 m in scaled t (m20 m - m02 m) (m01 m + m10 m) t (m12 m + m21 m)
  else
    if Rlt_dec (m00 m) (- m11 m) then
      let t := 1 - m00 m - m11 m + m22 m in scaled t (m01 m - m10 m) (m20 m + m02 m) (m12 m + m21 m) t
    else
      let t := 1 + m00 m + m11 m + m22 m in scaled t t (m12 m - m21 m) (m20 m - m02 m) (m01 m - m10 m).
(** io.py:22-24 rpy_to_quaternion *)
Definition rpy_to_quaternion (rpy : list R) : res quat := Rm <- rot3 rpy ;; Ok (quat_of_matrix Rm).

(** np.linspace with flat arrays as ends: the k-th row *)
Definition linspace_rows (ab : list (R * R)) (n : nat) : list (list R) :=
  map (fun k => map (fun p => nth k (linspace (fst p) (snd p) n) 0) ab) (seq 0 n).
(** io.py:27-28 create_line *)
Definition create_line (start_pose end_point num_points : json) : res (list (list R)) :=
  sj <- getitem start_pose "xyz" ;; a <- nums sj ;; b <- nums end_point ;; n <- int_of num_points ;;
  if (n <? 0)%Z then Raise ValueError else ab <- bcast2 a b ;; Ok (linspace_rows ab (Z.to_nat n)).

Definition vlist (v : vec3) : list R := [vx v; vy v; vz v].
(** io.py:38-40; np.cross needs three (or two, left out) coordinates *)
Definition circle_point (e v c : list R) (a : R) : res (list R) :=
  match e, v with
  | [e0; e1; e2], [v0; v1; v2] =>
      let e := V3 e0 e1 e2 in let v := V3 v0 v1 v2 in
      let v_rot := vadd (vscale (cos a) v) (vscale (sin a) (cross e v)) in
      let v_rot := vadd v_rot (vscale ((1 - cos a) * vdot e v) e) in
      s <- bcast2 c (vlist v_rot) ;; Ok (map (fun p => fst p + snd p) s)
  | _, _ => Raise ValueError
  end.
(** io.py:31-41 create_circle; a zero axis gives nan in numpy, marked
    ZeroDivisionError here *)
Definition create_circle (mid start axis num_points : json) : res (list (list R)) :=
  ax <- nums axis ;;
  let nrm := sqrt (fold_right Rplus 0 (map (fun x => x * x) ax)) in
  if Req_EM_T nrm 0 then Raise ZeroDivisionError
  else
    let e := map (fun x => x / nrm) ax in
    c <- nums mid ;; s <- nums start ;; sc <- bcast2 s c ;;
    let v := map (fun p => fst p - snd p) sc in
    n <- int_of num_points ;;
    if (n <? 0)%Z then Raise ValueError
    else mapM (circle_point e v c) (linspace 0 (2 * PI) (Z.to_nat n)).

(** the path points made here *)
Inductive ppt : Type := PFree (p : list R) | PPos (p : pospt) | PEuler (p : eulerpt).
(** io.py:44-45 create_orientation_free_path *)
Definition create_orientation_free_path (ps : list (list R)) : res (list ppt) := Ok (map PFree ps).
(** io.py:53-57, 75-79 *)
Definition sym_coord (p : R * R) : res num :=
  if Rlt_dec 0 (snd p) then t <- new_tol (fst p - snd p) (fst p + snd p) None 10 ;; Ok (Tol t) else Ok (Fix (fst p)).
(** io.py:48-59 create_symmetric_position_tolerance *)
Definition create_symmetric_position_tolerance (ps : list (list R)) (rpy pos_tol : list R) : res (list ppt) :=
  q <- rpy_to_quaternion rpy ;;
  mapM (fun p => xyz <- mapM sym_coord (combine p pos_tol) ;; pt <- new_pospt xyz q ;; Ok (PPos pt)) ps.
(** io.py:62-66 guess_angle_unit *)
Definition guess_angle_unit (v : R) : R := if Rlt_dec 10 v then v * PI / 180 else v.
(** io.py:69-81 create_symmetric_euler_tolerance *)
Definition create_symmetric_euler_tolerance (ps : list (list R)) (rpy rpy_tol : list R) : res (list ppt) :=
  let rpy := map guess_angle_unit rpy in let rpy_tol := map guess_angle_unit rpy_tol in
  mapM (fun p => r <- mapM sym_coord (combine rpy rpy_tol) ;; pt <- new_eulerpt (map Fix p) r ;; Ok (PEuler pt)) ps.

(** io.py:87-94 *)
Definition path_positions (pd : json) : res (list (list R)) :=
  ty <- getitem pd "type" ;;
  if is_str ty "LINE" then
    sp <- getitem pd "start_pose" ;; ep <- getitem pd "end_point" ;; n <- getitem pd "num_points" ;; create_line sp ep n
  else if is_str ty "CIRC" then
    m <- getitem pd "mid" ;; s <- getitem pd "start" ;; a <- getitem pd "axis" ;; n <- getitem pd "num_points" ;; create_circle m s a n
  else Raise GenericException.
(** io.py:84-111 parse_path *)
Definition parse_path (d : json) : res (list ppt) :=
  pd <- getitem d "path" ;;
  ps <- path_positions pd ;;
  tl <- getitem pd "tolerance" ;;
  if is_str tl "orientation_free" then create_orientation_free_path ps
  else if is_str tl "position_tolerance" then
    sp <- getitem pd "start_pose" ;; rj <- getitem sp "rpy" ;; tj <- getitem pd "xyz_tol" ;;
    rpy <- nums rj ;; tol <- nums tj ;; create_symmetric_position_tolerance ps rpy tol
  else if is_str tl "euler_tolerance" then
    sp <- getitem pd "start_pose" ;; rj <- getitem sp "rpy" ;; tj <- getitem pd "rpy_tol" ;;
    rpy <- nums rj ;; tol <- nums tj ;; create_symmetric_euler_tolerance ps rpy tol
  else Raise GenericException.

(** io.py:114-117 create_box; Shape takes exactly three sizes *)
Definition create_box (d : json) : res (shape * mat4) :=
  sz <- getitem d "size" ;; l <- nums sz ;;
  s <- (match l with [x; y; z] => Ok (Shape x y z) | _ => Raise TypeError end) ;;
  xj <- getitem d "xyz" ;; rj <- getitem d "rpy" ;; xyz <- nums xj ;; rpy <- nums rj ;;
  T <- create_transform xyz rpy ;; Ok (s, T).
(** io.py:120-124 parse_shape *)
Definition parse_shape (d : json) : res (shape * mat4) :=
  ty <- getitem d "type" ;; if is_str ty "box" then create_box d else Raise GenericException.
(** for x in j *)
Definition iterate (j : json) : res (list json) :=
  match j with
  | JList l => Ok l
  | JObj l => Ok (map (fun p => JStr (fst p)) l)
  | JStr s => Ok (map (fun c => JStr (String c EmptyString)) (list_ascii_of_string s))
  | _ => Raise TypeError
  end.
(** io.py:127-136 parse_obstacles *)
Definition parse_obstacles (d : json) : res coll :=
  od <- getitem d "obstacles" ;; l <- iterate od ;; bs <- mapM parse_shape l ;; Ok (Coll (map fst bs) (map snd bs)).
(** io.py:139-142 parse_task_data *)
Definition parse_task_data (d : json) : res (list ppt * coll) :=
  path <- parse_path d ;; scene <- parse_obstacles d ;; Ok (path, scene).
(** io.py:157-164 import_paths, after reading the file *)
Definition import_paths (d : json) : res (list (list ppt)) :=
  ps <- getitem d "paths" ;; l <- iterate ps ;; mapM (fun p => parse_path (JObj [("path"%string, p)])) l.
