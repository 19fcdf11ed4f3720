(** * Model of acrobotics/urdfio.py.

    Text of numbers is modelled ([list_to_string] and its reader), the XML
    around it is a tree: writing the templates and parsing them back (lxml) is
    taken to be faithful for robot names without XML special characters.
    urdfpy is external; the checks and readers of it that matter here are
    written out below. *)
From Coq Require Import String Ascii Reals Lra List Bool Arith ZArith Decimal DecimalString DecimalNat DecimalZ.
From Verif Require Import PyBase Mat Util Geometry.
Import ListNotations.
Local Open Scope string_scope.

(** ** Numbers and their text *)
Definition space : ascii := " "%char.
(** a token: not empty, no space *)
Definition plain (s : string) : Prop := s <> "" /\ ~ In space (list_ascii_of_string s).
(** numbers of the code (python floats): str(v), the reader, and the value *)
Record numbers : Type := Numbers {
  num : Type;
  show : num -> string;
  read : string -> option num;
  value : num -> R;
  read_show : forall v, read (show v) = Some v;
  show_plain : forall v, plain (show v);
  read_0 : exists z, read "0" = Some z /\ value z = 0%R
}.

(** " ".join *)
Fixpoint join (l : list string) : string :=
  match l with [] => "" | [s] => s | s :: l' => s ++ " " ++ join l' end.
(** tokens between spaces *)
Fixpoint tokens (s : string) (cur : string) : list string :=
  match s with
  | EmptyString => match cur with "" => [] | _ => [cur] end
  | String c s' =>
      if Ascii.eqb c space then match cur with "" => tokens s' "" | _ => cur :: tokens s' "" end
      else tokens s' (cur ++ String c "")
  end.

Section Urdf.
Context (N : numbers).
Notation F := (num N).
(** urdfio.py:55-57 list_to_string *)
Definition list_to_string (l : list F) : string := join (map (show N) l).
(** np.fromstring(text, sep=" "), three numbers *)
Definition read3 (s : string) : res (F * F * F) :=
  match map (read N) (tokens s "") with
  | [Some x; Some y; Some z] => Ok (x, y, z)
  | _ => Raise ValueError
  end.

(** a scene: sizes and transforms as held by the Collection *)
Record tf : Type := Tf { f_rot : mat3; f_pos : F * F * F }.
Record scene : Type := Scene { sc_sizes : list (F * F * F); sc_tfs : list tf }.
Definition vec_of (p : F * F * F) : vec3 := let '(x, y, z) := p in V3 (value N x) (value N y) (value N z).
Definition shape_of (p : F * F * F) : shape := let '(x, y, z) := p in Shape (value N x) (value N y) (value N z).
(** the Collection itself, with real numbers *)
Definition coll_of (s : scene) : coll := Coll (map shape_of (sc_sizes s)) (map (fun t => M4 (f_rot t) (vec_of (f_pos t)) v0 1) (sc_tfs s)).

(** ** Documents *)
Inductive geom : Type := GBox (size : string) | GOther.
Record collision : Type := Collision { c_xyz : string; c_rpy : string; c_geom : geom }.
Record link : Type := Link { l_name : string; l_coll : list collision }.
Record joint : Type := Joint { j_name : string; j_parent : string; j_child : string; j_xyz : string; j_rpy : string }.
Record doc : Type := Doc { d_name : string; d_links : list link; d_joints : list joint }.

(** ** Export *)
(** "shape_{}".format(i) *)
Definition shape_name (i : nat) : string := "shape_" ++ NilZero.string_of_uint (Nat.to_uint i).
Definition triple (p : F * F * F) : list F := let '(x, y, z) := p in [x; y; z].
(** one entry of urdf_data: name, size, xyz *)
Record entry : Type := Entry { n_name : string; n_size : string; n_xyz : string }.
(** urdfio.py:60-77 create_urdf_data *)
Definition create_urdf_data (s : scene) (names : list string) : list entry :=
  let both := combine (sc_sizes s) (sc_tfs s) in
  let sizes := map (fun p => triple (fst p)) both in
  let positions := map (fun p => triple (f_pos (snd p))) both in
  map (fun p => Entry (fst p) (list_to_string (fst (snd p))) (list_to_string (snd (snd p)))) (combine names (combine sizes positions)).
(** urdfio.py:15-31 _box_template, 33-39 _joint_template *)
Definition box_link (e : entry) : link := Link (n_name e) [Collision "0 0 0" "0 0 0" (GBox (n_size e))].
Definition box_joint (e : entry) : joint := Joint ("world_to_" ++ n_name e) "world" (n_name e) (n_xyz e) "0 0 0".
(** urdfio.py:41-52 _urdf_template around the content of the entries so far *)
Definition urdf_doc (name : string) (es : list entry) : doc := Doc name (Link "world" [] :: map box_link es) (map box_joint es).
(** the file at the target path: open(..., "w") empties it, write fills it *)
Inductive op : Type := Truncate | Write (d : doc).
Inductive file : Type := NoFile | EmptyFile | DocFile (d : doc).
Definition step (f : file) (o : op) : file := match o with Truncate => EmptyFile | Write d => DocFile d end.
Definition run (ops : list op) (f : file) : file := fold_left step ops f.
(** urdfio.py:84-90: the loop; content grows and the file is written each time *)
Fixpoint export_loop (name : string) (content es : list entry) : list op :=
  match es with
  | [] => []
  | e :: es' => let content := (content ++ [e])%list in Truncate :: Write (urdf_doc name content) :: export_loop name content es'
  end.
(** urdfio.py:80-90 export_urdf: the operations on the file *)
Definition export_urdf (s : scene) (name : string) : list op :=
  let shape_names := map shape_name (seq 0 (length (sc_sizes s))) in
  export_loop name [] (create_urdf_data s shape_names).

(** ** Import *)
(** urdfpy rpy_to_matrix: fixed axes *)
Definition rpy_to_matrix (r p y : R) : mat3 := mmul (rot_z y) (mmul (rot_y p) (rot_x r)).
(** urdfpy parse_origin *)
Definition origin (xyz rpy : string) : res mat4 :=
  p <- read3 xyz ;; a <- read3 rpy ;; let v := vec_of a in Ok (M4 (rpy_to_matrix (vx v) (vy v) (vz v)) (vec_of p) v0 1).
Definition mem (s : string) (l : list string) : bool := existsb (String.eqb s) l.
Fixpoint nodupb (l : list string) : bool := match l with [] => true | s :: l' => negb (mem s l') && nodupb l' end.
(** no chain of joints upwards from s is longer than the fuel *)
Fixpoint height_ok (fuel : nat) (js : list joint) (s : string) : bool :=
  match fuel with
  | O => false
  | S k => forallb (fun j => negb (String.eqb (j_child j) s) || height_ok k js (j_parent j)) js
  end.
(** a loaded robot: numbers read; sizes None for other geometries *)
Record rlink : Type := RLink { rl_name : string; rl_coll : list (mat4 * option (F * F * F)) }.
Record rjoint : Type := RJoint { rj_parent : string; rj_child : string; rj_origin : mat4 }.
Record urdf : Type := Robot { u_links : list rlink; u_joints : list rjoint; u_base : string }.
Definition load_coll (c : collision) : res (mat4 * option (F * F * F)) :=
  T <- origin (c_xyz c) (c_rpy c) ;; match c_geom c with GBox s => p <- read3 s ;; Ok (T, Some p) | GOther => Ok (T, None) end.
Definition load_link (l : link) : res rlink := cs <- mapM load_coll (l_coll l) ;; Ok (RLink (l_name l) cs).
Definition load_joint (j : joint) : res rjoint := T <- origin (j_xyz j) (j_rpy j) ;; Ok (RJoint (j_parent j) (j_child j) T).
(** urdfpy URDF.load: unique names, joints between known links, no cycle and a
    single link without parent (then the links are connected) *)
Definition load (d : doc) : res urdf :=
  let names := map l_name (d_links d) in
  ls <- mapM load_link (d_links d) ;; js <- mapM load_joint (d_joints d) ;;
  if negb (nodupb names) || negb (nodupb (map j_name (d_joints d))) then Raise ValueError
  else if negb (forallb (fun j => mem (j_parent j) names && mem (j_child j) names) (d_joints d)) then Raise ValueError
  else if negb (forallb (height_ok (length names) (d_joints d)) names) then Raise ValueError
  else match filter (fun s => negb (mem s (map j_child (d_joints d)))) names with
       | [base] => Ok (Robot ls js base)
       | _ => Raise ValueError
       end.
(** urdfio.py:93-107 parse_link *)
Definition parse_link (l : rlink) : res (F * F * F) :=
  match rl_coll l with
  | [(_, Some p)] => Ok p
  | _ => Raise AssertionError
  end.
(** urdfio.py:114-119: the dictionary of shapes, by link name *)
Fixpoint link_shapes (ls : list rlink) : res (list (string * (F * F * F))) :=
  match ls with
  | [] => Ok []
  | l :: ls' =>
      match rl_coll l with
      | [] => link_shapes ls'
      | _ => p <- parse_link l ;; r <- link_shapes ls' ;; Ok ((rl_name l, p) :: r)
      end
  end.
Fixpoint dict_get {A} (k : string) (l : list (string * A)) : res A :=
  match l with [] => Raise KeyError | (k', v) :: l' => if String.eqb k k' then Ok v else dict_get k l' end.
(** urdfio.py:121-126 *)
Definition root_boxes (base : string) (shapes : list (string * (F * F * F))) (js : list rjoint) : res (list (shape * mat4)) :=
  mapM (fun j => p <- dict_get (rj_child j) shapes ;; Ok (shape_of p, rj_origin j)) (filter (fun j => String.eqb (rj_parent j) base) js).
(** urdfio.py:110-127 import_urdf on the document; links have unique names *)
Definition import_doc (d : doc) : res coll :=
  u <- load d ;; shapes <- link_shapes (u_links u) ;;
  bs <- root_boxes (u_base u) shapes (u_joints u) ;; Ok (Coll (map fst bs) (map snd bs)).
(** a missing or empty file does not load; both raise, the exact type is that of
    the XML parser *)
Definition import_urdf (f : file) : res coll :=
  match f with DocFile d => import_doc d | _ => Raise GenericException end.
End Urdf.
