(** * Property theorems C85-C87, C99 and C100: urdfio.py.

    [numbers]: numbers with their text, read back exactly; [ints] is one
    instance.  [even s]: as many shapes as transforms.  [run ops f]: the file
    after these operations when it was f.  [flatten s]: s with all rotations
    replaced by the identity; [first_boxes k s]: its first k boxes. *)
From Coq Require Import String Reals Lra Lia List Bool Arith ZArith.
From Verif Require Import PyBase Mat Util Geometry Path Urdf UrdfProofs.
Import ListNotations.
Local Open Scope string_scope.

(** C85 *)
Theorem C85_round_trip : forall N s name f, even N s -> sc_sizes N s <> [] -> unrotated N s -> import_urdf N (run (export_urdf N s name) f) = Ok (coll_of N s).
Proof. exact export_unrotated. Qed.
Print Assumptions C85_round_trip.
Example C85_example : let s := Scene ints [(1, 2, 3)%Z; (4, 5, 6)%Z] [Tf ints mid (0, -1, 2)%Z; Tf ints mid (10, 0, 0)%Z] in even ints s /\ sc_sizes ints s <> [] /\ unrotated ints s.
Proof. split; [reflexivity|]. split; [discriminate|repeat constructor]. Qed.

(** C86: refuted: rotations are not written ... *)
Theorem C86_rotated_refuted : exists (N : numbers) s name f, even N s /\ sc_sizes N s <> [] /\ Forall (fun t => rotation (f_rot N t)) (sc_tfs N s) /\ import_urdf N (run (export_urdf N s name) f) <> Ok (coll_of N s).
Proof. exact rotated_refuted. Qed.
Print Assumptions C86_rotated_refuted.
(** C86: ... every other part of a non-empty scene is kept. *)
Theorem C86_flattened_partial : forall N s name f, even N s -> sc_sizes N s <> [] -> import_urdf N (run (export_urdf N s name) f) = Ok (coll_of N (flatten N s)).
Proof. exact export_flattens. Qed.
Print Assumptions C86_flattened_partial.
Theorem C86_exactly_unrotated : forall N s name f, even N s -> sc_sizes N s <> [] -> (import_urdf N (run (export_urdf N s name) f) = Ok (coll_of N s) <-> unrotated N s).
Proof. exact export_exactly. Qed.
Print Assumptions C86_exactly_unrotated.
Example C86_example : let s := Scene ints [(1, 2, 3)%Z] [Tf ints (rot_x 1) (0, -1, 2)%Z] in even ints s /\ sc_sizes ints s <> [].
Proof. split; [reflexivity|discriminate]. Qed.

(** C87: each box takes two operations, opening and writing *)
Theorem C87_completed_writes : forall N s name k f, even N s -> (k <= length (sc_sizes N s))%nat -> let g := run (firstn (2 * k) (export_urdf N s name)) f in
  (k = 0%nat -> g = f) /\ ((1 <= k)%nat -> import_urdf N g = Ok (coll_of N (flatten N (first_boxes N k s)))).
Proof. exact export_prefix. Qed.
Print Assumptions C87_completed_writes.
Theorem C87_operations : forall N s name, even N s -> length (export_urdf N s name) = (2 * length (sc_sizes N s))%nat.
Proof. exact export_length. Qed.
Print Assumptions C87_operations.
(** between opening and writing nothing loads, not even what was there before *)
Theorem C87_between_open_and_write : forall N s name k f, even N s -> (k < length (sc_sizes N s))%nat -> exists e, import_urdf N (run (firstn (2 * k + 1) (export_urdf N s name)) f) = Raise e.
Proof. exact export_window. Qed.
Print Assumptions C87_between_open_and_write.
Example C87_example : let s := Scene ints [(1, 2, 3)%Z; (4, 5, 6)%Z] [Tf ints mid (0, -1, 2)%Z; Tf ints mid (10, 0, 0)%Z] in even ints s /\ (1 <= length (sc_sizes ints s))%nat.
Proof. split; [reflexivity|cbn; lia]. Qed.

(** C99: refuted: an empty scene leaves an older file in place. *)
Theorem C99_export_overwrites_refuted : exists (N : numbers) s name f, sc_sizes N s = [] /\ sc_tfs N s = [] /\ import_urdf N (run (export_urdf N s name) f) <> Ok (coll_of N s) /\ f <> NoFile.
Proof. exact empty_refuted. Qed.
Print Assumptions C99_export_overwrites_refuted.
Theorem C99_empty_writes_nothing : forall N s name f, sc_sizes N s = [] -> run (export_urdf N s name) f = f.
Proof. exact export_empty. Qed.
Print Assumptions C99_empty_writes_nothing.
(** C99: a non-empty scene replaces it, whatever it was. *)
Theorem C99_export_overwrites_partial : forall N s name f, even N s -> sc_sizes N s <> [] -> import_urdf N (run (export_urdf N s name) f) = Ok (coll_of N (flatten N s)).
Proof. exact export_flattens. Qed.
Print Assumptions C99_export_overwrites_partial.
Example C99_example : let s := Scene ints [(1, 2, 3)%Z] [Tf ints mid (0, -1, 2)%Z] in even ints s /\ sc_sizes ints s <> [].
Proof. split; [reflexivity|discriminate]. Qed.

(** C100: [box_at u p T]: the loaded robot has a box of size p, T being the
    product of the joint origins from the base and the collision origin.
    Refuted for boxes further down a chain and for collision origins ... *)
Theorem C100_import_refuted : exists d, loses d.
Proof. exact import_refuted. Qed.
Print Assumptions C100_import_refuted.
Theorem C100_chain_and_offset_lost : loses chain_doc /\ loses offset_doc.
Proof. exact import_loses. Qed.
Print Assumptions C100_chain_and_offset_lost.
(** C100: ... holds when all joints start at the base link, collision shapes sit
    at their link and the base link has none. *)
Theorem C100_star_partial : forall N d u c, load N d = Ok u -> star N u -> import_doc N d = Ok c ->
  forall s T, In (s, T) (combine (c_s c) (c_tf c)) <-> exists p, s = shape_of N p /\ box_at N u p T.
Proof. exact import_star. Qed.
Print Assumptions C100_star_partial.
Theorem C100_star_returns : forall N d u, load N d = Ok u -> star N u ->
  (forall l, In l (u_links N u) -> rl_name N l <> u_base N u -> exists T p, rl_coll N l = [(T, Some p)]) -> exists c, import_doc N d = Ok c.
Proof. exact import_star_returns. Qed.
Print Assumptions C100_star_returns.
Theorem C100_refused : forall N d u l, load N d = Ok u -> In l (u_links N u) -> rl_coll N l <> [] -> (forall T p, rl_coll N l <> [(T, Some p)]) -> import_doc N d = Raise AssertionError.
Proof. exact import_refuses. Qed.
Print Assumptions C100_refused.
Example C100_example : exists u, load ints star_doc = Ok u /\ star ints u /\ exists c, import_doc ints star_doc = Ok c.
Proof. exact star_example. Qed.

(** C129: refuted, roll, pitch and yaw of a URDF origin and the rpy of a
    TolEulerPt are different rotations ... *)
Theorem C129_rpy_refuted : rpy_to_matrix (PI / 2) (PI / 2) 0 <> rot_xyz (PI / 2) (PI / 2) 0.
Proof. exact rpy_differs. Qed.
Print Assumptions C129_rpy_refuted.
(** C129: the origin read from a file turns by roll, then pitch, then yaw about fixed axes. *)
Theorem C129_origin : forall N xyz rpy x y z r p w, read3 N xyz = Ok (x, y, z) -> read3 N rpy = Ok (r, p, w) ->
  origin N xyz rpy = Ok (M4 (mmul (rot_z (value N w)) (mmul (rot_y (value N p)) (rot_x (value N r)))) (V3 (value N x) (value N y) (value N z)) v0 1).
Proof. exact origin_read. Qed.
Print Assumptions C129_origin.
Example C129_origin_example : read3 ints "1 -2 3" = Ok (1, -2, 3)%Z. Proof. reflexivity. Qed.
(** C129: ... each the inverse of the other with the angles negated; they agree
    when at most one angle is not zero. *)
Theorem C129_inverse_partial : forall r p y, rotation (rpy_to_matrix r p y) /\ rpy_to_matrix r p y = mtr (rot_xyz (- r) (- p) (- y)).
Proof. exact (fun r p y => conj (rpy_rotation r p y) (rpy_transpose r p y)). Qed.
Print Assumptions C129_inverse_partial.
Theorem C129_single_partial : forall a, rpy_to_matrix a 0 0 = rot_xyz a 0 0 /\ rpy_to_matrix 0 a 0 = rot_xyz 0 a 0 /\ rpy_to_matrix 0 0 a = rot_xyz 0 0 a.
Proof. exact rpy_single. Qed.
Print Assumptions C129_single_partial.
