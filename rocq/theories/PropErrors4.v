(** * Property theorems C131, C134 and C147, continued: the largest costs; the boxes of
    the torch; exceptions of drawing, animation, the Puma, the rotating table, the
    rail, the scene import, the iterative planner and dp.py.

    [in_plane X Y Z]: see PropMount.v.  [good], [joints_ok]: the robot as built, with
    known joint types. *)
From Coq Require Import String Reals Lra Lia List Bool Arith ZArith.
From Flocq Require Import Core.
From Verif Require Import PyBase Cost CostFloat Dp Mat Util Geometry GeometryProofs Robot RobotProofs Plot PlotProofs Puma Ik Path Planning Resources Mount Pipeline Examples ErrorProofs4.
From Verif Require Urdf.
Import ListNotations.
Local Open Scope R_scope.

(** C131: the largest double (float) is a cost; twice 2^1023 (2^127) is infinite. *)
Theorem C131_overflow64 : let top := bpow radix2 1024 - bpow radix2 971 in
  cadd (c0 := Float64Cost) (Some top) (Some 0) = Some top /\ cadd (c0 := Float64Cost) (Some (bpow radix2 1023)) (Some (bpow radix2 1023)) = None.
Proof. exact overflow64. Qed.
Print Assumptions C131_overflow64.
Theorem C131_overflow32 : let top := bpow radix2 128 - bpow radix2 104 in
  cadd (c0 := Float32Cost) (Some top) (Some 0) = Some top /\ cadd (c0 := Float32Cost) (Some (bpow radix2 127)) (Some (bpow radix2 127)) = None.
Proof. exact overflow32. Qed.
Print Assumptions C131_overflow32.

(** C134: the five boxes of the torch: the first along the flange, three turned by angle1, the nozzle by angle2 more. *)
Theorem C134_boxes : forall x, in_coll (fst torch) None x <->
  (exists a b c, Rabs (a - 0.035) <= 0.04 /\ Rabs b <= 0.04 /\ Rabs c <= 0.04 /\ x = V3 b c a) \/
  (exists a b c, Rabs (a + 0.02) <= 0.09 /\ Rabs (b - 0.15) <= 0.0375 /\ Rabs c <= 0.0375 /\ x = in_plane a b c) \/
  (exists a b c, Rabs (a - 0.085) <= 0.015 /\ Rabs (b - 0.075) <= 0.11 /\ Rabs c <= 0.035 /\ x = in_plane a b c) \/
  (exists a b c, Rabs (a - 0.15) <= 0.05 /\ Rabs (b - 0.15) <= 0.0125 /\ Rabs c <= 0.0125 /\ x = in_plane a b c) \/
  (exists s t c, Rabs s <= 0.05 /\ Rabs t <= 0.0125 /\ Rabs c <= 0.0125 /\
     x = in_plane (0.25 + s * cos angle2 - t * sin angle2) (0.15 + sin angle2 * 0.05 + s * sin angle2 + t * cos angle2) c).
Proof. exact torch_boxes. Qed.
Print Assumptions C134_boxes.

(** C147: plot_path draws what plot draws, once for every configuration, none for an empty path. *)
Theorem C147_plot_path : forall qs r, good r -> joints_ok r -> Forall (fun q => (1 <= ndof r <= length q)%nat) qs ->
  exists ps, snd (plot_path r qs) = Ok ps /\ Forall2 (fun q p => snd (robot_plot r q) = Ok p) qs ps.
Proof. exact plot_each. Qed.
Print Assumptions C147_plot_path.
(** C147: too few joint values raise IndexError in the animation, the collision check of the Puma and the turns of the table. *)
Theorem C147_animate_short : forall r qs k q ks, good r -> joints_ok r -> nth_error qs k = Some q -> (length q < ndof r)%nat -> snd (animate_path r qs (k :: ks)) = Raise IndexError.
Proof. exact animate_short. Qed.
Print Assumptions C147_animate_short.
Theorem C147_puma_short : forall prim gs rest r q scene, good r -> joints_ok r -> r_base r = None -> (length q < ndof r)%nat -> snd (geoms_collision prim gs rest r q scene) = Raise IndexError.
Proof. exact puma_short. Qed.
Print Assumptions C147_puma_short.
Theorem C147_turns_short : forall O (get : O -> robot) put prim ik scene s qt q_table qf tb o acc, good tb -> joints_ok tb -> (length qt < ndof tb)%nat ->
  snd (table_turns get put prim ik scene s (qt :: q_table) qf tb o acc) = Raise IndexError.
Proof. exact @turns_short. Qed.
Print Assumptions C147_turns_short.
Example C147_short_example : good (PlanarArm 1 1 1) /\ joints_ok (PlanarArm 1 1 1) /\ r_base (PlanarArm 1 1 1) = None /\ (length [0; 0] < ndof (PlanarArm 1 1 1))%nat.
Proof. exact planar_short_case. Qed.
(** C147: a first joint of unknown type stops the ik of the robot on a rail. *)
Theorem C147_rail_unknown : forall rl T q l ls, r_links (rl_rob rl) = l :: ls -> l_jt l = JOther -> snd (rail_ik rl T q) = Raise UnboundLocalError.
Proof. exact rail_unknown. Qed.
Print Assumptions C147_rail_unknown.
(** C147: a scene in which a link on the base has no collision element is not imported. *)
Theorem C147_import_bare : forall N d u sh j, Urdf.load N d = Ok u -> Urdf.link_shapes N (Urdf.u_links N u) = Ok sh -> In j (Urdf.u_joints N u) -> Urdf.rj_parent j = Urdf.u_base N u ->
  (forall l, In l (Urdf.u_links N u) -> Urdf.rl_name N l = Urdf.rj_child j -> Urdf.rl_coll N l = []) -> Urdf.import_doc N d = Raise KeyError.
Proof. exact import_bare. Qed.
Print Assumptions C147_import_bare.
(** C147: joint solutions of different lengths make no array. *)
Theorem C147_ragged : forall T S F (ik : T -> option (list (list F))) coll to32 Ts (st : S) (q q' : list F) l st', collect ik coll Ts st [] = (l, st') -> In q l -> In q' l -> length q <> length q' ->
  calc_joint_solutions to32 ik coll true Ts st = Raise ValueError.
Proof. exact @ragged. Qed.
Print Assumptions C147_ragged.
(** C147: a cost row and a value row are added as numpy adds them. *)
Theorem C147_broadcast : forall (K : CostStruct) (x : K) (v row : list K) y, row_add [x] v = Ok (map (fun z => cadd x z) v) /\ row_add row [y] = Ok (map (fun z => cadd z y) row) /\
  (length row <> length v -> length row <> 1%nat -> length v <> 1%nat -> row_add row v = Raise ValueError).
Proof. exact @broadcast. Qed.
Print Assumptions C147_broadcast.
