(** * Property theorems C131 and C147, continued: the precision of the cost types; a
    solution with too few joint values inside the grid planner; an object among the
    coordinates of a box.

    [good], [joints_ok]: the robot as built, with known joint types. *)
From Coq Require Import String Reals Lra Lia List Bool Arith ZArith.
From Flocq Require Import Core.
From Verif Require Import PyBase Cost CostFloat Dp Mat Util Geometry GeometryProofs Robot RobotProofs Ik Path Planning Resources Pipeline Io ErrorProofs4 ErrorProofs5.
Import ListNotations.
Local Open Scope R_scope.

(** C131: one is lost when added to 2^53 (2^24), half of the smallest positive number is lost, the smallest is kept. *)
Theorem C131_precision64 : cadd (c0 := Float64Cost) (Some (bpow radix2 53)) (Some 1) = Some (bpow radix2 53) /\ cadd (c0 := Float64Cost) (Some (bpow radix2 (-1075))) (Some 0) = Some 0 /\
  cadd (c0 := Float64Cost) (Some (bpow radix2 (-1074))) (Some 0) = Some (bpow radix2 (-1074)).
Proof. exact precision64. Qed.
Print Assumptions C131_precision64.
Theorem C131_precision32 : cadd (c0 := Float32Cost) (Some (bpow radix2 24)) (Some 1) = Some (bpow radix2 24) /\ cadd (c0 := Float32Cost) (Some (bpow radix2 (-150))) (Some 0) = Some 0 /\
  cadd (c0 := Float32Cost) (Some (bpow radix2 (-149))) (Some 0) = Some (bpow radix2 (-149)).
Proof. exact precision32. Qed.
Print Assumptions C131_precision32.

(** C147: an ik that returns a row with too few values stops the grid planner with IndexError. *)
Theorem C147_grid_short : forall O (get : O -> robot) put prim to32 ik samples scene tp path o T Ts o' q qs, samples tp = Ok (T :: Ts) -> ik o T = (o', Ok (Some (q :: qs))) ->
  good (get o') -> joints_ok (get o') -> r_base (get o') = None -> (length q < ndof (get o'))%nat ->
  snd (grid_columns get put prim to32 ik samples scene (tp :: path) o) = Raise IndexError.
Proof. exact @grid_short. Qed.
Print Assumptions C147_grid_short.
Example C147_grid_short_example : good (PlanarArm 1 1 1) /\ joints_ok (PlanarArm 1 1 1) /\ r_base (PlanarArm 1 1 1) = None /\ (length [0; 0] < ndof (PlanarArm 1 1 1))%nat.
Proof. exact planar_short_case. Qed.
(** C147: an object among the coordinates of a box raises TypeError. *)
Theorem C147_object_xyz : forall m d x y z a b l rpy, getitem d "type" = Ok (JStr "box") -> getitem d "size" = Ok (JList [JFloat x; JFloat y; JFloat z]) ->
  getitem d "xyz" = Ok (JList l) -> l = (a ++ JObj m :: b)%list -> Forall (fun j => exists v, num_of j = Ok v) a -> getitem d "rpy" = Ok rpy -> parse_shape d = Raise TypeError.
Proof. exact object_xyz. Qed.
Print Assumptions C147_object_xyz.
Example C147_object_xyz_example : Forall (fun j => exists v, num_of j = Ok v) [JInt 0%Z; JFloat 1].
Proof. exact coordinates_case. Qed.
