(** * Property theorem C130: forward kinematics in floating point.

    [ffk A r q]: Robot.fk with the arithmetic A, rounding after every operation.
    [arith_ok A u eta g h]: one operation errs by u|x| + eta, sin and cos by u, a sum of
    four products by g times the sum of their sizes plus h.  [robot_near u eta r r']:
    each number of the table, base and tool of r' is that of r rounded.
    [joints_near u eta ls q q']: each turning joint within 4u, each sliding one rounded.
    [close e f T T']: rotation entries within e, positions within f, same last row.
    [span ls q]: sum of the link offsets |a| + |d|.  [rot_bound n] = 3u + 2eta +
    n (12 (12u + eta) + 7g + 3h).  [pos_bound n S P]: linear in u and g, see
    FloatFkProofs.v.  [sane P T]: the rows of T are at most 3/2 long, its position within P.
    [tool_ok]: the columns of the tool frame are at most 2 long.
    [double]: IEEE binary64 (Flocq), sums from the left. *)
From Coq Require Import Reals Lra List Arith Lia.
From Flocq Require Import Core.
From Verif Require Import PyBase Mat Geometry Robot RobotProofs Ik IkProofs KukaProofs Motion FloatFk FloatFkProofs.
Import ListNotations.
Local Open Scope R_scope.

(** C130: fk and fk_all_links of any robot in any arithmetic. *)
Theorem C130_fk : forall A u eta g h, arith_ok A u eta g h -> 0 <= u <= 1 / 1000 -> 0 <= eta -> 0 <= g -> 0 <= h -> 12 * u + eta <= 1 / 12 ->
  forall r r' q q' P, good r -> joints_ok r -> sane P (r_tfb r) -> tool_ok r -> robot_near u eta r r' -> joints_near u eta (r_links r) q q' ->
  let E := rot_bound u eta g h (ndof r) in let S := span (r_links r) q in let F := pos_bound u eta g h (ndof r) S P in
  E <= 1 / 2 -> F <= 1 ->
  (exists T T', snd (fk r q) = Ok T /\ snd (ffk A r' q') = Ok T' /\
   match r_tool r with
   | Some (_, tf) => let L := len (pos tf) in close (2 * E + 5 * g + h + 8 * u + 4 * eta) (F + E * L + 4 * (u * L + eta) + g * (2 * L + 4 * (u * L + eta) + (P + 3 / 2 * S) + F) + h) T T'
   | None => close E F T T'
   end) /\
  (exists X X', snd (fk_all_links r q) = Ok X /\ snd (ffk_all_links A r' q') = Ok X' /\ Forall2 (close E F) X X').
Proof. exact ffk_close. Qed.
Print Assumptions C130_fk.
(** C130: double precision is such an arithmetic. *)
Theorem C130_double : arith_ok double (bpow radix2 (-53)) (bpow radix2 (-1075)) (5 * bpow radix2 (-53)) (10 * bpow radix2 (-1075)).
Proof. exact double_ok. Qed.
Print Assumptions C130_double.
(** C130: an arm of at most seven joints in double precision. *)
Theorem C130_arms : forall r r' q q' P, good r -> joints_ok r -> (ndof r <= 7)%nat -> sane P (r_tfb r) -> r_tool r = None ->
  robot_near u64 eta64 r r' -> joints_near u64 eta64 (r_links r) q q' ->
  let S := span (r_links r) q in P <= 1e6 -> S <= 1e6 ->
  exists T T', snd (fk r q) = Ok T /\ snd (ffk double r' q') = Ok T' /\ close 1.6e-13 (1.8e-13 * S + 5e-15 * (P + 3 / 2 * S + 2)) T T'.
Proof. exact ffk_close64. Qed.
Print Assumptions C130_arms.
(** C130: the Kuka with its standard dimensions. *)
Theorem C130_kuka : forall r r' q q', like r (Kuka 0.18 0.6 0.62 0.115) -> r_tfb r = eye4 -> r_tool r = None ->
  robot_near u64 eta64 r r' -> joints_near u64 eta64 (r_links r) q q' ->
  exists T T', snd (fk r q) = Ok T /\ snd (ffk double r' q') = Ok T' /\ close 2e-13 3e-13 T T'.
Proof. exact kuka_close64. Qed.
Print Assumptions C130_kuka.
(** C130: the hypotheses hold for a robot and joint values rounded to doubles. *)
Theorem C130_rounded : forall r, Forall (fun l => Rabs (dalpha (l_dh l)) <= 3.9 /\ Rabs (dtheta (l_dh l)) <= 3.9) (r_links r) ->
  robot_near u64 eta64 r (round_robot r) /\
  (forall q, length q = ndof r -> Forall (fun x => Rabs x <= 3.9) q -> joints_near u64 eta64 (r_links r) q (map rnd64 q)).
Proof. exact (fun r H => conj (round_robot_near r H) (round_joints_near (r_links r))). Qed.
Print Assumptions C130_rounded.
(** C130: a call leaves the robot usable and its description unchanged. *)
Theorem C130_state : forall A r q, good r -> good (fst (ffk A r q)) /\ reset (fst (ffk A r q)) = reset r.
Proof. exact ffk_fst. Qed.
Print Assumptions C130_state.
(** the Kuka rounded to doubles at the joint values 1, 2, 3, -1, -2, -3 *)
Example C130_kuka_case : exists T T', snd (fk (Kuka 0.18 0.6 0.62 0.115) [1; 2; 3; -1; -2; -3]) = Ok T /\
  snd (ffk double (round_robot (Kuka 0.18 0.6 0.62 0.115)) (map rnd64 [1; 2; 3; -1; -2; -3])) = Ok T' /\ close 2e-13 3e-13 T T'.
Proof.
  assert (H : Forall (fun l => Rabs (dalpha (l_dh l)) <= 3.9 /\ Rabs (dtheta (l_dh l)) <= 3.9) (r_links (Kuka 0.18 0.6 0.62 0.115))).
  { pose proof PI_RGT_0. pose proof PI_4. cbn [Kuka robot_init r_links]. repeat (apply Forall_cons; [split; apply Rabs_le; cbn [lr new_link l_dh dalpha dtheta]; lra|]). apply Forall_nil. }
  apply C130_kuka; [split; [apply Kuka_good|reflexivity]|reflexivity|reflexivity|apply C130_rounded, H|].
  apply (proj2 (C130_rounded _ H)); [reflexivity|]. repeat (apply Forall_cons; [apply Rabs_le; lra|]). apply Forall_nil.
Qed.
