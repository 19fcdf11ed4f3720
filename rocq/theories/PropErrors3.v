(** * Property theorems C146 and C147, continued: the boxes drawn for the planar
    arm; exceptions of dp.py, of the box reader, of the Kuka and of the example
    scripts. *)
From Coq Require Import String Reals Lra Lia List Bool Arith ZArith.
From Verif Require Import PyBase Cost Dp Mat Util Geometry Robot Ik Path Planning Resources Pipeline Examples ErrorProofs3.
From Verif Require Io.
Import ListNotations.
Local Open Scope R_scope.

(** C146: one box per link, drawn with its corners a quarter of the link length
    before and behind the link frame, and 0.05 to the sides *)
Theorem C146_planar_corners : forall a1 a2 a3, Forall2 (fun (g : coll) a => exists s T, g = Coll [s] [T] /\
  forall x, In x (get_vertices s T) <-> Rabs (vx x) = Rabs a / 4 /\ Rabs (vy x) = 0.05 /\ Rabs (vz x) = 0.05) (planar_geom a1 a2 a3) [a1; a2; a3].
Proof. exact planar_corners. Qed.
Print Assumptions C146_planar_corners.

(** C147: the value function of dp.py exists or ValueError is raised; without
    matrices it is IndexError; matrices that do not fit are refused *)
Theorem C147_value_only : forall (K : CostStruct) (tcs : list (matrix K)), tcs <> [] -> (exists r, calculate_value_function tcs = Ok r) \/ calculate_value_function tcs = Raise ValueError.
Proof. exact @value_only. Qed.
Print Assumptions C147_value_only.
Theorem C147_value_none : forall K : CostStruct, calculate_value_function (@nil (matrix K)) = Raise IndexError.
Proof. exact @value_none. Qed.
Print Assumptions C147_value_none.
Theorem C147_value_mismatch : forall (K : CostStruct) (c c2 : matrix K) rest,
  m_rows c <> [] -> Forall (fun row => length row <> length (m_rows c2) /\ length row <> 1%nat) (m_rows c) -> length (m_rows c2) <> 1%nat ->
  calculate_value_function (c :: c2 :: rest) = Raise ValueError.
Proof. exact @value_mismatch. Qed.
Print Assumptions C147_value_mismatch.
Example C147_mismatch : let c := zmat 2 [[1; 2]%Z] in let c2 := zmat 1 [[1]; [1]; [0]]%Z in
  m_rows c <> [] /\ Forall (fun row => length row <> length (m_rows c2) /\ length row <> 1%nat) (m_rows c) /\ length (m_rows c2) <> 1%nat.
Proof. cbn. split; [discriminate|]. split; [repeat constructor; discriminate|discriminate]. Qed.

(** C147: a box needs three sizes *)
Theorem C147_three_sizes : forall d sz l, Io.getitem d "size" = Ok sz -> Io.nums sz = Ok l -> length l <> 3%nat -> Io.create_box d = Raise TypeError.
Proof. exact box_size. Qed.
Print Assumptions C147_three_sizes.
Example C147_two_sizes : exists sz l, Io.getitem (Io.JObj [("size"%string, Io.JList [Io.JInt 1; Io.JInt 2])]) "size" = Ok sz /\ Io.nums sz = Ok l /\ length l <> 3%nat.
Proof. exists (Io.JList [Io.JInt 1; Io.JInt 2]), [IZR 1; IZR 2]. repeat split. discriminate. Qed.

(** C147: a Kuka whose helper arm has lost a link *)
Theorem C147_helper_short : forall k T Tw, kuka_target (k_rob k) T = Ok Tw -> (length (r_links (k_arm k)) < 3)%nat -> kuka_ik k T = (k, Raise IndexError).
Proof. exact helper_short. Qed.
Print Assumptions C147_helper_short.
Example C147_helper : let k := new_kuka 0.18 0.6 0.62 0.115 in exists Tw, kuka_target (k_rob (Kk (k_rob k) (robot_init []) (k_wrist k))) eye4 = Ok Tw /\ (length (r_links (robot_init [])) < 3)%nat.
Proof. eexists. split; [reflexivity|]. cbn. lia. Qed.

(** C147: small_passage.py raises when a point has no free sample (which exception
    is not followed); rotation_table.py lets exceptions of the robot through *)
Theorem C147_passage_blocked : forall prim tool scene path tp, In tp path ->
  (forall q, In q (pp_s tp) -> is_in_collision prim (fst tool) scene (Some (tool_frame (snd tool) q (pp_p tp))) None = true) -> exists e, pass_plan prim tool scene path = Raise e.
Proof. exact pass_none. Qed.
Print Assumptions C147_passage_blocked.
Theorem C147_table_raises : forall O (get : O -> robot) put prim to32 ik disc scene tp path T Ts qt q_table F g qf tb o l e,
  disc tp = Ok (AFrame T :: Ts) -> snd (fk tb qt) = Ok F -> snd (ik o (tmul F T) g) = Raise e ->
  snd (table_columns get put prim to32 ik disc scene (tp :: path) (qt :: q_table) (g :: qf) tb o l) = Raise e.
Proof. exact @table_raises. Qed.
Print Assumptions C147_table_raises.
Example C147_table : exists F, snd (fk table_robot [0]) = Ok F.
Proof. eexists. reflexivity. Qed.
