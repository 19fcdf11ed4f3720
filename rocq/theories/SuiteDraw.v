(** * tests/test_planning.py.  tests/test_util.py checks the sizes of arrays that
    are matrices of fixed size in [Mat]. *)
From Coq Require Import String List Arith Bool Reals Lra.
From Verif Require Import PyBase Mat Util Geometry GeometryProofs Path Plot PlotProofs Draw DrawProofs.
Import ListNotations.
Local Open Scope R_scope.

(** tests/test_planning.py:11-12, for n points *)
Definition cube_scene : coll := Coll [Shape 0.1 0.1 0.1] [eye4].
Definition diagonal (n : nat) : list anypt := map (fun i => AFree [INR i; INR i; INR i]) (seq 0 n).
(** planning.py:23-30 the attribute has_obstacles *)
Definition has_obstacles (scene : option coll) : bool := match scene with None => false | Some _ => true end.

Lemma diagonal_dots l : mapM point_plot (map (fun i => AFree [INR i; INR i; INR i]) l) = Ok (map (fun i => [dot (V3 (INR i) (INR i) (INR i))]) l).
Proof. induction l as [|i l IH]; [reflexivity|]. cbn [map mapM]. rewrite IH. reflexivity. Qed.
Lemma concat_singles {A B} (f : A -> B) l : concat (map (fun i => [f i]) l) = map f l.
Proof. induction l as [|i l IH]; [reflexivity|]. cbn. rewrite IH. reflexivity. Qed.
Lemma test_planning n : let dots := map (fun i => dot (V3 (INR i) (INR i) (INR i))) (seq 0 n) in
  has_obstacles (Some cube_scene) = true /\ has_obstacles None = false /\ task_plot (diagonal n) None = Ok (dots, []) /\
  exists ls, task_plot (diagonal n) (Some cube_scene) = Ok (dots, ls) /\ shows ls (fun s T => s = Shape 0.1 0.1 0.1 /\ T = eye4).
Proof.
  cbv zeta. split; [reflexivity|]. split; [reflexivity|]. unfold task_plot, diagonal. rewrite diagonal_dots. cbn [bind]. rewrite concat_singles. split; [reflexivity|].
  destruct (scene_ok (Some cube_scene)) as (ls & E & H). rewrite E. cbn [bind]. exists ls. split; [reflexivity|].
  apply (shows_iff _ (member cube_scene)); [|exact H].
  intros s T. unfold member, cube_scene. cbn [c_s c_tf]. split; [intros ([|i] & H1 & H2); [injection H1; injection H2; auto|destruct i; discriminate]|intros [-> ->]; exists 0%nat; auto].
Qed.
