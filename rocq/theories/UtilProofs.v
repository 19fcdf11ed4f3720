(** * Proofs about util.py: rotations, tf_inverse, create_grid. *)
From Coq Require Import Reals Lra Lia List Bool Arith ZArith Permutation.
From Verif Require Import PyBase Mat Util.
Import ListNotations.
Local Open Scope R_scope.

Lemma sc1 a : cos a * cos a + sin a * sin a = 1.
Proof. pose proof (sin2_cos2 a) as H. unfold Rsqr in H. lra. Qed.

Ltac rotgen a := let c := fresh "c" in let s := fresh "s" in let H := fresh "H" in
  pose proof (sc1 a) as H; set (c := cos a) in *; set (s := sin a) in *; clearbody c s.

Lemma rot_x_rotation a : rotation (rot_x a).
Proof. unfold rot_x. rotgen a. split; [apply mat3_eq|]; munf; try ring; nra. Qed.
Lemma rot_y_rotation a : rotation (rot_y a).
Proof. unfold rot_y. rotgen a. split; [apply mat3_eq|]; munf; try ring; nra. Qed.
Lemma rot_z_rotation a : rotation (rot_z a).
Proof. unfold rot_z. rotgen a. split; [apply mat3_eq|]; munf; try ring; nra. Qed.
Lemma rot_x_add a b : mmul (rot_x a) (rot_x b) = rot_x (a + b).
Proof. unfold rot_x. rewrite cos_plus, sin_plus. apply mat3_eq; munf; ring. Qed.
Lemma rot_y_add a b : mmul (rot_y a) (rot_y b) = rot_y (a + b).
Proof. unfold rot_y. rewrite cos_plus, sin_plus. apply mat3_eq; munf; ring. Qed.
Lemma rot_z_add a b : mmul (rot_z a) (rot_z b) = rot_z (a + b).
Proof. unfold rot_z. rewrite cos_plus, sin_plus. apply mat3_eq; munf; ring. Qed.
(** the axis is fixed and the rotation is right-handed: it turns the next axis
    towards the one after by the angle *)
Lemma rot_axes a :
  mapply (rot_x a) (V3 1 0 0) = V3 1 0 0 /\ mapply (rot_x a) (V3 0 1 0) = V3 0 (cos a) (sin a) /\
  mapply (rot_y a) (V3 0 1 0) = V3 0 1 0 /\ mapply (rot_y a) (V3 0 0 1) = V3 (sin a) 0 (cos a) /\
  mapply (rot_z a) (V3 0 0 1) = V3 0 0 1 /\ mapply (rot_z a) (V3 1 0 0) = V3 (cos a) (sin a) 0.
Proof. unfold rot_x, rot_y, rot_z. repeat split; apply vec3_eq; munf; ring. Qed.
Lemma poses a x y z :
  (rigid (pose_x a x y z) /\ rot (pose_x a x y z) = rot_x a /\ pos (pose_x a x y z) = V3 x y z) /\
  (rigid (pose_y a x y z) /\ rot (pose_y a x y z) = rot_y a /\ pos (pose_y a x y z) = V3 x y z) /\
  (rigid (pose_z a x y z) /\ rot (pose_z a x y z) = rot_z a /\ pos (pose_z a x y z) = V3 x y z) /\
  (rigid (translation x y z) /\ rot (translation x y z) = mid /\ pos (translation x y z) = V3 x y z).
Proof.
  repeat split; try reflexivity; cbn [rot pos pose_x pose_y pose_z translation];
    first [apply (rot_x_rotation a) | apply (rot_y_rotation a) | apply (rot_z_rotation a) | apply rotation_mid].
Qed.

Lemma tf_inverse_l T : rigid T -> tmul (tf_inverse T) T = eye4.
Proof.
  intros [[O D] B W]. unfold tf_inverse. rewrite tmul_blocks by (cbn; auto). cbn [rot pos]. rewrite O.
  apply mat4_eq; try reflexivity. cbn. destruct T as [A p]. cbn. vring.
Qed.
Lemma tf_inverse_r T : rigid T -> tmul T (tf_inverse T) = eye4.
Proof.
  intros H. pose proof (rotation_inv_r _ (rigid_rot _ H)) as O. destruct H as [_ B W]. unfold tf_inverse. rewrite tmul_blocks by (cbn; auto). cbn [rot pos].
  apply mat4_eq; try reflexivity; cbn [rot pos]; auto.
  replace (mapply (mopp (mtr (rot T))) (pos T)) with (vopp (mapply (mtr (rot T)) (pos T))) by (destruct T as [A p]; cbn; vring).
  replace (mapply (rot T) (vopp (mapply (mtr (rot T)) (pos T)))) with (vopp (mapply (mmul (rot T) (mtr (rot T))) (pos T)))
    by (rewrite mapply_mmul; generalize (mapply (mtr (rot T)) (pos T)); intros; vring).
  rewrite O, mapply_1. destruct T as [A p]. cbn. vring.
Qed.
Lemma tf_inverse_rigid T : rigid T -> rigid (tf_inverse T).
Proof. intros [H _ _]. split; cbn; auto. apply rotation_tr; auto. Qed.
Lemma rigid_cancel_l A B C : rigid A -> tmul A B = tmul A C -> B = C.
Proof. intros H E. rewrite <- (tmul_1_l B), <- (tf_inverse_l A H), tmul_assoc, E, <- tmul_assoc, (tf_inverse_l A H), tmul_1_l. reflexivity. Qed.

(** ** create_grid *)
Local Open Scope nat_scope.
Section Grid.
Context {A : Type}.
(** all ways to take one value of each list, the first list slowest *)
Fixpoint choices (r : list (list A)) : list (list A) :=
  match r with [] => [[]] | a :: r' => flat_map (fun v => map (cons v) (choices r')) a end.

Lemma zip_rows_cons (c : list A) c' cs : zip_rows (c :: c' :: cs) = map (fun p => fst p :: snd p) (combine c (zip_rows (c' :: cs))).
Proof. reflexivity. Qed.
Lemma zip_rows_length n : forall cs : list (list A), cs <> [] -> Forall (fun c => length c = n) cs -> length (zip_rows cs) = n.
Proof.
  induction cs as [|c cs IH]; intros Hne H; [congruence|]. inversion H; subst. destruct cs as [|c' cs].
  - cbn. apply map_length.
  - rewrite zip_rows_cons, map_length, combine_length, IH; auto; [lia|discriminate].
Qed.
Lemma combine_app {B} (a a' : list A) (b b' : list B) : length a = length b -> combine (a ++ a') (b ++ b') = combine a b ++ combine a' b'.
Proof. revert b. induction a as [|x a IH]; intros [|y b] H; cbn in *; try discriminate; auto. f_equal. apply IH. lia. Qed.
Lemma zip_rows_app n : forall cs ds : list (list A), length cs = length ds -> Forall (fun c => length c = n) cs ->
  zip_rows (map (fun p => fst p ++ snd p) (combine cs ds)) = zip_rows cs ++ zip_rows ds.
Proof.
  induction cs as [|c cs IH]; intros [|d ds] Hl H; try discriminate; [reflexivity|]. inversion H; subst.
  destruct cs as [|c' cs], ds as [|d' ds]; try discriminate.
  - cbn. apply map_app.
  - cbn [combine map fst snd]. rewrite !zip_rows_cons.
    change ((c' ++ d') :: map (fun p => fst p ++ snd p) (combine cs ds)) with (map (fun p => fst p ++ snd p) (combine (c' :: cs) (d' :: ds))).
    rewrite IH by (auto; cbn in *; lia). rewrite combine_app, map_app; auto.
    symmetry. apply zip_rows_length; auto. discriminate.
Qed.
Lemma zip_rows_repeat n k : forall cs : list (list A), Forall (fun c => length c = n) cs ->
  zip_rows (map (fun c => concat (repeat c k)) cs) = concat (repeat (zip_rows cs) k).
Proof.
  intros cs H. induction k as [|k IH].
  - cbn. clear. induction cs as [|c [|c' cs] IH]; [reflexivity..|]. cbn [map]. cbn [map] in IH. rewrite zip_rows_cons. reflexivity.
  - cbn [repeat concat]. rewrite <- IH. rewrite <- (zip_rows_app n); auto; [|rewrite map_length; auto].
    f_equal. clear. induction cs; cbn; f_equal; auto.
Qed.

Definition prodlen (r : list (list A)) : nat := fold_right Nat.mul 1 (map (@length A) r).
Lemma flat_map_const_length {B C} (f : B -> list C) n l : (forall x, length (f x) = n) -> length (flat_map f l) = length l * n.
Proof. intros H. induction l; cbn; auto. rewrite app_length, H. lia. Qed.
Lemma bcast_length : forall (dims : list nat) k (v : list A), k < length dims -> nth k dims 0 = length v -> length (bcast dims k v) = fold_right Nat.mul 1 dims.
Proof.
  induction dims as [|d ds IH]; intros [|k] v Hk Hn; cbn in Hk; try lia; cbn [bcast fold_right nth] in *.
  - rewrite (flat_map_const_length _ (fold_right Nat.mul 1 ds)) by (intros; apply repeat_length). lia.
  - assert (Hc : forall n (l : list A), length (concat (repeat l n)) = n * length l) by (clear; induction n; intros; cbn; auto; rewrite app_length, IHn; auto).
    rewrite Hc, IH; auto. lia.
Qed.
Lemma choices_length r : length (choices r) = prodlen r.
Proof. induction r as [|a r IH]; cbn [choices]; auto. rewrite (flat_map_const_length _ (prodlen r)) by (intros; rewrite map_length; auto). reflexivity. Qed.

Lemma combine_map {X Y X' Y'} (f : X -> X') (g : Y -> Y') : forall l l', combine (map f l) (map g l') = map (fun p => (f (fst p), g (snd p))) (combine l l').
Proof. induction l as [|x l IH]; intros [|y l']; cbn; auto. f_equal. auto. Qed.
(** columns of the choices, first list slowest *)
Definition cols (s : list (list A)) : list (list A) := map (fun kv => bcast (map (@length A) s) (fst kv) (snd kv)) (combine (seq 0 (length s)) s).
Lemma cols_cons a s : cols (a :: s) = flat_map (fun v => repeat v (prodlen s)) a :: map (fun c => concat (repeat c (length a))) (cols s).
Proof.
  unfold cols. cbn [length seq combine map fst snd bcast]. f_equal. rewrite map_map, <- seq_shift.
  replace (combine (map S (seq 0 (length s))) s) with (map (fun p => (S (fst p), snd p)) (combine (seq 0 (length s)) s)).
  2:{ symmetry. pose proof (combine_map S (fun x : list A => x) (seq 0 (length s)) s) as E. rewrite map_id in E. exact E. }
  rewrite map_map. cbn [fst snd bcast]. reflexivity.
Qed.
Lemma cols_lengths s : Forall (fun c => length c = prodlen s) (cols s).
Proof.
  apply Forall_forall. intros c Hc. unfold cols in Hc. apply in_map_iff in Hc. destruct Hc as ([k v] & <- & Hin). cbn [fst snd].
  assert (H : k < length s /\ nth k s [] = v).
  { apply In_nth with (d := (0, [])) in Hin. destruct Hin as (i & Hi & E). rewrite combine_length, seq_length, Nat.min_id in Hi.
    rewrite combine_nth in E by apply seq_length. rewrite seq_nth in E by auto. injection E as <- <-. auto. }
  destruct H as [H <-]. apply bcast_length; [rewrite map_length; auto|]. change 0 with (length (@nil A)). apply map_nth.
Qed.
Lemma combine_repeat {B} (v : A) (l : list B) : combine (repeat v (length l)) l = map (pair v) l.
Proof. induction l; cbn; f_equal; auto. Qed.
Lemma zip_outer (L : list (list A)) P : length L = P -> forall a, 
  map (fun p => fst p :: snd p) (combine (flat_map (fun v : A => repeat v P) a) (concat (repeat L (length a)))) = flat_map (fun v => map (cons v) L) a.
Proof.
  intros <-. induction a as [|v a IH]; [reflexivity|]. cbn [flat_map length repeat concat].
  rewrite combine_app, map_app, IH by apply repeat_length. f_equal. rewrite combine_repeat, map_map. reflexivity.
Qed.
Lemma zip_cols : forall s, s <> [] -> zip_rows (cols s) = choices s.
Proof.
  induction s as [|a s IH]; intros Hne; [congruence|]. rewrite cols_cons. destruct s as [|b s].
  - cbn [cols length seq combine map zip_rows choices prodlen fold_right]. rewrite flat_map_concat_map, concat_map, map_map. cbn. rewrite flat_map_concat_map. reflexivity.
  - assert (E : exists c cs, cols (b :: s) = c :: cs) by (rewrite cols_cons; eauto). destruct E as (c & cs & E).
    assert (E2 : zip_rows (flat_map (fun v => repeat v (prodlen (b :: s))) a :: map (fun c => concat (repeat c (length a))) (cols (b :: s))) =
      map (fun p => fst p :: snd p) (combine (flat_map (fun v => repeat v (prodlen (b :: s))) a) (zip_rows (map (fun c => concat (repeat c (length a))) (cols (b :: s)))))).
    { rewrite E. reflexivity. }
    rewrite E2, (zip_rows_repeat (prodlen (b :: s))) by apply cols_lengths. rewrite IH by discriminate.
    apply (zip_outer (choices (b :: s)) (prodlen (b :: s))). apply choices_length.
Qed.
Lemma zip_swap n : forall cs : list (list A), Forall (fun c => length c = n) cs -> zip_rows (swap01 cs) = map swap01 (zip_rows cs).
Proof.
  intros [|a [|b [|c cs]]] H; cbn [swap01]; [reflexivity| | |].
  - cbn. rewrite map_map. reflexivity.
  - assert (Hab : length a = length b) by (inversion H as [|? ? Ha H']; subst; inversion H'; congruence).
    clear H. cbn [zip_rows]. revert b Hab. induction a as [|x a IH]; intros [|y b] H; try discriminate; [reflexivity|].
    cbn in *. f_equal. apply IH. lia.
  - inversion H as [|? ? Ha H']; subst. inversion H' as [|? ? Hb H'']; subst. rewrite !zip_rows_cons.
    pose proof (zip_rows_length (length a) (c :: cs) ltac:(discriminate) H'') as HL. revert Hb HL. generalize (zip_rows (c :: cs)). clear.
    intros L. revert L b. induction a as [|x a IH]; intros [|l L] [|y b] Hb HL; try discriminate; [reflexivity|]. cbn in *. f_equal. apply IH; lia.
Qed.

Lemma create_grid_order (r : list (list A)) : r <> [] -> create_grid r = map swap01 (choices (swap01 r)).
Proof.
  intros Hne. assert (Hne' : swap01 r <> []) by (destruct r as [|a [|b r]]; cbn; congruence || discriminate).
  rewrite <- (zip_cols _ Hne'), <- (zip_swap (prodlen (swap01 r))) by apply cols_lengths. unfold create_grid. f_equal.
  destruct r as [|a [|b r]]; [congruence|reflexivity|]. unfold cols. cbn [swap01 length seq combine map fst snd axis_of Nat.leb].
  f_equal. f_equal. apply map_ext_in. intros [k v] Hin. cbn [fst snd]. f_equal.
  apply in_combine_l, in_seq in Hin. unfold axis_of. destruct k as [|[|k]]; try lia; reflexivity.
Qed.

Lemma choices_swap (r : list (list A)) : Permutation (map swap01 (choices (swap01 r))) (choices r).
Proof.
  destruct r as [|a [|b r]]; cbn [swap01]; [reflexivity| |].
  - cbn. rewrite flat_map_concat_map, concat_map, map_map. reflexivity.
  - cbn [choices]. set (L := choices r). clearbody L.
    assert (E1 : map swap01 (flat_map (fun v => map (cons v) (flat_map (fun v0 => map (cons v0) L) a)) b) =
      flat_map (fun v => flat_map (fun u => map (fun l => u :: v :: l) L) a) b).
    { rewrite flat_map_concat_map, concat_map, map_map, <- flat_map_concat_map. apply flat_map_ext. intros v.
      rewrite map_map. rewrite flat_map_concat_map, concat_map, map_map, <- flat_map_concat_map. apply flat_map_ext. intros u. rewrite map_map. reflexivity. }
    assert (E2 : flat_map (fun v => map (cons v) (flat_map (fun v0 => map (cons v0) L) b)) a = flat_map (fun u => flat_map (fun v => map (fun l => u :: v :: l) L) b) a).
    { apply flat_map_ext. intros u. rewrite flat_map_concat_map, concat_map, map_map, <- flat_map_concat_map. apply flat_map_ext. intros v. rewrite map_map. reflexivity. }
    rewrite E1, E2. clear E1 E2. generalize (fun (u v : A) => map (fun l => u :: v :: l) L). intros f.
    induction b as [|v b IH]; cbn [flat_map].
    + induction a; cbn; auto.
    + rewrite IH. clear IH. induction a as [|u a IHa]; cbn [flat_map]; auto. rewrite <- IHa, <- !app_assoc.
      apply Permutation_app_head. rewrite !app_assoc. apply Permutation_app_tail. apply Permutation_app_comm.
Qed.
Lemma create_grid_perm (r : list (list A)) : r <> [] -> Permutation (create_grid r) (choices r).
Proof. intros H. rewrite create_grid_order by auto. apply choices_swap. Qed.
Lemma create_grid_length (r : list (list A)) : r <> [] -> length (create_grid r) = fold_right Nat.mul 1 (map (@length A) r).
Proof. intros H. rewrite (Permutation_length (create_grid_perm r H)). apply choices_length. Qed.
(** membership of a choice *)
Lemma choices_In : forall (r : list (list A)) x, In x (choices r) <-> Forall2 (fun v l => In v l) x r.
Proof.
  induction r as [|a r IH]; intros x; cbn [choices].
  - split; [intros [<-|[]]; constructor|]. intros H. inversion H. left; auto.
  - rewrite in_flat_map. split.
    + intros (v & Hv & H). apply in_map_iff in H. destruct H as (y & <- & H). constructor; auto. apply IH; auto.
    + intros H. inversion H; subst. exists x0. split; auto. apply in_map. apply IH; auto.
Qed.
Lemma create_grid_In (r : list (list A)) x : r <> [] -> In x (create_grid r) <-> Forall2 (fun v l => In v l) x r.
Proof.
  intros H. rewrite <- choices_In. split; apply Permutation_in; [|symmetry]; apply create_grid_perm; auto.
Qed.
End Grid.
