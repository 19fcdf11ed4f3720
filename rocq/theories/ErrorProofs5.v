(** * Precision of the cost types; exceptions of the collision check inside the planners;
    an object among the numbers of a shape. *)
From Coq Require Import String Reals Lra Psatz Lia List Bool Arith ZArith.
From Flocq Require Import Core.
From Verif Require Import PyBase Cost CostFloat Dp Mat Util UtilProofs Geometry GeometryProofs Robot RobotProofs Ik Path Planning Resources Pipeline Io ErrorProofs4.
Import ListNotations.
Local Open Scope R_scope.

(** ** Precision *)
Section Precision.
Context (emin prec emax : Z) (P1 : (1 < prec)%Z) (P2 : (prec < emax)%Z) (P3 : (emin <= 0)%Z).

Lemma mag_above : mag radix2 (bpow radix2 prec + 1) = (prec + 1)%Z :> Z.
Proof.
  apply mag_unique_pos. replace (prec + 1 - 1)%Z with prec by lia. pose proof (bpow_gt_0 radix2 prec). split; [lra|].
  rewrite bpow_plus. cbn [bpow]. change (Z.pow_pos radix2 1) with 2%Z. assert (1 < bpow radix2 prec) by (change 1 with (bpow radix2 0); apply bpow_lt; lia). lra.
Qed.
Lemma even_pow : Z.even (2 ^ (prec - 1)) = true.
Proof. rewrite Z.even_pow by lia. reflexivity. Qed.
Lemma pow_half : IZR (2 ^ (prec - 1)) = bpow radix2 (prec - 1).
Proof. change (2 ^ (prec - 1))%Z with (Zpower radix2 (prec - 1)). apply IZR_Zpower. lia. Qed.
Lemma rnd_above : rnd emin prec (bpow radix2 prec + 1) = bpow radix2 prec.
Proof.
  unfold rnd, round, F2R, scaled_mantissa, cexp. rewrite mag_above. unfold FLT_exp. replace (Z.max (prec + 1 - prec) emin) with 1%Z by lia. cbn [Fnum Fexp].
  assert (H2 : bpow radix2 1 = 2) by reflexivity. assert (H1 : bpow radix2 (- (1)) = / 2) by reflexivity. rewrite H1, H2.
  assert (E : (bpow radix2 prec + 1) * / 2 = IZR (2 ^ (prec - 1)) + / 2).
  { rewrite pow_half. replace prec with (prec - 1 + 1)%Z at 1 by lia. rewrite bpow_plus, H2. lra. }
  rewrite E. unfold Znearest. assert (F : Zfloor (IZR (2 ^ (prec - 1)) + / 2) = (2 ^ (prec - 1))%Z) by (apply Zfloor_imp; rewrite plus_IZR; lra).
  rewrite F. replace (IZR (2 ^ (prec - 1)) + / 2 - IZR (2 ^ (prec - 1))) with (/ 2) by lra. rewrite Rcompare_Eq by reflexivity. rewrite even_pow. cbn [negb].
  rewrite pow_half. replace prec with (prec - 1 + 1)%Z at 2 by lia. rewrite bpow_plus, H2. reflexivity.
Qed.
Lemma absorbed : fladd emin prec emax (Some (bpow radix2 prec)) (Some 1) = Some (bpow radix2 prec).
Proof.
  unfold fladd. cbv zeta. rewrite rnd_above. destruct (rltb _ _) eqn:L; [reflexivity|]. apply rltb_false in L. assert (bpow radix2 prec < bpow radix2 emax) by (apply bpow_lt; lia). lra.
Qed.
Lemma rnd_below : rnd emin prec (bpow radix2 (emin - 1)) = 0.
Proof.
  unfold rnd, round, F2R, scaled_mantissa, cexp. rewrite mag_bpow. unfold FLT_exp. replace (Z.max (emin - 1 + 1 - prec) emin) with emin by lia. cbn [Fnum Fexp].
  rewrite <- bpow_plus. replace (emin - 1 + - emin)%Z with (-1)%Z by lia. change (bpow radix2 (-1)) with (/ 2). unfold Znearest. assert (F : Zfloor (/ 2) = 0%Z) by (apply Zfloor_imp; simpl; lra).
  rewrite F. replace (/ 2 - 0) with (/ 2) by lra. rewrite Rcompare_Eq by reflexivity. cbn. lra.
Qed.
Lemma vanishes : (0 < prec)%Z -> (emin < emax)%Z -> fladd emin prec emax (Some (bpow radix2 (emin - 1))) (Some 0) = Some 0 /\ fladd emin prec emax (Some (bpow radix2 emin)) (Some 0) = Some (bpow radix2 emin).
Proof.
  intros Pp Pe. unfold fladd. cbv zeta. rewrite !Rplus_0_r, rnd_below. pose proof (bpow_gt_0 radix2 emax). split.
  - destruct (rltb _ _) eqn:L; [reflexivity|]. apply rltb_false in L. lra.
  - rewrite rnd_bpow by lia. destruct (rltb _ _) eqn:L; [reflexivity|]. apply rltb_false in L. assert (bpow radix2 emin < bpow radix2 emax) by (apply bpow_lt; lia). lra.
Qed.
End Precision.
Lemma precision64 : cadd (c0 := Float64Cost) (Some (bpow radix2 53)) (Some 1) = Some (bpow radix2 53) /\ cadd (c0 := Float64Cost) (Some (bpow radix2 (-1075))) (Some 0) = Some 0 /\
  cadd (c0 := Float64Cost) (Some (bpow radix2 (-1074))) (Some 0) = Some (bpow radix2 (-1074)).
Proof. split; [apply (absorbed (-1074) 53 1024); lia|apply (vanishes (-1074) 53 1024); lia]. Qed.
Lemma precision32 : cadd (c0 := Float32Cost) (Some (bpow radix2 24)) (Some 1) = Some (bpow radix2 24) /\ cadd (c0 := Float32Cost) (Some (bpow radix2 (-150))) (Some 0) = Some 0 /\
  cadd (c0 := Float32Cost) (Some (bpow radix2 (-149))) (Some 0) = Some (bpow radix2 (-149)).
Proof. split; [apply (absorbed (-149) 24 128); lia|apply (vanishes (-149) 24 128); lia]. Qed.

(** ** A solution with too few joint values *)
Lemma collision_short prim r q scene : good r -> joints_ok r -> r_base r = None -> (length q < ndof r)%nat -> snd (robot_collision prim r q scene) = Raise IndexError.
Proof. intros G J B L. unfold robot_collision. rewrite B. destruct (frames_short r q G J L) as [F _]. destruct (fk_all_links r q) as [r1 fs]. cbn [snd] in F. subst fs. reflexivity. Qed.

Section InPlanner.
Context {O : Type} (get : O -> robot) (put : O -> robot -> O) (prim : shape -> mat3 -> vec3 -> shape -> mat3 -> vec3 -> bool) (to32 : R -> R).
Lemma check_short scene q qs o acc : good (get o) -> joints_ok (get o) -> r_base (get o) = None -> (length q < ndof (get o))%nat ->
  snd (check_sols get put prim scene (q :: qs) o acc) = Raise IndexError.
Proof.
  intros G J B L. cbn [check_sols]. pose proof (collision_short prim (get o) q scene G J B L) as C. destruct (robot_collision prim (get o) q scene) as [r c]. cbn [snd] in C. subst c. reflexivity.
Qed.
(** planning.py:296-307: the first solution of the first sample *)
Lemma grid_short ik samples scene tp path o T Ts o' q qs : samples tp = Ok (T :: Ts) -> ik o T = (o', Ok (Some (q :: qs))) ->
  good (get o') -> joints_ok (get o') -> r_base (get o') = None -> (length q < ndof (get o'))%nat ->
  snd (grid_columns get put prim to32 ik samples scene (tp :: path) o) = Raise IndexError.
Proof.
  intros E I G J B L. cbn [grid_columns]. rewrite E. cbn [solve_frames]. rewrite I. unfold solve_one.
  pose proof (check_short scene q qs o' [] G J B L) as C. destruct (check_sols get put prim scene (q :: qs) o' []) as [o'' c]. cbn [snd] in C. subst c. reflexivity.
Qed.
End InPlanner.

(** ** An object where a coordinate is expected *)
Lemma mapM_object m a b : Forall (fun j => exists x, num_of j = Ok x) a -> mapM num_of (a ++ JObj m :: b) = Raise TypeError.
Proof. intros H. induction H as [|j a [x E] H IH]; cbn; [reflexivity|]. rewrite E. cbn. rewrite IH. reflexivity. Qed.
Lemma object_xyz m d x y z a b l rpy : getitem d "type" = Ok (JStr "box") -> getitem d "size" = Ok (JList [JFloat x; JFloat y; JFloat z]) ->
  getitem d "xyz" = Ok (JList l) -> l = (a ++ JObj m :: b)%list -> Forall (fun j => exists v, num_of j = Ok v) a -> getitem d "rpy" = Ok rpy -> parse_shape d = Raise TypeError.
Proof.
  intros T S0 X -> A P. unfold parse_shape. rewrite T. cbn [bind is_str]. cbn [String.eqb Ascii.eqb Bool.eqb]. unfold create_box. rewrite S0. cbn [bind nums mapM num_of]. cbn. rewrite X. cbn [bind]. rewrite P. cbn [bind nums].
  rewrite mapM_object by exact A. reflexivity.
Qed.
Lemma coordinates_case : Forall (fun j => exists v, num_of j = Ok v) [JInt 0%Z; JFloat 1].
Proof. repeat constructor; eexists; reflexivity. Qed.
