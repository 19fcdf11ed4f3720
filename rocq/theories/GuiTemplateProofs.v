(** * Proofs about gui/gui_template.py *)
From Coq Require Import List String Reals Lra Lia ZArith.
From Flocq Require Import Core.Raux Core.Generic_fmt.
From Verif Require Import GuiTemplate.
Import ListNotations.
Local Open Scope R_scope.

(** ** the sliders *)
(** the positions the frequency slider can take *)
Definition freq_pos (f : R) : Prop := (exists k, (k <= 29)%nat /\ f = 0.1 + INR k) \/ f = 30.

Lemma freq_in_bounds x : freq_pos (in_bounds 0.1 30 (Some delta_f) x).
Proof.
  unfold in_bounds, delta_f. set (z := Znearest _ _). rewrite Rmult_1_r.
  destruct (Rle_dec _ _) as [H1|H1]; [left; exists 0%nat; split; [lia|simpl; lra]|].
  destruct (Rle_dec _ _) as [H2|H2]; [right; reflexivity|]. left.
  assert (0 < z)%Z by (apply lt_IZR; lra). assert (z < 30)%Z by (apply lt_IZR; lra).
  exists (Z.to_nat z). split; [lia|]. rewrite INR_IZR_INZ, Z2Nat.id by lia. reflexivity.
Qed.
Lemma amp_in_bounds x : 0.1 <= in_bounds 0.1 10 None x <= 10.
Proof. unfold in_bounds. destruct (Rle_dec _ _); [lra|]. destruct (Rle_dec _ _); lra. Qed.
Lemma amp_in_bounds_id x : 0.1 <= x <= 10 -> in_bounds 0.1 10 None x = x.
Proof. intros H. unfold in_bounds. destruct (Rle_dec _ _); [lra|]. destruct (Rle_dec _ _); lra. Qed.
Lemma freq_init : in_bounds 0.1 30 (Some delta_f) f0 = 3.1.
Proof.
  unfold in_bounds, delta_f, f0. rewrite (Znearest_imp _ _ 3); [|unfold Rabs; destruct (Rcase_abs _); lra].
  destruct (Rle_dec _ _); [lra|]. destruct (Rle_dec _ _); lra.
Qed.

(** ** the state: sliders keep their range, the line follows them or was never redrawn *)
Definition shows (s : template) : Prop := t_line s = curve (sl_val (t_amp s)) (sl_val (t_freq s)).
Record ok (s : template) : Prop := Ok {
  ok_f : exists v, t_freq s = Sl 0.1 30 (Some delta_f) 3.1 v /\ freq_pos v;
  ok_a : exists v, t_amp s = Sl 0.1 10 None 5 v /\ 0.1 <= v <= 10;
  ok_l : shows s \/ sl_val (t_freq s) = 3.1 /\ sl_val (t_amp s) = 5 /\ t_line s = curve 5 3 }.

Lemma set_freq_ok v s : ok s -> freq_pos v -> ok (set_freq v s) /\ shows (set_freq v s).
Proof.
  intros [(f & Ef & Hf) (a & Ea & Ha) Hl] Hv. assert (H : shows (set_freq v s)) by reflexivity. split; [|exact H]. split; [| |left; exact H].
  - exists v. simpl. rewrite Ef. auto.
  - exists a. simpl. auto.
Qed.
Lemma set_amp_ok v s : ok s -> 0.1 <= v <= 10 -> ok (set_amp v s) /\ shows (set_amp v s).
Proof.
  intros [(f & Ef & Hf) (a & Ea & Ha) Hl] Hv. assert (H : shows (set_amp v s)) by reflexivity. split; [|exact H]. split; [| |left; exact H].
  - exists f. simpl. auto.
  - exists v. simpl. rewrite Ea. auto.
Qed.
Lemma pos_31 : freq_pos 3.1.
Proof. left. exists 3%nat. split; [lia|simpl; lra]. Qed.

Lemma drag_freq_ok x s : ok s -> ok (drag_freq x s) /\ (shows s -> shows (drag_freq x s)) /\
  sl_val (t_freq (drag_freq x s)) = in_bounds 0.1 30 (Some delta_f) x /\ (in_bounds 0.1 30 (Some delta_f) x <> sl_val (t_freq s) -> shows (drag_freq x s)).
Proof.
  intros H. destruct (ok_f s H) as (f & Ef & Hf). unfold drag_freq. rewrite Ef. simpl. destruct (Req_EM_T _ _) as [E|E].
  - split; [exact H|]. split; [auto|]. rewrite Ef. simpl. split; [congruence|]. intros N. contradiction.
  - destruct (set_freq_ok _ s H (freq_in_bounds x)) as [A B]. repeat split; auto; try apply A.
Qed.
Lemma drag_amp_ok x s : ok s -> ok (drag_amp x s) /\ (shows s -> shows (drag_amp x s)) /\
  sl_val (t_amp (drag_amp x s)) = in_bounds 0.1 10 None x /\ (in_bounds 0.1 10 None x <> sl_val (t_amp s) -> shows (drag_amp x s)).
Proof.
  intros H. destruct (ok_a s H) as (a & Ea & Ha). unfold drag_amp. rewrite Ea. simpl sl_min. simpl sl_max. simpl sl_step. simpl sl_val. destruct (Req_EM_T _ _) as [E|E].
  - split; [exact H|]. split; [auto|]. rewrite Ea. simpl sl_val. split; [congruence|]. intros N. contradiction.
  - destruct (set_amp_ok _ s H (amp_in_bounds x)) as [A B]. repeat split; auto; try apply A.
Qed.
Lemma reset_ok s : ok s -> ok (reset_sliders s) /\ (shows s -> shows (reset_sliders s)) /\
  sl_val (t_freq (reset_sliders s)) = 3.1 /\ sl_val (t_amp (reset_sliders s)) = 5 /\ t_color (reset_sliders s) = t_color s /\ t_radio (reset_sliders s) = t_radio s.
Proof.
  intros H. unfold reset_sliders.
  assert (H1 : ok (reset_freq s) /\ (shows s -> shows (reset_freq s)) /\ sl_val (t_freq (reset_freq s)) = 3.1 /\ t_color (reset_freq s) = t_color s /\ t_radio (reset_freq s) = t_radio s).
  { destruct (ok_f s H) as (f & Ef & Hf). unfold reset_freq. rewrite Ef. simpl sl_val. simpl sl_init. destruct (Req_EM_T _ _) as [E|E].
    - split; [exact H|]. split; [auto|]. rewrite Ef. auto.
    - destruct (set_freq_ok 3.1 s H pos_31) as [A B]. split; [exact A|]. split; [auto|]. auto. }
  destruct H1 as (H1 & H2 & H3 & H4 & H5). set (u := reset_freq s) in *.
  destruct (ok_a u H1) as (a & Ea & Ha). unfold reset_amp. rewrite Ea. simpl sl_val. simpl sl_init. destruct (Req_EM_T _ _) as [E|E].
  - split; [exact H1|]. split; [auto|]. rewrite Ea. auto.
  - destruct (set_amp_ok 5 u H1 ltac:(lra)) as [A B]. split; [exact A|]. split; [auto|]. auto.
Qed.
Lemma radio_ok i s : ok s -> ok (click_radio i s) /\ (shows s -> shows (click_radio i s)).
Proof. intros [A B C]. unfold click_radio. destruct (nth_error labels i); [|split; [split; auto|auto]]. split; [split; [exact A|exact B|exact C]|auto]. Qed.
Lemma step_ok s e : ok s -> ok (step s e) /\ (shows s -> shows (step s e)).
Proof.
  intros H. destruct e; simpl.
  - destruct (drag_freq_ok x s H) as (A & B & _). auto.
  - destruct (drag_amp_ok x s H) as (A & B & _). auto.
  - destruct (reset_ok s H) as (A & B & _). auto.
  - apply radio_ok; auto.
Qed.
Lemma start_ok : ok start.
Proof.
  split.
  - exists 3.1. unfold start, t_freq, new_slider. rewrite freq_init. split; [reflexivity|exact pos_31].
  - exists 5. unfold start, t_amp, new_slider. rewrite amp_in_bounds_id by (unfold a0; lra). split; [reflexivity|lra].
  - right. unfold start, t_freq, t_amp, new_slider, t_line, sl_val. rewrite freq_init, amp_in_bounds_id by (unfold a0; lra). auto.
Qed.
Lemma fold_ok es : forall s, ok s -> ok (fold_left step es s) /\ (shows s -> shows (fold_left step es s)).
Proof.
  induction es as [|e es IH]; intros s H; [simpl; auto|]. simpl. destruct (step_ok s e H) as [A B]. destruct (IH _ A) as [C D]. auto.
Qed.
Lemma run_ok es : ok (run es).
Proof. apply fold_ok, start_ok. Qed.
Lemma run_app es es' : run (es ++ es') = fold_left step es' (run es).
Proof. apply fold_left_app. Qed.

(** ** two curves that differ *)
Lemma curve_at a f i : (i < 1000)%nat -> nth_error (curve a f) i = Some (a * sin (2 * PI * f * (INR i * 0.001))).
Proof.
  intros H. unfold curve, times. rewrite map_map. rewrite nth_error_map, (nth_error_nth' _ 0%nat) by (rewrite seq_length; exact H). rewrite seq_nth by exact H. reflexivity.
Qed.
Lemma sin_add_nat_pi x k : sin (x + INR k * PI) = sin x \/ sin (x + INR k * PI) = - sin x.
Proof.
  induction k as [|k IH]; [left; simpl; f_equal; lra|]. rewrite S_INR. replace (x + (INR k + 1) * PI) with (x + INR k * PI + PI) by lra.
  rewrite neg_sin. destruct IH as [-> | ->]; [right; reflexivity|left; lra].
Qed.
Lemma INR_500 : INR 500 * 0.001 = 0.5.
Proof. rewrite INR_IZR_INZ. simpl. lra. Qed.
Lemma INR_250 : INR 250 * 0.001 = 0.25.
Proof. rewrite INR_IZR_INZ. simpl. lra. Qed.
Lemma curve_differs a f : 0 < a -> freq_pos f -> curve a f <> curve 5 3.
Proof.
  intros Ha Hf E. pose proof PI_RGT_0 as Hpi. destruct Hf as [(k & Hk & ->)| ->].
  - assert (H : nth_error (curve a (0.1 + INR k)) 500 = nth_error (curve 5 3) 500) by (rewrite E; reflexivity).
    rewrite !curve_at in H by lia. rewrite INR_500 in H. injection H as H.
    replace (2 * PI * 3 * 0.5) with (0 + INR 3 * PI) in H by (simpl; lra).
    replace (2 * PI * (0.1 + INR k) * 0.5) with (0.1 * PI + INR k * PI) in H by lra.
    assert (S0 : sin (0 + INR 3 * PI) = 0) by (destruct (sin_add_nat_pi 0 3) as [-> | ->]; rewrite sin_0; lra). rewrite S0 in H.
    assert (S1 : 0 < sin (0.1 * PI)) by (apply sin_gt_0; lra).
    pose proof (Rmult_lt_0_compat _ _ Ha S1). destruct (sin_add_nat_pi (0.1 * PI) k) as [Q|Q]; rewrite Q in H; lra.
  - assert (H : nth_error (curve a 30) 250 = nth_error (curve 5 3) 250) by (rewrite E; reflexivity).
    rewrite !curve_at in H by lia. rewrite INR_250 in H. injection H as H.
    replace (2 * PI * 3 * 0.25) with (PI / 2 + INR 1 * PI) in H by (simpl; lra).
    replace (2 * PI * 30 * 0.25) with (0 + INR 15 * PI) in H by (rewrite INR_IZR_INZ; simpl; lra).
    assert (S0 : sin (0 + INR 15 * PI) = 0) by (destruct (sin_add_nat_pi 0 15) as [-> | ->]; rewrite sin_0; lra). rewrite S0 in H.
    destruct (sin_add_nat_pi (PI / 2) 1) as [Q|Q]; rewrite Q, sin_PI2 in H; lra.
Qed.

(** ** the properties *)
Lemma template_ranges es : freq_pos (sl_val (t_freq (run es))) /\ 0.1 <= sl_val (t_amp (run es)) <= 10.
Proof. destruct (run_ok es) as [(f & Ef & Hf) (a & Ea & Ha) _]. rewrite Ef, Ea. auto. Qed.

Lemma template_moved es e es' :
  sl_val (t_freq (run (es ++ [e]))) <> sl_val (t_freq (run es)) \/ sl_val (t_amp (run (es ++ [e]))) <> sl_val (t_amp (run es)) ->
  let s := run (es ++ e :: es') in t_line s = curve (sl_val (t_amp s)) (sl_val (t_freq s)) /\ t_line s <> t_line start.
Proof.
  intros H s. pose proof (run_ok es) as Hk. assert (Hs : shows (run (es ++ [e]))).
  { rewrite run_app in *. simpl in *. destruct (ok_l _ Hk) as [Q|(Qf & Qa & Ql)]; [apply step_ok; auto|].
    destruct e; simpl in *.
    - destruct (drag_freq_ok x _ Hk) as (A & B & C & D). apply D. rewrite C in H. destruct H as [H|H]; [exact H|]. exfalso. apply H. unfold drag_freq. destruct (Req_EM_T _ _); reflexivity.
    - destruct (drag_amp_ok x _ Hk) as (A & B & C & D). apply D. rewrite C in H. destruct H as [H|H]; [|exact H]. exfalso. apply H. unfold drag_amp. destruct (Req_EM_T _ _); reflexivity.
    - destruct (reset_ok _ Hk) as (_ & _ & C & D & _). rewrite C, D in H. exfalso. destruct H; congruence.
    - exfalso. unfold click_radio in H. destruct (nth_error labels i); simpl in H; destruct H; congruence. }
  assert (E : s = fold_left step es' (run (es ++ [e]))) by (unfold s; replace (es ++ e :: es') with ((es ++ [e]) ++ es') by (rewrite <- app_assoc; reflexivity); apply run_app).
  destruct (fold_ok es' _ (run_ok (es ++ [e]))) as [A B]. specialize (B Hs). rewrite <- E in A, B. split; [exact B|].
  rewrite B. destruct A as [(f & Ef & Hf) (a & Ea & Ha) _]. rewrite Ef, Ea. apply curve_differs; simpl; [lra|exact Hf].
Qed.
Lemma template_unmoved es : (forall es1 es2, es = es1 ++ es2 -> sl_val (t_freq (run es1)) = 3.1 /\ sl_val (t_amp (run es1)) = 5) ->
  t_line (run es) = curve 5 3.
Proof.
  induction es as [|e es IH] using rev_ind; intros H; [reflexivity|].
  assert (HI : t_line (run es) = curve 5 3) by (apply IH; intros es1 es2 ->; apply (H es1 (es2 ++ [e])); rewrite app_assoc; reflexivity).
  destruct (H es [e] eq_refl) as [F0 A0]. destruct (H (es ++ [e]) [] (eq_sym (app_nil_r _))) as [F1 A1].
  pose proof (run_ok es) as Hk. rewrite run_app in *. simpl in *. destruct e; simpl in *.
  - destruct (drag_freq_ok x _ Hk) as (_ & _ & C & _). unfold drag_freq. destruct (ok_f _ Hk) as (f & Ef & _). rewrite Ef in F0 |- *. simpl in F0 |- *. subst f. destruct (Req_EM_T _ _) as [_|N]; [exact HI|]. congruence.
  - destruct (drag_amp_ok x _ Hk) as (_ & _ & C & _). unfold drag_amp. destruct (ok_a _ Hk) as (a & Ea & _). rewrite Ea in A0 |- *. simpl sl_min. simpl sl_max. simpl sl_step. simpl sl_val in A0 |- *. subst a. destruct (Req_EM_T _ _) as [_|N]; [exact HI|]. congruence.
  - unfold reset_sliders, reset_freq. destruct (ok_f _ Hk) as (f & Ef & _). rewrite Ef in F0 |- *. simpl sl_val in *. simpl sl_init. subst f. destruct (Req_EM_T 3.1 3.1) as [_|N]; [|congruence].
    unfold reset_amp. destruct (ok_a _ Hk) as (a & Ea & _). rewrite Ea in A0 |- *. simpl sl_val in *. simpl sl_init. subst a. destruct (Req_EM_T 5 5) as [_|N]; [exact HI|congruence].
  - unfold click_radio. destruct (nth_error labels i); exact HI.
Qed.
Lemma template_reset es : let s := run (es ++ [Reset]) in
  sl_val (t_freq s) = 3.1 /\ sl_val (t_amp s) = 5 /\ t_color s = t_color (run es) /\ t_radio s = t_radio (run es) /\
  (t_line (run es) <> t_line start -> t_line s = curve 5 3.1).
Proof.
  intros s. unfold s. rewrite run_app. simpl. destruct (reset_ok _ (run_ok es)) as (A & B & C & D & E & G). repeat (split; [assumption|]).
  intros N. destruct (ok_l _ (run_ok es)) as [Q|(_ & _ & Q)]; [|contradiction]. specialize (B Q). unfold shows in B. rewrite B, C, D. reflexivity.
Qed.
Lemma step_color s e : match e with Radio i => match nth_error labels i with Some l => t_color (step s e) = l /\ t_radio (step s e) = i | None => step s e = s end
  | _ => t_color (step s e) = t_color s /\ t_radio (step s e) = t_radio s end.
Proof.
  destruct e; simpl.
  - unfold drag_freq. destruct (Req_EM_T _ _); auto.
  - unfold drag_amp. destruct (Req_EM_T _ _); auto.
  - unfold reset_sliders, reset_amp, reset_freq. destruct (Req_EM_T (sl_val (t_freq s)) _); destruct (Req_EM_T _ _); auto.
  - unfold click_radio. destruct (nth_error labels i); auto.
Qed.
Lemma template_color es : let s := run es in
  (t_color s = "C0"%string /\ t_radio s = 0%nat /\ forall i, In (Radio i) es -> (3 <= i)%nat) \/ nth_error labels (t_radio s) = Some (t_color s).
Proof.
  intros s. unfold s. induction es as [|e es IH] using rev_ind; [left; split; [reflexivity|]; split; [reflexivity|]; intros i []|].
  rewrite run_app. simpl. pose proof (step_color (run es) e) as H. destruct e.
  1-3: destruct H as [H1 H2]; rewrite H1, H2; destruct IH as [(A & B & C)|IH]; [left; repeat (split; [assumption|]); intros i Hi; apply in_app_iff in Hi; destruct Hi as [Hi|[Hi|[]]]; [auto|discriminate]|right; exact IH].
  destruct (nth_error labels i) as [l|] eqn:El.
  - right. destruct H as [-> ->]. exact El.
  - rewrite H. destruct IH as [(A & B & C)|IH]; [|right; exact IH]. left. repeat (split; [assumption|]). intros j Hj. apply in_app_iff in Hj. destruct Hj as [Hj|[Hj|[]]]; [auto|].
    injection Hj as <-. apply nth_error_None in El. exact El.
Qed.
Lemma Znearest_near c x : Rabs (IZR (Znearest c x) - x) <= 0.5.
Proof.
  pose proof (Znearest_half c x) as H. rewrite Rabs_minus_sym in H. lra.
Qed.
Lemma template_drag es x :
  (0.1 <= x <= 30 -> Rabs (sl_val (t_freq (run (es ++ [DragFreq x]))) - x) <= 0.5) /\
  sl_val (t_amp (run (es ++ [DragAmp x]))) = Rmax 0.1 (Rmin 10 x).
Proof.
  rewrite !run_app. simpl fold_left. rewrite (proj1 (proj2 (proj2 (drag_freq_ok x _ (run_ok es))))), (proj1 (proj2 (proj2 (drag_amp_ok x _ (run_ok es))))). split.
  - intros Hx. unfold in_bounds, delta_f. set (z := Znearest _ _). pose proof (Znearest_near (fun t => negb (Z.even t)) ((x - 0.1) / 1)) as H. fold z in H.
    unfold Rabs in H |- *. destruct (Rle_dec _ _); [destruct (Rcase_abs _), (Rcase_abs _); lra|]. destruct (Rle_dec _ _); destruct (Rcase_abs _), (Rcase_abs _); lra.
  - unfold in_bounds. unfold Rmax, Rmin. destruct (Rle_dec x 0.1), (Rle_dec 10 x), (Rle_dec 10 x); try destruct (Rle_dec _ _); lra.
Qed.
Lemma template_tie es k : (k <= 14)%nat -> sl_val (t_freq (run (es ++ [DragFreq (0.6 + INR (2 * k))]))) = 0.1 + INR (2 * k).
Proof.
  intros Hk. rewrite run_app. change (fold_left step [DragFreq (0.6 + INR (2 * k))] (run es)) with (drag_freq (0.6 + INR (2 * k)) (run es)). rewrite (proj1 (proj2 (proj2 (drag_freq_ok _ _ (run_ok es))))). unfold in_bounds, delta_f.
  replace ((0.6 + INR (2 * k) - 0.1) / 1) with (INR (2 * k) + / 2) by lra.
  assert (E : Znearest (fun z => negb (Z.even z)) (INR (2 * k) + / 2) = Z.of_nat (2 * k)).
  { unfold Znearest. assert (F : Zfloor (INR (2 * k) + / 2) = Z.of_nat (2 * k)) by (apply Zfloor_imp; rewrite plus_IZR, <- INR_IZR_INZ; lra).
    rewrite F, <- INR_IZR_INZ, Rcompare_Eq by lra. replace (Z.even (Z.of_nat (2 * k))) with true; [reflexivity|]. rewrite Nat2Z.inj_mul. symmetry. apply Z.even_mul. }
  rewrite E, <- INR_IZR_INZ. assert (B : INR (2 * k) <= 28) by (replace 28 with (INR 28) by (simpl; lra); apply le_INR; lia). pose proof (pos_INR (2 * k)).
  destruct (Rle_dec _ _); [lra|]. destruct (Rle_dec _ _); lra.
Qed.
Lemma template_case : let s := run [DragAmp 7; Radio 1; Reset] in
  sl_val (t_amp (run ([] ++ [DragAmp 7]))) <> sl_val (t_amp (run [])) /\ t_line s <> t_line start /\ t_line s = curve 5 3.1 /\ t_color s = "blue"%string.
Proof.
  assert (H0 : sl_val (t_amp (run ([] ++ [DragAmp 7]))) <> sl_val (t_amp (run []))).
  { simpl app. unfold run. simpl fold_left. rewrite (proj1 (proj2 (proj2 (drag_amp_ok 7 start start_ok)))), amp_in_bounds_id by lra.
    destruct (ok_l _ start_ok) as [Q|(_ & -> & _)]; [|lra]. unfold start, t_amp, new_slider, sl_val. rewrite amp_in_bounds_id; unfold a0; lra. }
  intros s. split; [exact H0|]. destruct (template_moved [] (DragAmp 7) [Radio 1; Reset] (or_intror H0)) as [_ N].
  split; [exact N|]. destruct (template_moved [] (DragAmp 7) [Radio 1] (or_intror H0)) as [_ N1].
  destruct (template_reset [DragAmp 7; Radio 1]) as (_ & _ & C & _ & L). split; [exact (L N1)|]. unfold s. change [DragAmp 7; Radio 1; Reset] with ([DragAmp 7; Radio 1] ++ [Reset]). rewrite C. reflexivity.
Qed.
