(** * Proofs about the dynamic program (dp.py). *)
From Coq Require Import List Arith Lia Bool ZArith Reals Lra.
From Verif Require Import PyBase Cost Dp SpecPath.
Import ListNotations.
Local Open Scope nat_scope.

Section Proofs.
Context {K : CostStruct}.

(** ** minimum and argmin *)
Lemma fold_argmin (l : list K) : forall pre best m,
  nth_error pre best = Some m ->
  (forall j y, nth_error pre j = Some y -> cle m y) ->
  (forall j y, j < best -> nth_error pre j = Some y -> clt m y = true) ->
  let i := argmin_from best m (length pre) l in
  let m' := fold_left (fun m y => if clt y m then y else m) l m in
  nth_error (pre ++ l) i = Some m' /\
  (forall j y, nth_error (pre ++ l) j = Some y -> cle m' y) /\
  (forall j y, j < i -> nth_error (pre ++ l) j = Some y -> clt m' y = true).
Proof.
  induction l as [|y l IH]; intros pre best m Hb Hle Hlt; cbn [argmin_from fold_left].
  - rewrite app_nil_r; auto.
  - assert (Hpre : pre ++ y :: l = (pre ++ [y]) ++ l) by (rewrite <- app_assoc; reflexivity).
    rewrite Hpre.
    assert (Hbl : best < length pre) by (apply nth_error_Some; congruence).
    destruct (clt y m) eqn:E.
    + specialize (IH (pre ++ [y]) (length pre) y).
      rewrite app_length in IH; simpl in IH; rewrite Nat.add_1_r in IH.
      apply IH.
      * rewrite nth_error_app2, Nat.sub_diag by lia; reflexivity.
      * intros j z Hz. destruct (lt_dec j (length pre)) as [Hj|Hj].
        -- rewrite nth_error_app1 in Hz by lia.
           apply cle_trans with m; [apply clt_cle; auto|eauto].
        -- assert (j = length pre).
           { assert (Hj2 : j < length (pre ++ [y])) by (apply nth_error_Some; congruence).
             rewrite app_length in Hj2; simpl in Hj2; lia. }
           subst. rewrite nth_error_app2, Nat.sub_diag in Hz by lia. simpl in Hz.
           injection Hz as <-. apply cle_refl.
      * intros j z Hj Hz. rewrite nth_error_app1 in Hz by lia.
        eapply clt_le_trans; eauto.
    + specialize (IH (pre ++ [y]) best m).
      rewrite app_length in IH; simpl in IH; rewrite Nat.add_1_r in IH.
      apply IH.
      * rewrite nth_error_app1 by lia; auto.
      * intros j z Hz. destruct (lt_dec j (length pre)) as [Hj|Hj].
        -- rewrite nth_error_app1 in Hz by lia. eauto.
        -- assert (j = length pre).
           { assert (Hj2 : j < length (pre ++ [y])) by (apply nth_error_Some; congruence).
             rewrite app_length in Hj2; simpl in Hj2; lia. }
           subst. rewrite nth_error_app2, Nat.sub_diag in Hz by lia. simpl in Hz.
           injection Hz as <-. exact E.
      * intros j z Hj Hz. rewrite nth_error_app1 in Hz by lia. eauto.
Qed.

Lemma min_argmin (l : list K) : l <> [] ->
  exists i m, argmin l = Ok i /\ min_list l = Ok m /\ nth_error l i = Some m /\
    (forall j y, nth_error l j = Some y -> cle m y) /\
    (forall j y, j < i -> nth_error l j = Some y -> clt m y = true).
Proof.
  destruct l as [|x l]; [congruence|intros _].
  pose proof (fold_argmin l [x] 0 x eq_refl) as H. simpl in H.
  eexists _, _. split; [reflexivity|]. split; [reflexivity|].
  apply H.
  - intros [|[|j]] y Hy; simpl in Hy; try discriminate. injection Hy as <-. apply cle_refl.
  - lia.
Qed.

(** ** shapes *)
Lemma in_range_dims {D} (Q : list (list D)) js : in_range Q js <-> in_dims (map (@length D) Q) js.
Proof.
  revert js; induction Q as [|c Q IH]; intros [|j js]; simpl; try tauto.
  rewrite IH; tauto.
Qed.

Fixpoint chain (tcs : list (matrix K)) (n : nat) (ns : list nat) : Prop :=
  match tcs, ns with
  | [], [] => 0 < n
  | c :: tcs', n' :: ns' =>
      0 < n /\ m_cols c = n' /\ has_dims (m_rows c) n n' /\ chain tcs' n' ns'
  | _, _ => False
  end.

Lemma chain_pos tcs n ns : chain tcs n ns -> 0 < n.
Proof. destruct tcs, ns; simpl; tauto. Qed.

Fixpoint trace (v_ind : list (list nat)) (i : nat) (js : list nat) : Prop :=
  match v_ind, js with
  | [vi], [j] => j = i /\ i < length vi
  | vi :: ((_ :: _) as rest), j :: js' =>
      j = i /\ exists n, nth_error vi i = Some n /\ trace rest n js'
  | _, _ => False
  end.

Lemma zip_add_nth (a b : list K) i x y :
  nth_error a i = Some x -> nth_error b i = Some y -> nth_error (zip_add a b) i = Some (cadd x y).
Proof.
  revert b i; induction a as [|p a IH]; intros [|q b] [|i] Hx Hy; simpl in *; try discriminate.
  - congruence.
  - eauto.
Qed.

Lemma zip_add_length (a b : list K) : length a = length b -> length (zip_add a b) = length a.
Proof. revert b; induction a as [|p a IH]; intros [|q b] H; simpl in *; auto; lia. Qed.

Lemma bellman_step_spec (c : matrix K) n n' (v : list K) : has_dims (m_rows c) n n' -> m_cols c = n' -> 0 < n' ->
  length v = n' ->
  exists vi w, bellman_step c v = Ok (vi, w) /\ length vi = n /\ length w = n /\
    forall j, j < n -> exists k m, nth_error vi j = Some k /\ nth_error w j = Some m /\ k < n' /\
      m = cadd (entry (m_rows c) j k) (nth k v czero) /\
      (forall k', k' < n' -> cle m (cadd (entry (m_rows c) j k') (nth k' v czero))) /\
      (forall k', k' < k -> clt m (cadd (entry (m_rows c) j k') (nth k' v czero)) = true).
Proof.
  intros [Hn Hr] Hc Hn' Hv. unfold bellman_step.
  assert (Hrhs : mapM (fun row => row_add row v) (m_rows c)
                 = Ok (map (fun row => zip_add row v) (m_rows c))).
  { clear Hn. induction Hr as [|r rs Hr1 Hr IH]; simpl; auto.
    unfold row_add at 1. rewrite Hr1, Hv, Nat.eqb_refl. simpl. rewrite IH. reflexivity. }
  rewrite Hrhs; simpl. rewrite Hc. replace (n' =? 0) with false by (symmetry; apply Nat.eqb_neq; lia).
  clear Hrhs. revert n Hn. induction Hr as [|r rs Hr1 Hr IH]; intros n Hn.
  - simpl in *. subst n. exists [], []. simpl. repeat split; auto. intros j Hj; lia.
  - simpl in Hn. destruct n as [|n]; [lia|].
    destruct (IH n ltac:(lia)) as (vi & w & Heq & Hlvi & Hlw & Hj). clear IH.
    cbn [map mapM].
    assert (Hzl : length (zip_add r v) = n') by (rewrite zip_add_length; lia).
    destruct (min_argmin (zip_add r v)) as (i & m & Ha & Hm & Hi & Hmin & Hfst).
    { intros E; rewrite E in Hzl; simpl in Hzl; lia. }
    rewrite Hm, Ha. cbn [bind].
    destruct (mapM min_list (map (fun row => zip_add row v) rs)) as [w0| |] eqn:E1;
      cbn [bind] in Heq; try discriminate.
    destruct (mapM argmin (map (fun row => zip_add row v) rs)) as [vi0| |] eqn:E2;
      cbn [bind] in Heq; try discriminate.
    injection Heq as -> ->. cbn [bind].
    exists (i :: vi), (m :: w). split; [reflexivity|]. simpl. split; [lia|]. split; [lia|].
    intros [|j] Hjn.
    + exists i, m. simpl. split; [reflexivity|]. split; [reflexivity|].
      assert (Hil : i < n') by (rewrite <- Hzl; apply nth_error_Some; congruence).
      assert (Hent : forall k', k' < n' ->
        nth_error (zip_add r v) k' = Some (cadd (entry (r :: rs) 0 k') (nth k' v czero))).
      { intros k' Hk'. unfold entry; simpl. apply zip_add_nth;
        apply nth_error_nth'; lia. }
      split; [exact Hil|]. split.
      { rewrite Hent in Hi by lia. congruence. }
      split; [intros k' Hk'; apply (Hmin k'); apply Hent; lia|].
      intros k' Hk'. apply (Hfst k'); auto. apply Hent; lia.
    + destruct (Hj j ltac:(lia)) as (k & m' & H1 & H2 & H3 & H4 & H5 & H6).
      exists k, m'. simpl. repeat split; auto.
Qed.

(** The central statement: values are cost-to-go, indices trace an optimal route. *)
Lemma bellman_loop_spec tcs : forall n ns, chain tcs n ns ->
  exists vi vis v vs, bellman_loop tcs (last (n :: ns) 0) = Ok (vi :: vis, v :: vs) /\
    length v = n /\ length vi = n /\ length vis = length tcs /\ length vs = length tcs /\
    forall j, j < n -> exists js,
      trace (vi :: vis) j js /\ in_dims (n :: ns) js /\ hd 0 js = j /\
      nth j v czero = route_cost (map m_rows tcs) js /\
      (forall js', in_dims (n :: ns) js' -> hd 0 js' = j ->
         cle (nth j v czero) (route_cost (map m_rows tcs) js')).
Proof.
  induction tcs as [|c tcs IH]; intros n ns Hc.
  - destruct ns; simpl in Hc; [|tauto].
    exists (repeat 0 n), [], (zeros n), []. simpl. unfold zeros.
    rewrite !repeat_length. repeat split; auto.
    intros j Hj. exists [j]. simpl. repeat split; auto.
    + rewrite nth_repeat. reflexivity.
    + intros js' Hjs' _. rewrite nth_repeat. destruct js' as [|? [|? ?]]; simpl; apply cle_refl.
  - destruct ns as [|n' ns]; simpl in Hc; [tauto|].
    destruct Hc as (Hn & Hcols & Hdims & Hch).
    pose proof (chain_pos _ _ _ Hch) as Hn'.
    destruct (IH n' ns Hch) as (vi & vis & v & vs & Heq & Hlv & Hlvi & Hlvis & Hlvs & Hj).
    destruct (bellman_step_spec c n n' v Hdims Hcols Hn' Hlv) as (wi & w & Hw & Hlwi & Hlw & Hst).
    exists wi, (vi :: vis), w, (v :: vs).
    split. { cbn [bellman_loop]. change (last (n :: n' :: ns) 0) with (last (n' :: ns) 0).
             rewrite Heq. cbn [bind]. rewrite Hw. reflexivity. }
    split; [auto|]. split; [auto|]. split; [simpl; lia|]. split; [simpl; lia|].
    intros j Hjn. destruct (Hst j Hjn) as (k & m & H1 & H2 & H3 & H4 & H5 & _).
    destruct (Hj k H3) as (js & Ht & Hin & Hhd & Hval & Hopt).
    exists (j :: js). split.
    { simpl. split; auto. exists k. split; auto. }
    split. { simpl. split; auto. }
    split; [reflexivity|].
    assert (Hm : nth j w czero = m) by (apply nth_error_nth; auto).
    destruct js as [|k0 js]; [simpl in Hin; tauto|]. simpl in Hhd; subst k0.
    split.
    { rewrite Hm, H4. cbn [map route_cost]. f_equal. rewrite Hval. reflexivity. }
    intros js' Hin' Hhd'. rewrite Hm.
    destruct js' as [|j' [|k' js']]; simpl in Hin'; try tauto.
    simpl in Hhd'; subst j'. destruct Hin' as (_ & Hk' & Hin').
    cbn [map route_cost].
    apply cle_trans with (cadd (entry (m_rows c) j k') (nth k' v czero)); [auto|].
    apply cadd_le_r.
    destruct (Hj k' Hk') as (_ & _ & _ & _ & _ & Hopt').
    apply Hopt'; simpl; auto.
Qed.

Lemma trace_fun vis : forall i js js', trace vis i js -> trace vis i js' -> js = js'.
Proof.
  induction vis as [|vi [|vi2 vis] IH]; intros i js js' H H'.
  - destruct H.
  - destruct js as [|j [|? ?]], js' as [|j' [|? ?]]; simpl in *; try tauto.
    destruct H, H'. congruence.
  - destruct js as [|j js], js' as [|j' js']; try contradiction.
    destruct H as (-> & n & Hn & H). destruct H' as (-> & n' & Hn' & H').
    assert (n = n') by congruence. subst n'. f_equal. eapply IH; eauto.
Qed.

Lemma extract_loop_spec {D} (data : list (list D)) : forall vis i js,
  trace vis i js -> in_range data js -> length vis = length data ->
  exists path, extract_loop data vis i = Ok path /\ picks data js path.
Proof.
  induction data as [|col data IH]; intros vis i js Ht Hin Hl.
  - destruct vis; simpl in *; [tauto|lia].
  - destruct vis as [|vi vis]; simpl in Hl; [lia|].
    destruct js as [|j js]; [simpl in Hin; tauto|]. destruct Hin as [Hj Hin].
    destruct (nth_error col j) as [x|] eqn:Ex.
    2:{ apply nth_error_None in Ex. lia. }
    cbn [extract_loop].
    destruct vis as [|vi2 vis].
    + destruct data; simpl in Hl; [|lia]. simpl in Ht. destruct js as [|? ?]; [|tauto].
      destruct Ht as (Hji & Hi). subst j.
      unfold py_index. rewrite Ex. cbn [bind].
      destruct (nth_error vi i) eqn:Ev.
      2:{ apply nth_error_None in Ev. lia. }
      simpl. exists [x]. simpl; auto.
    + cbn [trace] in Ht. destruct Ht as (Hji & n & Hn & Ht). subst j.
      destruct (IH (vi2 :: vis) n js Ht Hin ltac:(simpl in *; lia)) as (path & Hp & Hpk).
      unfold py_index. rewrite Ex. cbn [bind]. rewrite Hn. cbn [bind].
      rewrite Hp. cbn [bind]. exists (x :: path). simpl; auto.
Qed.

(** ** the whole function *)
Definition tc_rows {D} (f : list D -> list D -> matrix K) := fun d1 d2 => m_rows (f d1 d2).

Definition shaped {D} (Q : list (list D)) (f : list D -> list D -> matrix K) : Prop :=
  forall d1 d2, In d1 Q -> In d2 Q ->
    m_cols (f d1 d2) = length d2 /\ has_dims (m_rows (f d1 d2)) (length d1) (length d2).

Lemma shaped_chain {D} (f : list D -> list D -> matrix K) : forall Q d,
  shaped (d :: Q) f -> Forall (fun c => c <> []) (d :: Q) ->
  chain (apply_cost_function (d :: Q) f) (length d) (map (@length D) Q).
Proof.
  induction Q as [|d2 Q IH]; intros d Hs Hne.
  - simpl. inversion Hne; subst. destruct d; [congruence|simpl; lia].
  - cbn [apply_cost_function map chain]. inversion Hne; subst.
    split. { destruct d; [congruence|simpl; lia]. }
    destruct (Hs d d2) as (H1' & H2'); [simpl; auto|simpl; auto|].
    split; [auto|]. split; [auto|].
    apply (IH d2); auto. intros a b Ha Hb. apply Hs; simpl; auto.
Qed.

Lemma route_stage {D} (f : list D -> list D -> matrix K) : forall Q js,
  route_cost (map m_rows (apply_cost_function Q f)) js = stage_cost (tc_rows f) Q js.
Proof.
  induction Q as [|d [|d2 Q] IH]; intros js; try reflexivity.
  - cbn [apply_cost_function map]. destruct js as [|j [|j' js]]; try reflexivity.
    change (stage_cost (tc_rows f) (d :: d2 :: Q) (j :: j' :: js)) with
    (cadd (entry (tc_rows f d d2) j j') (stage_cost (tc_rows f) (d2 :: Q) (j' :: js))).
  rewrite <- IH. reflexivity.
Qed.

Lemma last_map_length {D} (Q : list (list D)) : forall d d2 f,
  shaped (d :: d2 :: Q) f ->
  exists c, py_last (apply_cost_function (d :: d2 :: Q) f) = Ok c /\
            m_cols c = last (length d :: map (@length D) (d2 :: Q)) 0.
Proof.
  induction Q as [|d3 Q IH]; intros d d2 f Hs.
  - exists (f d d2). split; [reflexivity|]. simpl. apply Hs; simpl; auto.
  - destruct (IH d2 d3 f) as (c & Hc & Hcols).
    { intros a b Ha Hb; apply Hs; simpl; simpl in *; tauto. }
    exists c. split.
    + cbn [apply_cost_function] in *. unfold py_last in *. cbn [rev] in *.
      destruct ((rev match Q with [] => [] | d4 :: _ => f d3 d4 :: apply_cost_function Q f end) ++ [f d2 d3]) eqn:E.
      * destruct (rev match Q with [] => [] | d4 :: _ => f d3 d4 :: apply_cost_function Q f end); discriminate.
      * simpl. simpl in Hc. exact Hc.
    + rewrite Hcols. reflexivity.
Qed.

Lemma acf_cons {D} (f : list D -> list D -> matrix K) d d2 Q :
  apply_cost_function (d :: d2 :: Q) f = f d d2 :: apply_cost_function (d2 :: Q) f.
Proof. reflexivity. Qed.

Lemma acf_length {D} (f : list D -> list D -> matrix K) : forall Q,
  length (apply_cost_function Q f) = pred (length Q).
Proof.
  induction Q as [|d [|d2 Q] IH]; try reflexivity.
  change (S (length (apply_cost_function (d2 :: Q) f)) = S (length Q)).
  rewrite IH. reflexivity.
Qed.

Lemma shortest_path_spec {D} (Q : list (list D)) (f : list D -> list D -> matrix K) :
  2 <= length Q -> Forall (fun c => c <> []) Q -> shaped Q f ->
  exists vi vis v vs i js path len,
    calculate_value_function (apply_cost_function Q f) = Ok (vi :: vis, v :: vs) /\
    argmin v = Ok i /\ trace (vi :: vis) i js /\
    shortest_path Q f = Ok {| dp_success := true; dp_path := path; dp_length := len |} /\
    picks Q js path /\ in_range Q js /\
    stage_cost (tc_rows f) Q js = len /\
    forall js', in_range Q js' -> cle len (stage_cost (tc_rows f) Q js').
Proof.
  intros Hl Hne Hs. destruct Q as [|d [|d2 Q]]; simpl in Hl; try lia.
  pose proof (shaped_chain f (d2 :: Q) d Hs Hne) as Hch.
  destruct (bellman_loop_spec _ _ _ Hch) as (vi & vis & v & vs & Heq & Hlv & Hlvi & Hlvis & Hlvs & Hj).
  destruct (last_map_length Q d d2 f Hs) as (c & Hc & Hcols).
  assert (Hcvf : calculate_value_function (apply_cost_function (d :: d2 :: Q) f)
                 = Ok (vi :: vis, v :: vs)).
  { unfold calculate_value_function. rewrite Hc. cbn [bind]. rewrite Hcols. exact Heq. }
  assert (Hv : v <> []).
  { intros ->. simpl in Hlv. pose proof (chain_pos _ _ _ Hch). lia. }
  destruct (min_argmin v Hv) as (i & m & Ha & Hm & Hi & Hmin & Hfst).
  assert (Hil : i < length d).
  { rewrite <- Hlv. apply nth_error_Some. congruence. }
  destruct (Hj i Hil) as (js & Ht & Hin & Hhd & Hval & Hopt).
  assert (Hir : in_range (d :: d2 :: Q) js) by (apply in_range_dims; exact Hin).
  destruct (extract_loop_spec (d :: d2 :: Q) (vi :: vis) i js Ht Hir) as (path & Hp & Hpk).
  { simpl length. rewrite Hlvis, acf_length. reflexivity. }
  exists vi, vis, v, vs, i, js, path, m.
  split; [exact Hcvf|]. split; [exact Ha|]. split; [exact Ht|]. split.
  { unfold shortest_path. rewrite Hcvf. cbn [bind].
    unfold extract_shortest_path. unfold py_index at 1. cbn [nth_error bind].
    rewrite Ha. cbn [bind]. rewrite Hp. cbn [bind]. unfold py_index. cbn [nth_error bind].
    rewrite Hm. reflexivity. }
  split; [exact Hpk|]. split; [exact Hir|].
  rewrite route_stage in Hval. split.
  { rewrite <- Hval. apply nth_error_nth. exact Hi. }
  intros js' Hin'. apply in_range_dims in Hin'.
  destruct js' as [|j' js']; [simpl in Hin'; tauto|].
  assert (Hj' : j' < length d) by (simpl in Hin'; tauto).
  destruct (Hj j' Hj') as (_ & _ & _ & _ & _ & Hopt').
  rewrite <- route_stage.
  apply cle_trans with (nth j' v czero).
  - apply (Hmin j'). apply nth_error_nth'. lia.
  - apply Hopt'; auto.
Qed.

(** ** lexicographic tie break *)
Lemma in_dims_length ns : forall js, in_dims ns js -> length js = length ns.
Proof. induction ns as [|n ns IH]; intros [|j js] H; simpl in *; try tauto. f_equal; apply IH; tauto. Qed.

Fixpoint sopt (tcs : list (matrix K)) (ns : list nat) (js : list nat) : Prop :=
  (forall js', in_dims ns js' -> hd_error js' = hd_error js ->
     cle (route_cost (map m_rows tcs) js) (route_cost (map m_rows tcs) js')) /\
  match tcs, ns, js with
  | _ :: tcs', _ :: ns', _ :: js' => sopt tcs' ns' js'
  | _, _, _ => True
  end.

Lemma sopt_head tcs ns js : sopt tcs ns js ->
  forall js', in_dims ns js' -> hd_error js' = hd_error js ->
     cle (route_cost (map m_rows tcs) js) (route_cost (map m_rows tcs) js').
Proof. destruct tcs, ns, js; simpl; tauto. Qed.

Lemma bellman_lex tcs : forall n ns vi vis v vs, chain tcs n ns ->
  bellman_loop tcs (last (n :: ns) 0) = Ok (vi :: vis, v :: vs) ->
  forall j js js', trace (vi :: vis) j js -> in_dims (n :: ns) js' -> hd 0 js' = j ->
    sopt tcs (n :: ns) js' -> lex_le js js'.
Proof.
  induction tcs as [|c tcs IH]; intros n ns vi vis v vs Hc Heq j js js' Ht Hin Hhd Hopt.
  - destruct ns; simpl in Hc; [|tauto]. simpl in Heq. injection Heq as <- <- <- <-.
    destruct js as [|j0 [|? ?]]; simpl in Ht; try tauto.
    destruct js' as [|j1 [|? ?]]; simpl in Hin; try tauto.
    simpl in Hhd. destruct Ht; subst. apply lex_eq, lex_nil.
  - pose proof Hc as Hc0.
    destruct ns as [|n' ns]; simpl in Hc; [tauto|].
    destruct Hc as (Hn & Hcols & Hdims & Hch).
    pose proof (chain_pos _ _ _ Hch) as Hn'.
    destruct (bellman_loop_spec tcs n' ns Hch) as (vi' & vis' & v' & vs' & Heq' & Hlv & Hlvi & Hlvis & Hlvs & Hj).
    destruct (bellman_step_spec c n n' v' Hdims Hcols Hn' Hlv) as (wi & w & Hw & Hlwi & Hlw & Hst).
    cbn [bellman_loop] in Heq. change (last (n :: n' :: ns) 0) with (last (n' :: ns) 0) in Heq.
    rewrite Heq' in Heq. cbn [bind] in Heq. rewrite Hw in Heq. cbn [bind] in Heq.
    injection Heq as <- <- <- <-.
    destruct js' as [|j1 js']; [simpl in Hin; tauto|]. simpl in Hhd; subst j1.
    destruct Hin as [Hjn Hin]. destruct js' as [|k' js']; [simpl in Hin; tauto|].
    destruct js as [|j0 js]; [simpl in Ht; tauto|].
    destruct Ht as (-> & k & Hk & Ht).
    destruct (Hst j Hjn) as (k2 & m & H1 & H2 & H3 & H4 & H5 & H6).
    assert (k2 = k) by congruence. subst k2.
    pose proof (sopt_head _ _ _ Hopt) as Hopt0. destruct Hopt as [_ Hopt1].
    destruct Hin as [Hk' Hin].
    destruct (Hj k H3) as (js3 & Ht3 & Hin3 & Hhd3 & Hval3 & _).
    assert (Hcost : cle (route_cost (map m_rows (c :: tcs)) (j :: k' :: js')) m).
    { destruct js3 as [|k3 js3]; [simpl in Hin3; tauto|]. simpl in Hhd3; subst k3.
      rewrite H4, Hval3.
      apply (Hopt0 (j :: k :: js3)); [|reflexivity]. split; auto. }
    cbn [map route_cost] in Hcost.
    destruct (Hj k' Hk') as (_ & _ & _ & _ & _ & Hopt2).
    assert (Hle : cle (cadd (entry (m_rows c) j k') (nth k' v' czero)) m).
    { eapply cle_trans; [|exact Hcost]. apply cadd_le_r. apply Hopt2; simpl; auto. }
    apply lex_eq.
    destruct (lt_eq_lt_dec k k') as [[Hlt|Heqk]|Hgt].
    + rewrite (trace_fun _ _ _ _ Ht Ht3).
      destruct js3 as [|k3 js3]; [simpl in Hin3; tauto|]. simpl in Hhd3; subst k3.
      apply lex_lt; [exact Hlt|].
      pose proof (in_dims_length _ _ Hin3) as L1. pose proof (in_dims_length _ _ Hin) as L2.
      simpl in L1. lia.
    + subst k'. apply (IH n' ns vi' vis' v' vs' Hch Heq' k); auto. split; auto.
    + pose proof (H6 k' Hgt) as H7. unfold cle in Hle. congruence.
Qed.

Lemma sopt_of_suffix {D} (f : list D -> list D -> matrix K) : forall Q js,
  suffix_optimal (tc_rows f) Q js -> in_range Q js ->
  sopt (apply_cost_function Q f) (map (@length D) Q) js.
Proof.
  induction Q as [|d Q IH]; intros js Hs Hin.
  - simpl. split; auto. intros. apply cle_refl.
  - assert (Hh : forall js', in_dims (map (@length D) (d :: Q)) js' -> hd_error js' = hd_error js ->
       cle (route_cost (map m_rows (apply_cost_function (d :: Q) f)) js)
           (route_cost (map m_rows (apply_cost_function (d :: Q) f)) js')).
    { intros js' Hin' Hhd. rewrite !route_stage. apply (Hs 0); auto. apply in_range_dims; auto. }
    destruct js as [|j js]; [simpl in Hin; tauto|].
    destruct Q as [|d2 Q].
    + simpl. split; auto.
    + rewrite acf_cons in *. split; [exact Hh|].
      apply IH.
      * intros k. exact (Hs (S k)).
      * simpl in Hin |- *. tauto.
Qed.

Lemma picks_fun {D} (Q : list (list D)) : forall js p p', picks Q js p -> picks Q js p' -> p = p'.
Proof.
  induction Q as [|c Q IH]; intros [|j js] [|x p] [|x' p'] H H'; simpl in *; try tauto.
  destruct H, H'. f_equal; [congruence|eauto].
Qed.

Lemma shortest_path_lex {D} (Q : list (list D)) (f : list D -> list D -> matrix K) r :
  2 <= length Q -> Forall (fun c => c <> []) Q -> shaped Q f ->
  shortest_path Q f = Ok r ->
  exists js, picks Q js (dp_path _ r) /\
    stage_cost (tc_rows f) Q js = dp_length _ r /\
    forall js', in_range Q js' -> cle (stage_cost (tc_rows f) Q js') (dp_length _ r) ->
      suffix_optimal (tc_rows f) Q js' -> lex_le js js'.
Proof.
  intros Hl Hne Hs Hr.
  destruct (shortest_path_spec Q f Hl Hne Hs)
    as (vi & vis & v & vs & i & js & path & len & Hcvf & Ha & Ht & Hsp & Hpk & Hir & Hc & Hopt).
  rewrite Hsp in Hr. injection Hr as <-. simpl.
  exists js. split; [exact Hpk|]. split; [exact Hc|]. intros js' Hin' Hcost Hsuf.
  apply sopt_of_suffix in Hsuf; [|exact Hin'].
  destruct Q as [|d [|d2 Q]]; simpl in Hl; try lia.
  pose proof (shaped_chain f (d2 :: Q) d Hs Hne) as Hch.
  destruct (last_map_length Q d d2 f Hs) as (c & Hc' & Hcols).
  unfold calculate_value_function in Hcvf. rewrite Hc' in Hcvf. cbn [bind] in Hcvf.
  rewrite Hcols in Hcvf.
  destruct (bellman_loop_spec _ _ _ Hch) as (vi1 & vis1 & v1 & vs1 & Heq & Hlv & _ & _ & _ & Hj).
  pose proof Hcvf as Hcvf2. cbn [map] in Hcvf2, Heq. rewrite Hcvf2 in Heq. injection Heq as <- <- <- <-.
  assert (Hv : v <> []).
  { intros ->. simpl in Hlv. pose proof (chain_pos _ _ _ Hch). lia. }
  destruct (min_argmin v Hv) as (i2 & m & Ha2 & Hm & Hi & Hmin & Hfst).
  assert (i2 = i) by congruence. subst i2.
  assert (Hlen : len = m).
  { unfold shortest_path in Hsp. unfold calculate_value_function in Hsp. rewrite Hc' in Hsp.
    cbn [bind] in Hsp. rewrite Hcols in Hsp. cbn [map] in Hsp. rewrite Hcvf2 in Hsp. cbn [bind] in Hsp.
    destruct (extract_shortest_path (d :: d2 :: Q) (vi :: vis) (v :: vs)); cbn [bind] in Hsp; try discriminate.
    unfold py_index in Hsp. cbn [nth_error bind] in Hsp. rewrite Hm in Hsp. cbn [bind] in Hsp. congruence. }
  rewrite Hlen in Hcost. clear Hc Hlen.
  apply in_range_dims in Hin'. destruct js' as [|j' js']; [simpl in Hin'; tauto|].
  assert (Hj' : j' < length d) by (simpl in Hin'; tauto).
  assert (Hi' : nth i v czero = m) by (apply nth_error_nth; auto).
  destruct (Hj j' Hj') as (_ & _ & _ & _ & _ & Hopt').
  rewrite <- route_stage in Hcost.
  assert (Hjm : cle (nth j' v czero) m).
  { eapply cle_trans; [|exact Hcost]. apply Hopt'; auto. }
  assert (Hhd : exists js0, js = i :: js0 /\ length js = length (j' :: js')).
  { assert (Hi2 : i < length d) by (rewrite <- Hlv; apply nth_error_Some; congruence).
    destruct (Hj i Hi2) as (js3 & Ht3 & Hin3 & Hhd3 & _).
    rewrite (trace_fun _ _ _ _ Ht Ht3).
    destruct js3 as [|i3 js3]; [simpl in Hin3; tauto|]. simpl in Hhd3; subst.
    exists js3. split; auto. rewrite (in_dims_length _ _ Hin3). symmetry. apply in_dims_length; auto. }
  destruct Hhd as (js0 & -> & Hlen).
  destruct (lt_eq_lt_dec i j') as [[Hlt|Heqk]|Hgt].
  - apply lex_lt; simpl in *; lia.
  - subst j'.
    apply (bellman_lex _ _ _ vi vis v vs Hch) with (j := i); auto.
  - pose proof (Hfst j' (nth j' v czero) Hgt ltac:(apply nth_error_nth'; lia)) as H7.
    unfold cle in Hjm. congruence.
Qed.

(** With finite entries and strictly monotone addition, optimal implies
    optimal from every stage on. *)
Lemma stage_cost_cons {D} (tc : list D -> list D -> list (list K)) d d2 Q j j' js :
  stage_cost tc (d :: d2 :: Q) (j :: j' :: js) =
  cadd (entry (tc d d2) j j') (stage_cost tc (d2 :: Q) (j' :: js)).
Proof. reflexivity. Qed.

Lemma optimal_suffix {D} (Q : list (list D)) (tc : list D -> list D -> list (list K)) js :
  (forall a b c : K, clt c cinf = true -> clt a b = true -> clt (cadd c a) (cadd c b) = true) ->
  (forall d1 d2, In d1 Q -> In d2 Q -> has_dims (tc d1 d2) (length d1) (length d2) /\
     Forall (Forall (fun x => clt x cinf = true)) (tc d1 d2)) ->
  in_range Q js ->
  (forall js', in_range Q js' -> cle (stage_cost tc Q js) (stage_cost tc Q js')) ->
  suffix_optimal tc Q js.
Proof.
  intros strict Hfin Hin Hopt.
  assert (Hopt' : forall js', in_range Q js' -> hd_error js' = hd_error js ->
                              cle (stage_cost tc Q js) (stage_cost tc Q js')) by auto.
  clear Hopt. revert js Hin Hopt'.
  induction Q as [|d Q IH]; intros js Hin Hopt.
  - intros k js' Hin' Hhd. rewrite skipn_nil in *. apply cle_refl.
  - intros [|k] js' Hin' Hhd; [apply Hopt; auto|].
    destruct js as [|j js]; [simpl in Hin; tauto|]. destruct Hin as [Hj Hin].
    cbn [skipn] in *.
    apply (IH ltac:(intros; apply Hfin; simpl; auto) js Hin); auto.
    clear k js' Hin' Hhd. intros js' Hin' Hhd.
    destruct Q as [|d2 Q]; [apply cle_refl|].
    destruct js as [|j2 js]; [simpl in Hin; tauto|].
    destruct js' as [|j2' js']; [simpl in Hin'; tauto|].
    simpl in Hhd. injection Hhd as ->.
    specialize (Hopt (j :: j2 :: js') ltac:(simpl; simpl in Hin'; tauto) eq_refl).
    rewrite !stage_cost_cons in Hopt.
    unfold cle in *. match goal with |- ?x = false => destruct x eqn:E end; auto.
    assert (He : clt (entry (tc d d2) j j2) cinf = true).
    { destruct (Hfin d d2) as [[Hd1 Hd2] Hf]; [simpl; auto|simpl; auto|]. unfold entry.
      rewrite Forall_forall in Hf, Hd2.
      assert (Hi : In (nth j (tc d d2) []) (tc d d2)) by (apply nth_In; lia).
      specialize (Hf _ Hi). rewrite Forall_forall in Hf. apply Hf.
      apply nth_In. rewrite (Hd2 _ Hi). simpl in Hin; tauto. }
    pose proof (strict _ _ _ He E). congruence.
Qed.

Lemma shortest_path_lex_exact {D} (Q : list (list D)) (f : list D -> list D -> matrix K) r :
  (forall a b c : K, clt c cinf = true -> clt a b = true -> clt (cadd c a) (cadd c b) = true) ->
  2 <= length Q -> Forall (fun c => c <> []) Q -> shaped Q f ->
  (forall d1 d2, In d1 Q -> In d2 Q -> Forall (Forall (fun x => clt x cinf = true)) (m_rows (f d1 d2))) ->
  shortest_path Q f = Ok r ->
  exists js, picks Q js (dp_path _ r) /\
    stage_cost (tc_rows f) Q js = dp_length _ r /\
    forall js', in_range Q js' -> cle (stage_cost (tc_rows f) Q js') (dp_length _ r) -> lex_le js js'.
Proof.
  intros Hstr Hl Hne Hs Hfin Hr.
  destruct (shortest_path_lex Q f r Hl Hne Hs Hr) as (js & Hpk & Hc & Hlex).
  exists js. split; [exact Hpk|]. split; [exact Hc|]. intros js' Hin' Hcost.
  apply Hlex; auto.
  destruct (shortest_path_spec Q f Hl Hne Hs)
    as (_ & _ & _ & _ & _ & js2 & path & len & _ & _ & _ & Hsp & _ & _ & _ & Hopt).
  rewrite Hsp in Hr. injection Hr as <-. simpl in Hcost.
  apply optimal_suffix; auto.
  - intros d1 d2 H1 H2. split; [apply Hs; auto|apply Hfin; auto].
  - intros js3 H3. eapply cle_trans; [exact Hcost|auto].
Qed.

(** ** every entry of the value function *)
Fixpoint suffix_value (tcs : list (matrix K)) (vs : list (list K)) (n : nat) (ns : list nat) : Prop :=
  match vs with
  | [] => False
  | v :: vs' =>
      length v = n /\
      (forall j, j < n ->
         (exists js, in_dims (n :: ns) (j :: js) /\ route_cost (map m_rows tcs) (j :: js) = nth j v czero) /\
         (forall js, in_dims (n :: ns) (j :: js) -> cle (nth j v czero) (route_cost (map m_rows tcs) (j :: js)))) /\
      match tcs, ns with
      | [], _ => vs' = [] /\ v = repeat czero n
      | _ :: tcs', n' :: ns' => suffix_value tcs' vs' n' ns'
      | _, _ => False
      end
  end.

Lemma bellman_suffix tcs : forall n ns, chain tcs n ns ->
  exists vis vs, bellman_loop tcs (last (n :: ns) 0) = Ok (vis, vs) /\ suffix_value tcs vs n ns.
Proof.
  induction tcs as [|c tcs IH]; intros n ns Hc.
  - destruct ns; simpl in Hc; [|tauto].
    exists [repeat 0 n], [zeros n]. split; [reflexivity|]. simpl. unfold zeros. rewrite repeat_length.
    repeat split; auto.
    + exists []. simpl. rewrite nth_repeat; auto.
    + intros js _. rewrite nth_repeat. apply cle_refl.
  - destruct (bellman_loop_spec _ _ _ Hc) as (vi & vis & v & vs & Heq & Hlv & _ & _ & _ & Hj).
    destruct ns as [|n' ns]; simpl in Hc; [tauto|].
    destruct Hc as (Hn & Hcols & Hdims & Hch).
    destruct (IH n' ns Hch) as (vis2 & vs2 & Heq2 & Hsv).
    exists (vi :: vis), (v :: vs). split; [exact Heq|].
    cbn [suffix_value]. split; [auto|]. split.
    + intros j Hjn. destruct (Hj j Hjn) as (js & Ht & Hin & Hhd & Hval & Hopt).
      destruct js as [|j0 js]; [simpl in Hin; tauto|]. simpl in Hhd; subst j0.
      split; [exists js; auto|]. intros js' Hjs'. apply Hopt; auto.
    + cbn [bellman_loop] in Heq. change (last (n :: n' :: ns) 0) with (last (n' :: ns) 0) in Heq.
      rewrite Heq2 in Heq. cbn [bind] in Heq. destruct vs2 as [|v2 vs2]; [discriminate|].
      destruct (bellman_step c v2) as [[vi3 v3]| |]; cbn [bind] in Heq; try discriminate.
      injection Heq as _ _ _ <-. exact Hsv.
Qed.

Lemma suffix_value_nth (tcs : list (matrix K)) : forall vs n ns, suffix_value tcs vs n ns -> length tcs = length ns ->
  length vs = S (length tcs) /\
  forall k v, nth_error vs k = Some v ->
    length v = nth k (n :: ns) 0 /\
    (forall j, j < nth k (n :: ns) 0 ->
       (exists js, in_dims (skipn k (n :: ns)) (j :: js) /\
          route_cost (map m_rows (skipn k tcs)) (j :: js) = nth j v czero) /\
       (forall js, in_dims (skipn k (n :: ns)) (j :: js) ->
          cle (nth j v czero) (route_cost (map m_rows (skipn k tcs)) (j :: js)))) /\
    (k = length tcs -> v = repeat czero (nth k (n :: ns) 0)).
Proof.
  induction tcs as [|c tcs IH]; intros vs n ns H Hl; destruct vs as [|v0 vs]; try contradiction.
  - destruct ns; [|discriminate]. cbn [suffix_value] in H. destruct H as (H1 & H2 & H3 & H4).
    subst vs. split; [reflexivity|]. intros [|k] v Hv; [|destruct k; discriminate].
    injection Hv as <-. split; [exact H1|]. split; [exact H2|]. intros _; exact H4.
  - destruct ns as [|n' ns]; [discriminate|].
    change (length v0 = n /\
      (forall j, j < n ->
         (exists js, in_dims (n :: n' :: ns) (j :: js) /\ route_cost (map m_rows (c :: tcs)) (j :: js) = nth j v0 czero) /\
         (forall js, in_dims (n :: n' :: ns) (j :: js) -> cle (nth j v0 czero) (route_cost (map m_rows (c :: tcs)) (j :: js)))) /\
      suffix_value tcs vs n' ns) in H.
    destruct H as (H1 & H2 & H3).
    injection Hl as Hl. destruct (IH vs n' ns H3 Hl) as (Hlen & Hall).
    split; [simpl; lia|]. intros [|k] v Hv.
    + injection Hv as <-. split; [exact H1|]. split; [exact H2|]. simpl; lia.
    + simpl in Hv. destruct (Hall k v Hv) as (P1 & P2 & P3).
      split; [exact P1|]. split; [exact P2|]. intros E. apply P3. simpl in E; lia.
Qed.

Lemma chain_of_sizes tcs : forall n ns, length ns = length tcs -> Forall (fun m => 0 < m) (n :: ns) ->
  (forall k c, nth_error tcs k = Some c ->
     m_cols c = nth (S k) (n :: ns) 0 /\ has_dims (m_rows c) (nth k (n :: ns) 0) (nth (S k) (n :: ns) 0)) ->
  chain tcs n ns.
Proof.
  induction tcs as [|c tcs IH]; intros n [|n' ns] Hl Hp Hs; try discriminate.
  - simpl. exact (Forall_inv Hp).
  - simpl. split; [exact (Forall_inv Hp)|].
    destruct (Hs 0 c eq_refl) as [H1 H2]. split; [exact H1|]. split; [exact H2|].
    apply IH; [simpl in Hl; lia|exact (Forall_inv_tail Hp)|].
    intros k c' Hk. exact (Hs (S k) c' Hk).
Qed.

Lemma chain_last tcs : forall n ns, chain tcs n ns -> tcs <> [] ->
  exists c, py_last tcs = Ok c /\ m_cols c = last (n :: ns) 0.
Proof.
  induction tcs as [|c [|c2 tcs] IH]; intros n ns H Hne; [congruence| |].
  - destruct ns as [|n' [|]]; simpl in H; try tauto. exists c. split; [reflexivity|]. simpl. tauto.
  - destruct ns as [|n' ns]; [destruct H|]. destruct H as (H1 & H2 & H3 & H4).
    destruct (IH n' ns H4) as (c' & Hc' & Hl'); [discriminate|].
    exists c'. split; [|exact Hl'].
    unfold py_last in *. cbn [rev] in *.
    destruct (rev tcs ++ [c2]) eqn:E; [destruct (rev tcs); discriminate|]. exact Hc'.
Qed.

Lemma value_function_spec (tcs : list (matrix K)) sizes : tcs <> [] -> length sizes = S (length tcs) ->
  Forall (fun n => 0 < n) sizes ->
  (forall k c, nth_error tcs k = Some c ->
     m_cols c = nth (S k) sizes 0 /\ has_dims (m_rows c) (nth k sizes 0) (nth (S k) sizes 0)) ->
  exists v_ind v, calculate_value_function tcs = Ok (v_ind, v) /\ length v = length sizes /\
    forall k vk, nth_error v k = Some vk ->
      length vk = nth k sizes 0 /\
      (forall j, j < nth k sizes 0 ->
         (exists js, in_dims (skipn k sizes) (j :: js) /\
            route_cost (map m_rows (skipn k tcs)) (j :: js) = nth j vk czero) /\
         (forall js, in_dims (skipn k sizes) (j :: js) ->
            cle (nth j vk czero) (route_cost (map m_rows (skipn k tcs)) (j :: js)))) /\
      (k = length tcs -> vk = repeat czero (nth k sizes 0)).
Proof.
  intros Hne Hl Hp Hs. destruct sizes as [|n ns]; [discriminate|].
  simpl in Hl. injection Hl as Hl.
  pose proof (chain_of_sizes tcs n ns Hl Hp Hs) as Hch.
  destruct (bellman_suffix tcs n ns Hch) as (vis & vs & Heq & Hsv).
  destruct (chain_last tcs n ns Hch Hne) as (c & Hc & Hcols).
  destruct (suffix_value_nth tcs vs n ns Hsv (eq_sym Hl)) as (Hlen & Hall).
  exists vis, vs. split.
  { unfold calculate_value_function. rewrite Hc. cbn [bind]. rewrite Hcols. exact Heq. }
  split; [simpl; lia|exact Hall].
Qed.

(** ** rejected inputs *)
Lemma shortest_path_short {D} (Q : list (list D)) (f : list D -> list D -> matrix K) :
  length Q <= 1 -> shortest_path Q f = Raise IndexError.
Proof. destruct Q as [|d [|d2 Q]]; simpl; intros H; try reflexivity; lia. Qed.

Lemma row_add_same (row v : list K) : length row = length v -> row_add row v = Ok (zip_add row v).
Proof. intros H; unfold row_add. rewrite H, Nat.eqb_refl. reflexivity. Qed.

Lemma bellman_step_any (c : matrix K) n n' (v : list K) : has_dims (m_rows c) n n' -> m_cols c = n' -> length v = n' ->
  (n' = 0 /\ bellman_step c v = Raise ValueError) \/
  (0 < n' /\ exists vi w, bellman_step c v = Ok (vi, w) /\ length w = n).
Proof.
  intros Hd Hc Hv. destruct n' as [|n'].
  - left. split; auto. unfold bellman_step. destruct Hd as [Hn Hr].
    assert (Hrhs : mapM (fun row => row_add row v) (m_rows c)
                   = Ok (map (fun row => zip_add row v) (m_rows c))).
    { clear Hn. induction Hr as [|r rs Hr1 Hr IH]; simpl; auto.
      rewrite row_add_same by lia. simpl. rewrite IH. reflexivity. }
    rewrite Hrhs. simpl. rewrite Hc. reflexivity.
  - right. split; [lia|].
    destruct (bellman_step_spec c n (S n') v Hd Hc ltac:(lia) Hv) as (vi & w & Hw & _ & Hlw & _).
    eauto.
Qed.

Lemma bellman_empty {D} (f : list D -> list D -> matrix K) : forall Q d,
  shaped (d :: Q) f ->
  (Exists (fun c => c = []) Q /\
   bellman_loop (apply_cost_function (d :: Q) f) (last (map (@length D) (d :: Q)) 0) = Raise ValueError) \/
  (Forall (fun c => c <> []) Q /\ exists vi vis v vs,
   bellman_loop (apply_cost_function (d :: Q) f) (last (map (@length D) (d :: Q)) 0) = Ok (vi :: vis, v :: vs)
   /\ length v = length d).
Proof.
  induction Q as [|d2 Q IH]; intros d Hs.
  - right. split; [constructor|]. simpl. unfold zeros.
    exists (repeat 0 (length d)), [], (repeat czero (length d)), []. rewrite repeat_length. auto.
  - assert (Hs2 : shaped (d2 :: Q) f) by (intros a b Ha Hb; apply Hs; simpl in *; tauto).
    rewrite acf_cons. cbn [bellman_loop].
    change (last (map (@length D) (d :: d2 :: Q)) 0) with (last (map (@length D) (d2 :: Q)) 0).
    destruct (Hs d d2) as (H1 & H2); [simpl; auto|simpl; auto|].
    destruct (IH d2 Hs2) as [(He & Heq)|(Hne & vi & vis & v & vs & Heq & Hlv)]; rewrite Heq; cbn [bind].
    + left. split; [apply Exists_cons_tl; auto|reflexivity].
    + destruct (bellman_step_any _ _ _ v H2 H1 Hlv) as [(H0 & Hst)|(H0 & wi & w & Hst & Hlw)]; rewrite Hst; cbn [bind].
      * left. split; [|reflexivity]. apply Exists_cons_hd. destruct d2; [auto|simpl in H0; lia].
      * right. split. { constructor; auto. destruct d2; [simpl in H0; lia|congruence]. }
        exists wi, (vi :: vis), w, (v :: vs). auto.
Qed.

Lemma shortest_path_empty {D} (Q : list (list D)) (f : list D -> list D -> matrix K) :
  2 <= length Q -> shaped Q f -> In [] Q -> shortest_path Q f = Raise ValueError.
Proof.
  intros Hl Hs He. destruct Q as [|d [|d2 Q]]; simpl in Hl; try lia.
  destruct (last_map_length Q d d2 f Hs) as (c & Hc & Hcols).
  unfold shortest_path, calculate_value_function. rewrite Hc. cbn [bind]. rewrite Hcols.
  change (length d :: map (@length D) (d2 :: Q)) with (map (@length D) (d :: d2 :: Q)).
  destruct (bellman_empty f (d2 :: Q) d Hs) as [(_ & Heq)|(Hne & vi & vis & v & vs & Heq & Hlv)];
    rewrite Heq; cbn [bind]; [reflexivity|].
  destruct He as [->|He].
  - destruct v; [|discriminate]. reflexivity.
  - exfalso. rewrite Forall_forall in Hne. apply (Hne [] He eq_refl).
Qed.
End Proofs.

(** ** statements used by PropDp *)
Lemma dp_optimal (K : CostStruct) (D : Type) (Q : list (list D)) (f : list D -> list D -> matrix K) :
  2 <= length Q -> Forall (fun stage => stage <> []) Q -> shaped Q f ->
  exists r, shortest_path Q f = Ok r /\ dp_success _ r = true /\
    forall js, in_range Q js -> cle (dp_length _ r) (stage_cost (tc_rows f) Q js).
Proof.
  intros Hl Hne Hs.
  destruct (shortest_path_spec Q f Hl Hne Hs)
    as (_ & _ & _ & _ & _ & js & path & len & _ & _ & _ & Hsp & _ & _ & _ & Hopt).
  eexists; split; [exact Hsp|]. split; [reflexivity|exact Hopt].
Qed.

Lemma dp_realises (K : CostStruct) (D : Type) (Q : list (list D)) (f : list D -> list D -> matrix K) r :
  2 <= length Q -> Forall (fun stage => stage <> []) Q -> shaped Q f ->
  shortest_path Q f = Ok r ->
  exists js, in_range Q js /\ picks Q js (dp_path _ r) /\ stage_cost (tc_rows f) Q js = dp_length _ r.
Proof.
  intros Hl Hne Hs Hr.
  destruct (shortest_path_spec Q f Hl Hne Hs)
    as (_ & _ & _ & _ & _ & js & path & len & _ & _ & _ & Hsp & Hpk & Hir & Hc & _).
  rewrite Hsp in Hr. injection Hr as <-. exists js. auto.
Qed.

Lemma dp_rejects (K : CostStruct) (D : Type) (Q : list (list D)) (f : list D -> list D -> matrix K) :
  (length Q <= 1 -> shortest_path Q f = Raise IndexError) /\
  (2 <= length Q -> In [] Q -> shaped Q f -> shortest_path Q f = Raise ValueError).
Proof.
  split; [apply shortest_path_short|]. intros; apply shortest_path_empty; auto.
Qed.

Lemma strict_instances :
  (forall a b c : ZCost, clt c cinf = true -> clt a b = true -> clt (cadd c a) (cadd c b) = true) /\
  (forall a b c : RCost, clt c cinf = true -> clt a b = true -> clt (cadd c a) (cadd c b) = true).
Proof.
  split; intros [a|] [b|] [c|] H1 H2; simpl in *; try discriminate; auto.
  - apply Z.ltb_lt in H2. apply Z.ltb_lt. lia.
  - apply rltb_true in H2. apply rltb_true. lra.
Qed.

(** Example data: |x - y| over integers. *)
Definition dp_ex_f (d1 d2 : list Z) : matrix ZCost :=
  {| m_cols := length d2;
     m_rows := map (fun x => map (fun y => Some (Z.abs (x - y)) : ZCost) d2) d1 |}.
Definition dp_ex_Q : list (list Z) := [[7; 2]; [9; 0; 3]; [3; 4]]%Z.

Lemma dp_ex_shaped Q : shaped Q dp_ex_f.
Proof.
  intros d1 d2 _ _. split; [reflexivity|]. split; simpl.
  - apply map_length.
  - apply Forall_forall. intros r Hr. apply in_map_iff in Hr. destruct Hr as (x & <- & _). apply map_length.
Qed.

Lemma dp_ex_ok :
  2 <= length dp_ex_Q /\ Forall (fun stage => stage <> []) dp_ex_Q /\ shaped dp_ex_Q dp_ex_f /\
  shortest_path dp_ex_Q dp_ex_f =
    Ok {| dp_success := true; dp_path := [2; 3; 3]%Z; dp_length := Some 1%Z : ZCost |}.
Proof.
  split; [simpl; lia|]. split; [repeat constructor; discriminate|]. split; [apply dp_ex_shaped|].
  vm_compute. reflexivity.
Qed.

Lemma dp_ex_tie :
  shortest_path [[0; 0]; [1; 1]; [2; 2]]%Z dp_ex_f =
    Ok {| dp_success := true; dp_path := [0; 1; 2]%Z; dp_length := Some 2%Z : ZCost |}.
Proof. vm_compute. reflexivity. Qed.

Lemma dp_ex_sizes :
  let tcs := apply_cost_function dp_ex_Q dp_ex_f in
  tcs <> [] /\ length [2; 3; 2] = S (length tcs) /\ Forall (fun n => 0 < n) [2; 3; 2] /\
  (forall k c, nth_error tcs k = Some c ->
     m_cols c = nth (S k) [2; 3; 2] 0 /\
     has_dims (m_rows c) (nth k [2; 3; 2] 0) (nth (S k) [2; 3; 2] 0)).
Proof.
  cbv zeta. split; [discriminate|]. split; [reflexivity|]. split; [repeat constructor|].
  intros [|[|k]] c Hc; simpl in Hc; try (destruct k; discriminate);
    injection Hc as <-; simpl; repeat constructor.
Qed.

(** An infinite first transition makes every sequence tie; the second stage
    still prefers its own cheapest continuation. *)
Definition dp_inf_f (d1 d2 : list nat) : matrix ZCost :=
  {| m_cols := length d2;
     m_rows := map (fun x => map (fun y => (if Nat.eqb x 0 then None else Some (Z.of_nat y)) : cost ZCost) d2) d1 |}.

Lemma dp_lex_inf_witness :
  exists (Q : list (list nat)) (f : list nat -> list nat -> matrix ZCost) r,
  2 <= length Q /\ Forall (fun stage => stage <> []) Q /\ shaped Q f /\
  shortest_path Q f = Ok r /\
  exists js js', picks Q js (dp_path _ r) /\ in_range Q js' /\
    (forall js2, picks Q js2 (dp_path _ r) -> js2 = js) /\
    cle (stage_cost (tc_rows f) Q js') (dp_length _ r) /\ ~ lex_le js js'.
Proof.
  exists [[0]; [1]; [5; 3]], dp_inf_f.
  exists {| dp_success := true; dp_path := [0; 1; 3]; dp_length := None : ZCost |}.
  split; [simpl; lia|]. split; [repeat constructor; discriminate|]. split.
  { intros d1 d2 _ _. split; [reflexivity|]. split; simpl; [apply map_length|].
    apply Forall_forall. intros r Hr. apply in_map_iff in Hr. destruct Hr as (x & <- & _). apply map_length. }
  split; [vm_compute; reflexivity|].
  exists [0; 0; 1], [0; 0; 0]. split; [simpl; auto|]. split; [simpl; lia|]. split.
  { intros [|a [|b [|c [|]]]] H; simpl in H; try tauto.
    - destruct H as (Ha & Hb & Hc & _).
      destruct a as [|[|]]; try discriminate. destruct b as [|[|]]; try discriminate.
      destruct c as [|[|[|]]]; try discriminate. reflexivity. }
  split; [reflexivity|].
  intros H. repeat match goal with H : lex_le (_ :: _) (_ :: _) |- _ => inversion H; clear H; subst end; lia.
Qed.
