(** * Proofs about NaN costs. *)
From Coq Require Import List Arith ZArith Lia Bool.
From Verif Require Import PyBase Cost SpecPath GraphCommon PyGraph PyGraphProofs PyGraphMain CppGraph CppGraphProofs CppSearch
  CppMain CppExamples CppFinal Dp DpProofs Nan.
Import ListNotations.

(** The cost with NaN and the cost without agree: same number, or NaN against
    a value that is not below infinity, or the same exception. *)
Definition agree {K : CostStruct} (r : res (fl K)) (r' : res K) : Prop :=
  match r with
  | Ok (Num x) => r' = Ok x
  | Ok NaN => exists y, r' = Ok y /\ clt y cinf = false
  | Raise e => r' = Raise e
  | OutOfFuel => r' = OutOfFuel
  end.

Section Common.
Context {K : CostStruct} {D : Type}.

Lemma above_add (d y : K) : clt y cinf = false -> clt (cadd d y) cinf = false.
Proof.
  intros H. pose proof (cadd_inf_r K d) as H2. pose proof (cadd_mono_r K y cinf d H) as H3.
  exact (cle_trans cinf (cadd d cinf) (cadd d y) H2 H3).
Qed.

Lemma above_add_l (d y : K) : clt y cinf = false -> clt (cadd y d) cinf = false.
Proof.
  intros H. pose proof (cadd_inf K d) as H2. pose proof (cadd_mono_l K y cinf d H) as H3.
  exact (cle_trans cinf (cadd cinf d) (cadd y d) H2 H3).
Qed.

Lemma above_lt (y d : K) : clt y cinf = false -> clt y d = false.
Proof.
  intros H. destruct (clt y d) eqn:E; auto.
  pose proof (clt_le_trans y d cinf E (cle_inf d)). congruence.
Qed.

Lemma frelax1_eq (fc : D -> D -> res (fl K)) (c : D -> D -> res K) push cur st nb :
  (forall x y, agree (fc x y) (c x y)) -> frelax1 fc push cur st nb = relax1 c push cur st nb.
Proof.
  intros H. destruct st as [na q]. unfold frelax1, relax1.
  destruct (deref na cur) as [ncur| |]; cbn [bind]; auto.
  destruct (deref na nb) as [nnb| |]; cbn [bind]; auto.
  specialize (H (n_data ncur) (n_data nnb)). unfold agree in H.
  destruct (fc (n_data ncur) (n_data nnb)) as [[x|]| |].
  - rewrite H. reflexivity.
  - destruct H as (y & Hy & Hi). rewrite Hy. cbn [bind fadd].
    rewrite (above_lt _ (n_dist nnb) (above_add (n_dist ncur) y Hi)). reflexivity.
  - rewrite H. reflexivity.
  - rewrite H. reflexivity.
Qed.

Lemma foldM_ext {A S} (f g : S -> A -> res S) : (forall s x, f s x = g s x) -> forall l s, foldM f l s = foldM g l s.
Proof.
  intros H. induction l as [|x l IH]; intros s; cbn; auto. rewrite H. destruct (g s x); cbn; auto.
Qed.

Lemma bfs_loop_ext (e1 e2 : narr K D -> list ref -> ref -> res (narr K D * list ref)) :
  (forall a q c, e1 a q c = e2 a q c) -> forall fuel a q, bfs_loop e1 fuel a q = bfs_loop e2 fuel a q.
Proof.
  intros H. induction fuel as [|fuel IH]; intros a [|c q]; cbn [bfs_loop]; auto.
  rewrite H. destruct (e2 a q c) as [[a' q']| |]; cbn [bind]; auto.
Qed.
End Common.

(** ** pygraph.py *)
Section Py.
Context {K : CostStruct} {D : Type} (fc : D -> D -> res (fl K)) (c : D -> D -> res K).
Context (Hag : forall x y, agree (fc x y) (c x y)).

Lemma freachable_eq na m n nb : freachable fc na m n nb = reachable c na m n nb.
Proof.
  induction nb as [|r nb IH]; cbn [freachable reachable]; auto.
  destruct (deref na r) as [x| |]; cbn [bind]; auto. rewrite IH.
  specialize (Hag (n_data n) (n_data x)). unfold agree in Hag.
  destruct (fc (n_data n) (n_data x)) as [[v|]| |].
  - rewrite Hag. reflexivity.
  - destruct Hag as (y & Hy & Hi). rewrite Hy. cbn [bind flt].
    rewrite (above_lt y m Hi). reflexivity.
  - rewrite Hag. reflexivity.
  - rewrite Hag. reflexivity.
Qed.

Lemma fexpand_eq L m a q r : fexpand fc L m a q r = expand c L m a q r.
Proof.
  unfold fexpand, expand. destruct (deref a r) as [n| |]; cbn [bind]; auto.
  destruct (get_neighbours L a n) as [nb| |]; cbn [bind]; auto.
  rewrite freachable_eq. destruct (reachable c a m n nb); cbn [bind]; auto.
  apply foldM_ext. intros. apply frelax1_eq; auto.
Qed.

Lemma frun_eq m start g : frun_multi_source_bfs fc m start g = run_multi_source_bfs c m start g.
Proof.
  unfold frun_multi_source_bfs, run_multi_source_bfs.
  destruct (nth_error (g_na (reset g)) start); auto.
  rewrite (bfs_loop_ext _ (expand c (g_path_length (reset g)) m)); auto using fexpand_eq.
Qed.

Lemma fget_eq data : fget_shortest_path fc data = get_shortest_path c data.
Proof. unfold fget_shortest_path, get_shortest_path. rewrite frun_eq. reflexivity. Qed.
End Py.

Section Walk.
Context {K : CostStruct} {D : Type} (ct : D -> D -> fl K) (cy : D -> D -> K).
(** [cy] gives the same numbers and is not below infinity where [ct] is NaN. *)
Definition near (x y : D) : Prop := match ct x y with Num v => cy x y = v | NaN => clt (cy x y) cinf = false end.

Fixpoint steps (P : D -> D -> Prop) (p : list D) : Prop :=
  match p with x :: ((y :: _) as p') => P x y /\ steps P p' | _ => True end.

Lemma walk_above (f : D -> D -> K) p : forall acc x, clt acc cinf = false -> clt (walk_cost_from f acc x p) cinf = false.
Proof. induction p as [|y p IH]; intros acc x H; cbn; auto. apply IH. apply above_add_l; auto. Qed.

Lemma walk_free p : forall acc x, steps near (x :: p) -> clt (walk_cost_from cy acc x p) cinf = true -> nan_free ct (x :: p).
Proof.
  induction p as [|y p IH]; intros acc x Hs Hc; cbn [nan_free]; auto.
  destruct Hs as [H1 H2]. cbn [walk_cost_from] in Hc. split; [|exact (IH _ _ H2 Hc)].
  intros E. unfold near in H1. rewrite E in H1.
  rewrite walk_above in Hc; [discriminate|]. apply above_add; auto.
Qed.

Lemma walk_same p : forall acc x, steps near (x :: p) -> nan_free ct (x :: p) ->
  walk_cost_from cy acc x p = walk_cost_from (fun x y => as_inf (ct x y)) acc x p.
Proof.
  induction p as [|y p IH]; intros acc x Hs Hf; cbn [walk_cost_from]; auto.
  destruct Hs as [H1 H2]. destruct Hf as [H3 H4]. rewrite IH; auto. f_equal. f_equal.
  unfold near in H1. destruct (ct x y); [auto|congruence].
Qed.

Lemma free_of_finite p : steps near p -> clt (walk_cost cy p) cinf = true -> nan_free ct p.
Proof. destruct p; cbn [walk_cost]; [cbn; auto|]. apply walk_free. Qed.
Lemma same_cost p : steps near p -> nan_free ct p -> walk_cost cy p = walk_cost (fun x y => as_inf (ct x y)) p.
Proof. destruct p; cbn [walk_cost]; auto. apply walk_same. Qed.
End Walk.

Lemma picks_steps {D} (P : D -> D -> Prop) (data : list (list D)) : (forall x y, adjacent data x y -> P x y) ->
  forall js p, picks data js p -> steps P p.
Proof.
  induction data as [|col data IH]; intros HP [|j js] [|x p] Hp; cbn [picks] in Hp; try contradiction; cbn [steps]; auto.
  destruct Hp as [Hx Hp]. destruct p as [|y p]; auto. split.
  - apply HP. destruct data as [|col2 data]; [destruct js; contradiction|]. destruct js as [|j2 js]; [contradiction|].
    destruct Hp as [Hy _]. exists 0, col, col2. split; [reflexivity|]. split; [reflexivity|].
    split; eauto using nth_error_In.
  - apply (IH) with (js := js); auto. intros u v (i & c1 & c2 & H1 & H2 & H3). apply HP. exists (S i), c1, c2. auto.
Qed.

(** pygraph: the result with NaN costs *)
Lemma nan_py (K : CostStruct) (D : Type) (fc : D -> D -> res (fl K)) (ct : D -> D -> fl K) (data : list (list D)) :
  data <> [] -> (forall x y, adjacent data x y -> fc x y = Ok (ct x y)) ->
  (exists path c, fget_shortest_path fc data = Ok (SpOk path c) /\ (exists js, picks data js path) /\
     nan_free ct path /\ c = walk_cost (fun x y => as_inf (ct x y)) path /\
     forall js p, picks data js p -> nan_free ct p -> cle c (walk_cost (fun x y => as_inf (ct x y)) p)) \/
  (fget_shortest_path fc data = Ok SpFail /\
     forall js p, picks data js p -> nan_free ct p -> clt (walk_cost (fun x y => as_inf (ct x y)) p) cinf = false).
Proof.
  intros Hne Hfc.
  set (c := fun x y => match fc x y with Ok v => Ok (as_inf v) | Raise e => Raise e | OutOfFuel => OutOfFuel end).
  set (cy := fun x y => as_inf (ct x y)).
  assert (Hag : forall x y, agree (fc x y) (c x y)).
  { intros x y. unfold agree, c. destruct (fc x y) as [[v|]| |]; auto. exists cinf. split; auto. apply clt_irrefl. }
  assert (Hc : forall x y, adjacent data x y -> c x y = Ok (cy x y)).
  { intros x y H. unfold c, cy. rewrite (Hfc x y H). reflexivity. }
  assert (Hnear : forall js p, picks data js p -> steps (near ct cy) p).
  { apply picks_steps. intros x y _. unfold near, cy. destruct (ct x y); cbn; auto. apply clt_irrefl. }
  rewrite (fget_eq fc c Hag).
  destruct (pg_fails_iff K D c cy data Hne Hc) as (r & Hr & Hiff). rewrite Hr. destruct r as [|path v].
  - right. split; auto. intros js p Hp _. exact (proj1 Hiff eq_refl js p Hp).
  - left. exists path, v. split; auto.
    destruct (pg_agree K D c cy data path v Hc Hr) as [[js Hjs] Hw]. split; [eauto|].
    assert (Hopt : forall js p, picks data js p -> cle v (walk_cost cy p)) by (apply (pg_optimal K D c cy data path v Hc Hr)).
    assert (Hfin : clt v cinf = true).
    { destruct (clt v cinf) eqn:E; auto. assert (Hf : @SpOk K D path v = SpFail); [|discriminate].
      apply Hiff. intros js' p' Hp'. pose proof (Hopt js' p' Hp') as Hle. destruct (clt (walk_cost cy p') cinf) eqn:E2; auto.
      pose proof (cle_lt_trans _ _ _ Hle E2). congruence. }
    split; [|split].
    + apply (free_of_finite ct cy path (Hnear _ _ Hjs)). rewrite Hw. exact Hfin.
    + symmetry. exact Hw.
    + intros js' p' Hp' _. exact (Hopt js' p' Hp').
Qed.

(** ** graph.cpp *)
Section Cpp.
Context {K : CostStruct} {F : Type} (fsq : K -> F -> F -> F -> fl K).
(** an accumulator that is not below infinity stays so *)
Context (Hsq : forall acc w a b, clt acc cinf = false -> clt (as_inf (fsq acc w a b)) cinf = false).
Definition isq (acc : K) (w a b : F) : K := as_inf (fsq acc w a b).

Lemma cost2_agree w : forall n1 n2 (acc : fl K) acc',
  match acc with Num a => acc' = a | NaN => clt acc' cinf = false end ->
  agree (fcost2_loop fsq w n1 n2 acc) (cost2_loop isq w n1 n2 acc').
Proof.
  induction w as [|wi w IH]; intros [|x n1] n2 acc acc' H; cbn [fcost2_loop cost2_loop].
  - unfold agree. destruct acc; [congruence|eauto].
  - reflexivity.
  - unfold agree. destruct acc; [congruence|eauto].
  - destruct n2 as [|y n2]; [reflexivity|]. apply IH. destruct acc as [a|].
    + subst acc'. unfold isq. destruct (fsq a wi x y); cbn; auto. apply clt_irrefl.
    + apply Hsq. exact H.
Qed.

Lemma cost2_agree0 w n1 n2 : agree (fcost2 fsq w n1 n2) (cost2 isq w n1 n2).
Proof. apply cost2_agree. reflexivity. Qed.

Lemma fcexpand_eq w push a q c : fcexpand fsq w push a q c = cexpand isq w push a q c.
Proof.
  unfold fcexpand, cexpand. destruct (deref a c) as [n| |]; cbn [bind]; auto.
  destruct (get_neighbors a n); cbn [bind]; auto. apply foldM_ext. intros. apply frelax1_eq. intros. apply cost2_agree0.
Qed.

Lemma fbfs_eq w a : fmulti_source_bfs fsq w a = multi_source_bfs isq w a.
Proof. destruct a; [reflexivity|]. apply bfs_loop_ext. intros. apply fcexpand_eq. Qed.

Lemma fdij_loop_eq pq w maxp : forall fuel a q g, fdij_loop fsq pq w maxp fuel a q g = dij_loop isq pq w maxp fuel a q g.
Proof.
  induction fuel as [|fuel IH]; intros a q [|g]; cbn [fdij_loop dij_loop]; auto.
  destruct (pq_pop pq a q) as [[cur q']|]; auto. destruct (deref a cur) as [n| |]; cbn [bind]; auto.
  rewrite fcexpand_eq. destruct (cexpand isq w (pq_push pq) a q' cur) as [[a' q'']| |]; cbn [bind]; auto.
Qed.

Lemma fdij_eq pq w maxp g a : fmulti_source_dijkstra fsq pq w maxp g a = multi_source_dijkstra isq pq w maxp g a.
Proof. destruct a; [reflexivity|]. apply fdij_loop_eq. Qed.

Lemma path_cost_agree w a : forall rest prev acc acc',
  match acc with Num v => acc' = v | NaN => clt acc' cinf = false end ->
  agree (fpath_cost_loop fsq w a prev rest acc) (path_cost_loop isq w a prev rest acc').
Proof.
  induction rest as [|p rest IH]; intros prev acc acc' H; cbn [fpath_cost_loop path_cost_loop].
  - unfold agree. destruct acc; [congruence|eauto].
  - destruct (pt_data a p) as [x| |]; cbn [bind]; try reflexivity.
    destruct (pt_data a prev) as [y| |]; cbn [bind]; try reflexivity.
    pose proof (cost2_agree0 w x y) as Hc. unfold agree in Hc.
    destruct (fcost2 fsq w x y) as [[v|]| |].
    + rewrite Hc. cbn [bind]. apply IH. destruct acc as [u|]; cbn; [congruence|]. apply above_add_l; auto.
    + destruct Hc as (z & Hz & Hi). rewrite Hz. cbn [bind]. apply IH.
      destruct acc; cbn; apply above_add; auto.
    + rewrite Hc. reflexivity.
    + rewrite Hc. reflexivity.
Qed.

(** Same node array, path and flags; the cost agrees. *)
Definition same_run (r : res (cgraph K F * fl K)) (r' : res (cgraph K F)) : Prop :=
  match r with
  | Ok (s, c) => exists s', r' = Ok s' /\ gd s' = gd s /\ na s' = na s /\ path_found s' = path_found s /\
      num_goals s' = num_goals s /\ max_path_index s' = max_path_index s /\ weights s' = weights s /\
      agree (Ok c) (Ok (shortest_path_cost s'))
  | Raise e => r' = Raise e
  | OutOfFuel => r' = OutOfFuel
  end.

Lemma path_cost_agree0 w a path : agree (fpath_cost fsq w a path) (path_cost isq w a path).
Proof. destruct path; [reflexivity|]. apply path_cost_agree. reflexivity. Qed.

Lemma frun_bfs_same s : same_run (frun_bfs fsq s) (run_bfs isq s).
Proof.
  unfold frun_bfs, run_bfs. rewrite fbfs_eq. destruct (multi_source_bfs isq (weights s) (na s)) as [a| |]; cbn [bind]; try reflexivity.
  destruct (get_path_nodes true a) as [path| |]; cbn [bind]; try reflexivity.
  pose proof (path_cost_agree0 (weights s) a path) as H. unfold agree in H.
  destruct (fpath_cost fsq (weights s) a path) as [[v|]| |]; [rewrite H|destruct H as (y & -> & Hi)|rewrite H|rewrite H];
    cbn [bind same_run]; auto; eexists; repeat (split; [reflexivity|]); cbn; [reflexivity|eauto].
Qed.

Lemma frun_dij_same pq s : same_run (frun_dijkstra fsq pq s) (run_dijkstra isq pq s).
Proof.
  unfold frun_dijkstra, run_dijkstra. rewrite fdij_eq.
  destruct (multi_source_dijkstra isq pq (weights s) (max_path_index s) (num_goals s) (na s)) as [[a g]| |]; cbn [bind]; try reflexivity.
  destruct (get_path_nodes true a) as [path| |]; cbn [bind]; try reflexivity.
  pose proof (path_cost_agree0 (weights s) a path) as H. unfold agree in H.
  destruct (fpath_cost fsq (weights s) a path) as [[v|]| |]; [rewrite H|destruct H as (y & -> & Hi)|rewrite H|rewrite H];
    cbn [bind same_run]; auto; eexists; repeat (split; [reflexivity|]); cbn; [reflexivity|eauto].
Qed.

Lemma near_jcost w x y : length x = length w -> length y = length w -> near (fjcost fsq w) (jcost isq w) x y.
Proof.
  intros Hx Hy. pose proof (cost2_agree0 w y x) as H. rewrite (cost2_ok isq w x y Hy Hx) in H.
  unfold near, fjcost. unfold agree in H. destruct (fcost2 fsq w y x) as [[v|]| |]; try discriminate.
  - congruence.
  - destruct H as (z & Hz & Hi). congruence.
Qed.
End Cpp.

Lemma nan_cpp_bfs (K : CostStruct) (F : Type) (f1 : F) (fsq : K -> F -> F -> F -> fl K) n data ow (s : cgraph K F) :
  (forall acc w a b, clt acc cinf = false -> clt (as_inf (fsq acc w a b)) cinf = false) ->
  uniform n data -> load f1 n data ow = Ok s ->
  (exists s' c js p, frun_bfs fsq s = Ok (s', Num c) /\ get_path (length data) s' = Ok (Some (map Z.of_nat js)) /\
     picks data js p /\ nan_free (fjcost fsq (eff_weights f1 n ow)) p /\
     c = walk_cost (fun x y => as_inf (fjcost fsq (eff_weights f1 n ow) x y)) p /\
     forall js' p', picks data js' p' -> nan_free (fjcost fsq (eff_weights f1 n ow)) p' ->
       cle c (walk_cost (fun x y => as_inf (fjcost fsq (eff_weights f1 n ow) x y)) p')) \/
  (frun_bfs fsq s = Raise NullDeref /\
     forall js p, picks data js p -> nan_free (fjcost fsq (eff_weights f1 n ow)) p ->
       clt (walk_cost (fun x y => as_inf (fjcost fsq (eff_weights f1 n ow) x y)) p) cinf = false).
Proof.
  intros Hsq Hu Hs. set (w := eff_weights f1 n ow).
  assert (Hnear : forall js p, picks data js p -> steps (near (fjcost fsq w) (jcost (isq fsq) w)) p).
  { apply picks_steps. intros x y (i & c1 & c2 & H1 & H2 & H3 & H4). apply near_jcost; auto; unfold w; rewrite eff_weights_length;
      unfold uniform in Hu; rewrite Forall_forall in Hu.
    - pose proof (Hu c1 (nth_error_In _ _ H1)) as H. rewrite Forall_forall in H. auto.
    - pose proof (Hu c2 (nth_error_In _ _ H2)) as H. rewrite Forall_forall in H. auto. }
  pose proof (frun_bfs_same fsq Hsq s) as Hsame.
  destruct (cbfs_spec f1 (isq fsq) n data ow Hu s Hs) as [[H1 H2]|(s2 & js & p & H1 & H2 & H3 & H4 & H5 & H6 & H7)].
  - right. unfold same_run in Hsame. split.
    + destruct (frun_bfs fsq s) as [[s' c]| |]; [destruct Hsame as (? & ? & _); congruence| |]; congruence.
    + intros js p Hp Hf. rewrite <- (same_cost _ _ p (Hnear _ _ Hp) Hf). exact (H2 js p Hp).
  - left. unfold same_run in Hsame.
    destruct (frun_bfs fsq s) as [[s' c]| |]; [|congruence|congruence].
    destruct Hsame as (s3 & E & E1 & E2 & E3 & E4 & E5 & E6 & E7). assert (s3 = s2) by congruence. subst s3.
    assert (Hf : nan_free (fjcost fsq w) p) by (apply (free_of_finite _ _ p (Hnear _ _ H4)); exact H6).
    unfold get_path_cost in H5.
    assert (Hc : c = Num (walk_cost (fun x y => as_inf (fjcost fsq w x y)) p)).
    { rewrite <- (same_cost _ _ p (Hnear _ _ H4) Hf). unfold agree in E7. destruct c as [v|].
      - f_equal. fold w in H5. congruence.
      - destruct E7 as (y & Hy & Hi). fold w in H5, H6. exfalso. assert (y = shortest_path_cost s2) by congruence. subst y. congruence. }
    subst c. eexists s', _, js, p. split; [reflexivity|]. split; [|split; [exact H4|split; [exact Hf|split; [reflexivity|]]]].
    + rewrite <- H3. unfold get_path. rewrite E2, E3. reflexivity.
    + intros js' p' Hp' Hf'. rewrite <- (same_cost _ _ p (Hnear _ _ H4) Hf), <- (same_cost _ _ p' (Hnear _ _ Hp') Hf').
      exact (H7 js' p' Hp').
Qed.

Lemma nan_cpp_dij (K : CostStruct) (F : Type) (fsq : K -> F -> F -> F -> fl K) (pq : pqueue K F) (s : cgraph K F) :
  (forall acc w a b, clt acc cinf = false -> clt (as_inf (fsq acc w a b)) cinf = false) ->
  (forall s' c, frun_dijkstra fsq pq s = Ok (s', c) ->
     exists s'', run_dijkstra (fun acc w a b => as_inf (fsq acc w a b)) pq s = Ok s'' /\
       (forall m, get_path m s'' = get_path m s') /\
       (c = Num (get_path_cost s'') \/ c = NaN /\ clt (get_path_cost s'') cinf = false)) /\
  (forall e, frun_dijkstra fsq pq s = Raise e ->
     run_dijkstra (fun acc w a b => as_inf (fsq acc w a b)) pq s = Raise e) /\
  (frun_dijkstra fsq pq s = OutOfFuel -> run_dijkstra (fun acc w a b => as_inf (fsq acc w a b)) pq s = OutOfFuel).
Proof.
  intros Hsq. pose proof (frun_dij_same fsq Hsq pq s) as H. unfold same_run in H.
  destruct (frun_dijkstra fsq pq s) as [[s1 c]|e|].
  - split; [|split; discriminate]. intros s' c' E. injection E as <- <-.
    destruct H as (s3 & E & E1 & E2 & E3 & E4 & E5 & E6 & E7). exists s3. split; [exact E|]. split.
    + intros m. unfold get_path. rewrite E2, E3. reflexivity.
    + unfold get_path_cost. unfold agree in E7. destruct c as [v|]; [left; congruence|].
      right. split; auto. destruct E7 as (y & Hy & Hi). congruence.
  - split; [discriminate|]. split; [|discriminate]. intros e' E. injection E as <-. exact H.
  - split; [discriminate|]. split; [discriminate|]. auto.
Qed.

(** ** dp.py *)
Section DpNum.
Context {K : CostStruct}.
Definition lift {A B} (g : A -> B) (r : res A) : res B :=
  match r with Ok a => Ok (g a) | Raise e => Raise e | OutOfFuel => OutOfFuel end.

Lemma fmin_num (l : list K) : fmin_list (map Num l) = lift Num (min_list l).
Proof.
  destruct l as [|x l]; [reflexivity|]. cbn [map fmin_list min_list lift]. f_equal. revert x.
  induction l as [|y l IH]; intros x; cbn [map fold_left fmin]; auto. destruct (clt y x); apply IH.
Qed.

Lemma fargmin_num (l : list K) : fargmin (map Num l) = argmin l.
Proof.
  destruct l as [|x l]; [reflexivity|]. cbn [map fargmin argmin]. f_equal.
  enough (H : forall b m i, fargmin_from b (Num m) i (map Num l) = argmin_from b m i l) by apply H.
  induction l as [|y l IH]; intros b m i; cbn [map fargmin_from argmin_from]; auto. destruct (clt y m); apply IH.
Qed.

Lemma fzip_num (a b : list K) : fzip_add (map Num a) (map Num b) = map Num (zip_add a b).
Proof. revert b. induction a as [|x a IH]; intros [|y b]; cbn; auto. f_equal. apply IH. Qed.

Lemma frow_num (a b : list K) : frow_add (map Num a) (map Num b) = lift (map Num) (row_add a b).
Proof.
  unfold frow_add, row_add. rewrite !map_length. destruct (Nat.eqb (length a) (length b)).
  - cbn. f_equal. apply fzip_num.
  - destruct a as [|x [|x2 a]], b as [|y [|y2 b]]; cbn [map lift]; auto; f_equal; cbn; rewrite ?map_map; auto;
      repeat f_equal; rewrite ?map_map; auto.
Qed.

Lemma mapM_lift {A B C E} (f : A -> res B) (g : C -> res E) (h : A -> C) (k : B -> E) l :
  (forall x, g (h x) = lift k (f x)) -> mapM g (map h l) = lift (map k) (mapM f l).
Proof.
  intros H. induction l as [|x l IH]; cbn; auto. rewrite H. destruct (f x); cbn; auto.
  rewrite IH. destruct (mapM f l); reflexivity.
Qed.

Lemma fstep_num (c : matrix K) v :
  fbellman_step (of_matrix c) (map Num v) = lift (fun p => (fst p, map Num (snd p))) (bellman_step c v).
Proof.
  unfold fbellman_step, bellman_step, of_matrix. cbn [f_rows f_cols].
  rewrite (mapM_lift (fun row => row_add row v) _ (map Num) (map Num)) by (intros; apply frow_num).
  destruct (mapM (fun row => row_add row v) (m_rows c)) as [rhs| |]; cbn [bind lift]; auto.
  destruct (Nat.eqb (m_cols c) 0); auto.
  rewrite (mapM_lift min_list fmin_list (map Num) Num) by (intros; apply fmin_num).
  destruct (mapM min_list rhs) as [vv| |]; cbn [bind lift]; auto.
  rewrite (mapM_lift argmin fargmin (map Num) (fun i => i)).
  - destruct (mapM argmin rhs); cbn; auto. rewrite map_id. reflexivity.
  - intros x. rewrite fargmin_num. destruct (argmin x); reflexivity.
Qed.

Lemma floop_num tcs d : fbellman_loop (map of_matrix tcs) d =
  lift (fun p => (fst p, map (map (@Num K)) (snd p))) (bellman_loop tcs d).
Proof.
  induction tcs as [|c tcs IH]; cbn [map fbellman_loop bellman_loop].
  - cbn. unfold zeros. do 3 f_equal. induction d as [|d IH]; cbn; congruence.
  - rewrite IH. destruct (bellman_loop tcs d) as [[vis vs]| |]; cbn [bind lift fst snd]; auto.
    destruct vs as [|v vs]; cbn [map]; auto. rewrite fstep_num.
    destruct (bellman_step c v) as [[vi v']| |]; reflexivity.
Qed.

Lemma fapply_num {D} (f : list D -> list D -> matrix K) Q :
  fapply_cost_function Q (fun a b => of_matrix (f a b)) = map of_matrix (apply_cost_function Q f).
Proof.
  induction Q as [|d Q IH]; auto. destruct Q as [|d2 Q]; auto.
  change (of_matrix (f d d2) :: fapply_cost_function (d2 :: Q) (fun a b => of_matrix (f a b)) =
          of_matrix (f d d2) :: map of_matrix (apply_cost_function (d2 :: Q) f)). rewrite IH. reflexivity.
Qed.

Lemma py_last_map {A B} (h : A -> B) l : py_last (map h l) = lift h (py_last l).
Proof. unfold py_last. rewrite <- map_rev. destruct (rev l); reflexivity. Qed.

Lemma nan_dp_num (D : Type) (Q : list (list D)) (f : list D -> list D -> matrix K) :
  fshortest_path Q (fun a b => of_matrix (f a b)) =
  match shortest_path Q f with
  | Ok r => Ok (dp_path _ r, Num (dp_length _ r))
  | Raise e => Raise e
  | OutOfFuel => OutOfFuel
  end.
Proof.
  unfold fshortest_path, shortest_path, fcalculate_value_function, calculate_value_function.
  rewrite fapply_num, py_last_map.
  destruct (py_last (apply_cost_function Q f)) as [m| |]; cbn [bind lift]; auto.
  change (f_cols (of_matrix m)) with (m_cols m). rewrite floop_num.
  destruct (bellman_loop (apply_cost_function Q f) (m_cols m)) as [[vis vs]| |]; cbn [bind lift fst snd]; auto.
  unfold fextract_shortest_path, extract_shortest_path. unfold py_index. rewrite nth_error_map.
  destruct (nth_error vs 0) as [v0|]; cbn [option_map bind]; auto. rewrite fargmin_num.
  destruct (argmin v0) as [i| |]; cbn [bind]; auto.
  destruct (extract_loop Q vis i) as [path| |]; cbn [bind]; auto.
  rewrite fmin_num. destruct (min_list v0); reflexivity.
Qed.
End DpNum.

Section DpNan.
Context {K : CostStruct}.
Local Notation fz := (Num (@czero K)).

Lemma fold_nan (l : list (fl K)) : fold_left fmin l NaN = NaN.
Proof. induction l; auto. Qed.

Lemma fold_min_nan (l : list (fl K)) : forall x, fold_left fmin l x = NaN <-> In NaN (x :: l).
Proof.
  induction l as [|y l IH]; intros x; cbn [fold_left].
  - cbn. intuition.
  - rewrite IH. cbn [In]. destruct x as [a|], y as [b|]; cbn [fmin].
    + destruct (clt b a); intuition congruence.
    + intuition congruence.
    + intuition congruence.
    + intuition congruence.
Qed.

Lemma argmin_nan (l : list (fl K)) : forall pre b m,
  nth_error (pre ++ l) b = Some m -> b < length pre -> (m = NaN \/ In NaN l) ->
  nth_error (pre ++ l) (fargmin_from b m (length pre) l) = Some NaN.
Proof.
  induction l as [|y l IH]; intros pre b m Hb Hlt H.
  - destruct m as [a|]; cbn [fargmin_from]; [|exact Hb]. destruct H as [H|[]]. discriminate.
  - destruct m as [a|]; cbn [fargmin_from]; [|exact Hb]. destruct H as [H|H]; [discriminate|].
    destruct y as [c|].
    + assert (Hin : In NaN l) by (destruct H as [H|H]; [discriminate|exact H]).
      replace (pre ++ Num c :: l) with ((pre ++ [Num c]) ++ l) in * by (rewrite <- app_assoc; reflexivity).
      replace (S (length pre)) with (length (pre ++ [Num c])) by (rewrite app_length; cbn; lia).
      destruct (clt c a).
      * apply IH; auto.
        -- rewrite <- app_assoc. cbn. rewrite nth_error_app2 by lia. rewrite Nat.sub_diag. reflexivity.
        -- rewrite app_length. cbn. lia.
      * apply IH; auto. rewrite app_length. cbn. lia.
    + rewrite nth_error_app2 by lia. rewrite Nat.sub_diag. reflexivity.
Qed.

Lemma argmin_lt (l : list (fl K)) : forall b m i, b < i -> fargmin_from b m i l < i + length l.
Proof.
  induction l as [|y l IH]; intros b m i H; destruct m as [a|]; cbn [fargmin_from length]; try lia.
  destruct y as [c|]; [|lia]. destruct (clt c a).
  - specialize (IH i (Num c) (S i)). lia.
  - specialize (IH b (Num a) (S i)). lia.
Qed.

(** The two reductions of a non-empty row. *)
Lemma row_facts (l : list (fl K)) : l <> [] -> exists v i, fmin_list l = Ok v /\ fargmin l = Ok i /\ i < length l /\
  (v = NaN <-> In NaN l) /\ (In NaN l -> nth i l fz = NaN).
Proof.
  destruct l as [|x l]; [congruence|]. intros _. eexists _, _. split; [reflexivity|]. split; [reflexivity|]. split; [|split].
  - pose proof (argmin_lt l 0 x 1). cbn [length]. lia.
  - apply fold_min_nan.
  - intros H. apply nth_error_nth. apply (argmin_nan l [x] 0 x); auto.
Qed.

Lemma fzip_len (a b : list (fl K)) : length a = length b -> length (fzip_add a b) = length a.
Proof. revert b. induction a as [|x a IH]; intros [|y b] H; cbn in *; try discriminate; auto. Qed.

Lemma fzip_nth (a b : list (fl K)) : length a = length b -> forall j, j < length a ->
  nth j (fzip_add a b) fz = fadd (nth j a fz) (nth j b fz).
Proof.
  revert b. induction a as [|x a IH]; intros [|y b] H j Hj; cbn in *; try discriminate; try lia.
  destruct j as [|j]; auto. apply IH; lia.
Qed.

Lemma fadd_nan (a b : fl K) : fadd a b = NaN <-> a = NaN \/ b = NaN.
Proof. destruct a, b; cbn; intuition congruence. Qed.

Lemma fstep_spec (c : fmatrix K) n n' (v : list (fl K)) : has_dims (f_rows c) n n' -> f_cols c = n' -> 0 < n' -> length v = n' ->
  exists vi v', fbellman_step c v = Ok (vi, v') /\ length vi = n /\ length v' = n /\
  forall i, i < n -> nth i vi 0 < n' /\
    (nth i v' fz = NaN <-> exists j, j < n' /\ (fentry (f_rows c) i j = NaN \/ nth j v fz = NaN)) /\
    (nth i v' fz = NaN -> fentry (f_rows c) i (nth i vi 0) = NaN \/ nth (nth i vi 0) v fz = NaN).
Proof.
  intros [Hn Hr] Hc Hpos Hv. unfold fbellman_step, fentry. rewrite Hc. destruct (Nat.eqb n' 0) eqn:E0; [apply Nat.eqb_eq in E0; lia|].
  clear E0 Hc. revert n Hn. induction (f_rows c) as [|row rows IH]; intros n Hn.
  - exists [], []. cbn in Hn. subst n. cbn. repeat split; auto; lia.
  - inversion Hr as [|? ? Hrow Hr' E1]; subst. destruct (IH Hr' _ eq_refl) as (vi & v' & H1 & H2 & H3 & H4).
    cbn [mapM]. unfold frow_add at 1. rewrite Hrow, Nat.eqb_refl. cbn [bind].
    destruct (mapM (fun row0 => frow_add row0 v) rows) as [rhs| |]; cbn [bind] in *; try discriminate.
    destruct (row_facts (fzip_add row v)) as (x & k & G1 & G2 & G3 & G4 & G5).
    { intros E. apply (f_equal (@length _)) in E. rewrite fzip_len in E by lia. cbn in E. lia. }
    rewrite fzip_len in G3 by lia.
    cbn [mapM]. rewrite G1, G2. cbn [bind].
    destruct (mapM fmin_list rhs) as [vv| |]; cbn [bind] in *; try discriminate.
    destruct (mapM fargmin rhs) as [ii| |]; cbn [bind] in *; try discriminate.
    injection H1 as -> ->. exists (k :: vi), (x :: v'). split; [reflexivity|]. cbn [length]. split; [lia|]. split; [lia|].
    intros i Hi. destruct i as [|i]; cbn [nth].
    + split; [lia|]. split.
      * rewrite G4. split.
        -- intros Hin. apply G5 in Hin. rewrite fzip_nth in Hin by lia. apply fadd_nan in Hin. exists k. split; [lia|exact Hin].
        -- intros (j & Hj & Hor). replace NaN with (nth j (fzip_add row v) fz).
           ++ apply nth_In. rewrite fzip_len by lia. lia.
           ++ rewrite fzip_nth by lia. apply fadd_nan. exact Hor.
      * intros Hx. apply G4 in Hx. apply G5 in Hx. rewrite fzip_nth in Hx by lia. apply fadd_nan in Hx. exact Hx.
    + apply H4. lia.
Qed.

Lemma last_cons {A} (Q : list A) : forall a d, last (a :: Q) d = last Q a.
Proof. induction Q as [|b Q IH]; intros a d; auto. change (last (b :: Q) d = last (b :: Q) a). rewrite !IH. reflexivity. Qed.

Definition fshaped {D} (Q : list (list D)) (f : list D -> list D -> fmatrix K) : Prop :=
  forall d1 d2, In d1 Q -> In d2 Q -> f_cols (f d1 d2) = length d2 /\ has_dims (f_rows (f d1 d2)) (length d1) (length d2).

Lemma floop_spec {D} (f : list D -> list D -> fmatrix K) : forall Q d, fshaped (d :: Q) f -> Forall (fun s => s <> []) (d :: Q) ->
  exists vi vis v vs, fbellman_loop (fapply_cost_function (d :: Q) f) (length (last Q d)) = Ok (vi :: vis, v :: vs) /\
    length v = length d /\
    (forall i, i < length d -> exists js path, extract_loop (d :: Q) (vi :: vis) i = Ok path /\ picks (d :: Q) (i :: js) path /\
       (nth i v fz = NaN -> nan_step f (d :: Q) (i :: js))) /\
    ((exists i, i < length d /\ nth i v fz = NaN) <-> some_nan f (d :: Q)).
Proof.
  induction Q as [|d2 Q IH]; intros d Hs Hne.
  - cbn [fapply_cost_function fbellman_loop last]. eexists _, _, _, _. split; [reflexivity|]. split; [apply repeat_length|].
    assert (Hz : forall i, nth i (repeat fz (length d)) fz <> NaN).
    { intros i. rewrite nth_repeat. discriminate. }
    split.
    + intros i Hi. destruct (nth_error d i) as [x|] eqn:E; [|apply nth_error_None in E; lia].
      exists [], [x]. split; [|split].
      * cbn [extract_loop]. unfold py_index. rewrite E. cbn [bind].
        rewrite (nth_error_nth' _ 0) by (rewrite repeat_length; lia). reflexivity.
      * cbn. auto.
      * intros H. destruct (Hz i H).
    + cbn [some_nan]. split; [|tauto]. intros (i & _ & H). exact (Hz i H).
  - inversion Hne as [|? ? Hd Hne']; subst.
    destruct (IH d2) as (vi & vis & v & vs & H1 & H2 & H3 & H4); auto.
    { intros a b Ha Hb. apply Hs; right; auto. }
    change (fapply_cost_function (d :: d2 :: Q) f) with (f d d2 :: fapply_cost_function (d2 :: Q) f).
    rewrite last_cons.
    cbn [fbellman_loop]. rewrite H1. cbn [bind].
    destruct (Hs d d2) as [Hc Hdim]; [cbn; auto|cbn; auto|].
    assert (Hp2 : 0 < length d2) by (inversion Hne' as [|? ? Hd2]; subst; destruct d2; [congruence|cbn; lia]).
    assert (Hp1 : 0 < length d) by (destruct d; [congruence|cbn; lia]).
    destruct (fstep_spec (f d d2) (length d) (length d2) v Hdim Hc Hp2 H2) as (wi & w & E & L1 & L2 & HS).
    rewrite E. cbn [bind]. eexists _, _, _, _. split; [reflexivity|]. split; [exact L2|]. split.
    + intros i Hi. destruct (HS i Hi) as (K1 & K2 & K3).
      destruct (H3 (nth i wi 0) K1) as (js & path & P1 & P2 & P3).
      destruct (nth_error d i) as [x|] eqn:Ex; [|apply nth_error_None in Ex; lia].
      exists (nth i wi 0 :: js), (x :: path). split; [|split].
      * change (extract_loop (d :: d2 :: Q) (wi :: vi :: vis) i) with
          (x <- py_index d i ;; n <- py_index wi i ;; xs <- extract_loop (d2 :: Q) (vi :: vis) n ;; Ok (x :: xs)).
        unfold py_index at 1. rewrite Ex. cbn [bind]. unfold py_index at 1.
        rewrite (nth_error_nth' wi 0) by lia. cbn [bind].
        rewrite P1. reflexivity.
      * cbn [picks]. split; [exact Ex|exact P2].
      * intros Hn. cbn [nan_step]. destruct (K3 Hn) as [K4|K4]; [left; exact K4|right; exact (P3 K4)].
    + change (some_nan f (d :: d2 :: Q)) with
        ((exists i j, i < length d /\ j < length d2 /\ fentry (f_rows (f d d2)) i j = NaN) \/ some_nan f (d2 :: Q)).
      rewrite <- H4. split.
      * intros (i & Hi & Hn). destruct (HS i Hi) as (_ & K2 & _). apply K2 in Hn. destruct Hn as (j & Hj & [Hn|Hn]).
        -- left. eauto.
        -- right. eauto.
      * intros [(i & j & Hi & Hj & Hn)|(j & Hj & Hn)].
        -- exists i. split; auto. apply (HS i Hi). exists j. auto.
        -- exists 0. split; auto. apply (HS 0 Hp1). exists j. auto.
Qed.

Lemma fapply_last {D} (f : list D -> list D -> fmatrix K) : forall Q d d2, fshaped (d :: d2 :: Q) f ->
  exists m, py_last (fapply_cost_function (d :: d2 :: Q) f) = Ok m /\ f_cols m = length (last Q d2).
Proof.
  induction Q as [|d3 Q IH]; intros d d2 Hs.
  - exists (f d d2). split; [reflexivity|]. apply Hs; cbn; auto.
  - destruct (IH d2 d3) as (m & Hm & Hc). { intros a b Ha Hb. apply Hs; right; auto. }
    exists m. split.
    + change (fapply_cost_function (d :: d2 :: d3 :: Q) f) with (f d d2 :: fapply_cost_function (d2 :: d3 :: Q) f).
      unfold py_last in *. cbn [rev]. destruct (rev (fapply_cost_function (d2 :: d3 :: Q) f)) as [|y l]; [discriminate|exact Hm].
    + rewrite Hc, last_cons. reflexivity.
Qed.

Lemma nan_dp (D : Type) (Q : list (list D)) (f : list D -> list D -> fmatrix K) :
  2 <= length Q -> Forall (fun stage => stage <> []) Q ->
  (forall d1 d2, In d1 Q -> In d2 Q ->
     f_cols (f d1 d2) = length d2 /\ has_dims (f_rows (f d1 d2)) (length d1) (length d2)) ->
  exists path len js, fshortest_path Q f = Ok (path, len) /\ picks Q js path /\
    (some_nan f Q -> nan_step f Q js) /\ (len = NaN <-> some_nan f Q).
Proof.
  intros H2 Hne Hs. destruct Q as [|d [|d2 Q]]; cbn in H2; try lia.
  destruct (fapply_last f Q d d2 Hs) as (m & Hm & Hc).
  destruct (floop_spec f (d2 :: Q) d Hs Hne) as (vi & vis & v & vs & H1 & HL & H3 & H4).
  assert (Hp1 : 0 < length d) by (inversion Hne as [|? ? Hd]; subst; destruct d; [congruence|cbn; lia]).
  rewrite last_cons in H1.
  destruct (row_facts v) as (x & k & G1 & G2 & G3 & G4 & G5). { intros ->. cbn in HL. lia. }
  destruct (H3 k) as (js & path & P1 & P2 & P3); [lia|].
  assert (Hin : In NaN v <-> some_nan f (d :: d2 :: Q)).
  { rewrite <- H4. split.
    - intros H. exists k. split; [lia|]. auto.
    - intros (i & Hi & Hn). rewrite <- Hn. apply nth_In. lia. }
  exists path, x, (k :: js). split; [|split; [exact P2|split]].
  - unfold fshortest_path, fcalculate_value_function. rewrite Hm. cbn [bind]. rewrite Hc, H1. cbn [bind].
    unfold fextract_shortest_path. cbn [py_index nth_error bind]. rewrite G2. cbn [bind]. rewrite P1. cbn [bind].
    rewrite G1. reflexivity.
  - intros H. apply P3. apply G5. apply Hin. exact H.
  - rewrite G4. exact Hin.
Qed.
End DpNan.

(** Stages of two, two and one samples; only the transition from 1 to 3 costs
    NaN.  The dynamic program returns it, the graph search does not. *)
Definition nan_ex_Q : list (list nat) := [[0; 1]; [2; 3]; [4]].
Definition nan_ex_cost (x y : nat) : fl ZCost := if Nat.eqb x 1 && Nat.eqb y 3 then NaN else @Num ZCost (Some 1%Z).
Definition nan_ex_f (d1 d2 : list nat) : fmatrix ZCost :=
  {| f_cols := length d2; f_rows := map (fun x => map (nan_ex_cost x) d2) d1 |}.

Lemma nan_ex_ok : (2 <= length nan_ex_Q /\ Forall (fun stage => stage <> []) nan_ex_Q /\ fshaped nan_ex_Q nan_ex_f) /\
  some_nan nan_ex_f nan_ex_Q /\
  fshortest_path nan_ex_Q nan_ex_f = Ok ([1; 3; 4], NaN) /\
  fget_shortest_path (fun x y => Ok (nan_ex_cost x y)) nan_ex_Q = Ok (@SpOk ZCost nat [0; 2; 4] (Some 2%Z)).
Proof.
  split; [|split; [|split; reflexivity]].
  - split; [cbn; lia|]. split; [repeat constructor; discriminate|].
    intros d1 d2 _ _. split; [reflexivity|]. cbn. split; [apply map_length|].
    apply Forall_forall. intros r Hr. apply in_map_iff in Hr. destruct Hr as (x & <- & _). apply map_length.
  - left. exists 1, 1. repeat split; cbn; lia.
Qed.

(** float-like accumulation on integers with infinity and NaN *)
Definition nan_ex_sq (acc : ZCost) (w a b : option Z) : fl ZCost :=
  match w, a, b with Some w, Some a, Some b => @Num ZCost (zsq acc w a b) | _, _, _ => NaN end.
Definition nan_ex_cols : list (list (list (option Z))) := [[[Some 0]; [None]]; [[Some 3]; [None]; [Some 5]]]%Z.

Lemma nan_ex_cpp :
  (forall acc w a b, clt acc cinf = false -> clt (as_inf (nan_ex_sq acc w a b)) cinf = false) /\
  uniform 1 nan_ex_cols /\
  exists s s', load (Some 1%Z) 1 nan_ex_cols None = Ok s /\ frun_bfs nan_ex_sq s = Ok (s', @Num ZCost (Some 9%Z)) /\
    get_path 2 s' = Ok (Some [0; 0]%Z).
Proof.
  split; [|split].
  - intros acc [w|] [a|] [b|] H; cbn; auto. destruct acc; cbn in *; [discriminate|reflexivity].
  - repeat constructor.
  - eexists _, _. split; [reflexivity|]. split; reflexivity.
Qed.
