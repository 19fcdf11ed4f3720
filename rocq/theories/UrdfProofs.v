(** * Proofs about the model of urdfio.py *)
From Coq Require Import String Ascii Reals Lra Lia List Bool Arith ZArith Decimal DecimalString DecimalNat DecimalZ DecimalPos.
From Verif Require Import PyBase Mat Util UtilProofs Geometry Path PathProofs Urdf.
Import ListNotations.
Local Open Scope string_scope.

(** ** Text *)
Lemma app_empty_r (s : string) : s ++ "" = s.
Proof. induction s as [|c s IH]; cbn; [auto|rewrite IH; auto]. Qed.
Lemma app_assoc_s (a b c : string) : (a ++ b) ++ c = a ++ (b ++ c).
Proof. induction a as [|x a IH]; cbn; [auto|rewrite IH; auto]. Qed.
Lemma app_inj_l (a b c : string) : a ++ b = a ++ c -> b = c.
Proof. induction a as [|x a IH]; cbn; [auto|]. intros H. injection H. auto. Qed.
(** a plain token is collected up to the end or the next space *)
Lemma tokens_plain s cur r : ~ In space (list_ascii_of_string s) -> tokens (s ++ r) cur = tokens r (cur ++ s).
Proof.
  revert cur. induction s as [|c s IH]; intros cur H; [cbn; rewrite app_empty_r; auto|]. cbn [append tokens].
  destruct (Ascii.eqb_spec c space) as [E|E]; [exfalso; apply H; left; auto|]. rewrite IH by (intros I; apply H; right; auto). rewrite app_assoc_s. auto.
Qed.
Lemma tokens_join l : Forall plain l -> tokens (join l) "" = l.
Proof.
  induction 1 as [|s l [H1 H2] Hl IH]; [reflexivity|]. destruct l as [|t l].
  - cbn [join]. rewrite <- (app_empty_r s) at 1. rewrite tokens_plain by auto. cbn. destruct s; [contradiction|auto].
  - change (join (s :: t :: l)) with (s ++ String space (join (t :: l))). rewrite tokens_plain by auto. cbn [append tokens]. cbn [Ascii.eqb]. 
    replace (Ascii.eqb space space) with true by reflexivity. rewrite IH. destruct s; [contradiction|auto].
Qed.
Lemma mem_In s l : mem s l = true <-> In s l.
Proof. unfold mem. rewrite existsb_exists. split; [intros (x & I & E); apply String.eqb_eq in E; subst; auto|intros I; exists s; split; [auto|apply String.eqb_refl]]. Qed.
Lemma mem_notIn s l : mem s l = false <-> ~ In s l.
Proof. rewrite <- mem_In. destruct (mem s l); split; congruence. Qed.
Lemma nodupb_NoDup l : nodupb l = true <-> NoDup l.
Proof.
  induction l as [|s l IH]; cbn; [split; [constructor|auto]|]. rewrite andb_true_iff, negb_true_iff, mem_notIn, IH. split; [intros []; constructor; auto|inversion 1; auto].
Qed.
Lemma nat_uint_nonnil n : Nat.to_uint n <> Decimal.Nil.
Proof. intros H. pose proof (DecimalNat.Unsigned.of_to n) as E. rewrite H in E. cbn in E. subst n. discriminate. Qed.
Lemma string_of_nat_inj i j : NilZero.string_of_uint (Nat.to_uint i) = NilZero.string_of_uint (Nat.to_uint j) -> i = j.
Proof.
  intros H. apply (f_equal NilZero.uint_of_string) in H. rewrite !NilZero.usu in H by apply nat_uint_nonnil. injection H as H. apply DecimalNat.Unsigned.to_uint_inj. auto.
Qed.
Lemma shape_name_inj i j : shape_name i = shape_name j -> i = j.
Proof. unfold shape_name. intros H. apply app_inj_l in H. apply string_of_nat_inj. auto. Qed.
Lemma shape_name_world i : shape_name i <> "world".
Proof. unfold shape_name. discriminate. Qed.

Section Urdf.
Context (N : numbers).
Notation F := (num N).
Notation F3 := (F * F * F)%type.
Lemma read3_show (p : F3) : read3 N (list_to_string N (triple N p)) = Ok p.
Proof.
  destruct p as [[x y] z]. unfold read3, list_to_string, triple. rewrite tokens_join; [|repeat constructor; apply show_plain]. cbn [map]. rewrite !read_show. auto.
Qed.
Lemma read3_zero : exists z, read3 N "0 0 0" = Ok (z, z, z) /\ value N z = 0%R.
Proof. destruct (read_0 N) as (z & E & V). exists z. split; [|auto]. unfold read3. change (tokens "0 0 0" "") with ["0"; "0"; "0"]. cbn [map]. rewrite E. auto. Qed.
Lemma rpy_to_matrix_0 : rpy_to_matrix 0 0 0 = mid.
Proof. unfold rpy_to_matrix, rot_x, rot_y, rot_z. rewrite cos_0, sin_0. munf. f_equal; ring. Qed.
Lemma origin_show (p : F3) : origin N (list_to_string N (triple N p)) "0 0 0" = Ok (M4 mid (vec_of N p) v0 1).
Proof.
  unfold origin. rewrite read3_show. cbn [bind]. destruct read3_zero as (z & E & V). rewrite E. cbn [bind vec_of]. rewrite V. cbn [vx vy vz]. rewrite rpy_to_matrix_0. auto.
Qed.

(** ** The document *)
(** name, size, position of a box *)
Definition mk (d : string * (F3 * F3)) : entry := Entry (fst d) (list_to_string N (triple N (fst (snd d)))) (list_to_string N (triple N (snd (snd d)))).
Definition named (l : list (string * (F3 * F3))) : Prop := NoDup (map fst l) /\ ~ In "world" (map fst l).
Lemma load_links l : exists ls, mapM (load_link N) (map box_link (map mk l)) = Ok ls /\
  Forall2 (fun d r => rl_name N r = fst d /\ exists T, rl_coll N r = [(T, Some (fst (snd d)))]) l ls.
Proof.
  induction l as [|d l (ls & E & H)]; [exists []; auto|]. cbn [map mapM]. destruct read3_zero as (z & Z & V).
  unfold load_link at 1, box_link at 1. cbn [l_coll l_name mapM]. unfold load_coll at 1. cbn [c_xyz c_rpy c_geom]. unfold origin. rewrite Z. cbn [bind]. cbn [mk n_size n_name]. rewrite read3_show. cbn [bind]. rewrite E. cbn [bind].
  eexists. split; [reflexivity|]. constructor; [cbn; eauto|auto].
Qed.
Lemma load_joints l : mapM (load_joint N) (map box_joint (map mk l)) = Ok (map (fun d => RJoint "world" (fst d) (M4 mid (vec_of N (snd (snd d))) v0 1)) l).
Proof. induction l as [|d l IH]; [auto|]. cbn [map mapM]. unfold load_joint at 1, box_joint at 1. cbn [j_xyz j_rpy j_parent j_child mk n_xyz n_name]. rewrite origin_show. cbn [bind]. rewrite IH. auto. Qed.
Lemma names_links l : map l_name (map box_link (map mk l)) = map fst l.
Proof. rewrite !map_map. apply map_ext. auto. Qed.
Lemma names_children l : map j_child (map box_joint (map mk l)) = map fst l.
Proof. rewrite !map_map. apply map_ext. auto. Qed.
Lemma height_world k l : ~ In "world" (map fst l) -> height_ok (S k) (map box_joint (map mk l)) "world" = true.
Proof.
  intros H. cbn [height_ok]. apply forallb_forall. intros j I. rewrite map_map in I. apply in_map_iff in I. destruct I as (d & <- & I). cbn [j_child box_joint mk n_name].
  destruct (String.eqb_spec (fst d) "world") as [E|E]; [|auto]. exfalso. apply H. rewrite <- E. apply in_map. auto.
Qed.
Lemma height_all l : ~ In "world" (map fst l) -> forallb (height_ok (length ("world" :: map fst l)) (map box_joint (map mk l))) ("world" :: map fst l) = true.
Proof.
  intros H. apply forallb_forall. intros s [<-|I]; [apply height_world; auto|]. destruct (map fst l) as [|x xs] eqn:E; [destruct I|]. cbn [length]. cbn [height_ok]. apply forallb_forall. intros j J.
  assert (P : j_parent j = "world"). { rewrite map_map in J. apply in_map_iff in J. destruct J as (d & <- & _). auto. }
  rewrite P. apply orb_true_iff. right. apply (height_world (length xs)). rewrite E. auto.
Qed.
Lemma filter_none {A} (f : A -> bool) l : (forall x, In x l -> f x = false) -> filter f l = [].
Proof. induction l as [|x l IH]; intros H; [auto|]. cbn. rewrite (H x) by (left; auto). apply IH. intros; apply H; right; auto. Qed.
Lemma filter_all {A} (f : A -> bool) l : (forall x, In x l -> f x = true) -> filter f l = l.
Proof. induction l as [|x l IH]; intros H; [auto|]. cbn. rewrite (H x) by (left; auto). f_equal. apply IH. intros; apply H; right; auto. Qed.
Lemma load_doc name l : named l -> exists ls, load N (urdf_doc name (map mk l)) =
    Ok (Robot N (RLink N "world" [] :: ls) (map (fun d => RJoint "world" (fst d) (M4 mid (vec_of N (snd (snd d))) v0 1)) l) "world") /\
  Forall2 (fun d r => rl_name N r = fst d /\ exists T, rl_coll N r = [(T, Some (fst (snd d)))]) l ls.
Proof.
  intros [D W]. destruct (load_links l) as (ls & E & H). exists ls. split; [|auto].
  unfold load, urdf_doc. cbn [d_links d_joints mapM map l_name]. rewrite names_links. unfold load_link at 1. cbn [l_coll l_name mapM bind]. rewrite E. cbn [bind]. rewrite load_joints. cbn [bind].
  assert (B1 : nodupb ("world" :: map fst l) = true) by (apply nodupb_NoDup; constructor; auto).
  assert (B2 : nodupb (map j_name (map box_joint (map mk l))) = true).
  { apply nodupb_NoDup. rewrite !map_map. cbn [j_name box_joint mk n_name]. rewrite <- (map_map fst (fun s => "world_to_" ++ s)). apply FinFun.Injective_map_NoDup; [|auto]. intros a b. apply app_inj_l. }
  rewrite B1, B2. cbn [negb orb].
  assert (B3 : forallb (fun j => mem (j_parent j) ("world" :: map fst l) && mem (j_child j) ("world" :: map fst l)) (map box_joint (map mk l)) = true).
  { apply forallb_forall. intros j I. rewrite map_map in I. apply in_map_iff in I. destruct I as (d & <- & I). cbn [j_parent j_child box_joint mk n_name]. apply andb_true_iff. split; apply mem_In; [left; auto|right; apply in_map; auto]. }
  rewrite B3. cbn [negb]. rewrite height_all by auto. cbn [negb]. rewrite names_children. cbn [filter]. rewrite (proj2 (mem_notIn _ _) W). cbn [negb].
  rewrite filter_none; [auto|]. intros s I. apply negb_false_iff, mem_In. auto.
Qed.
Lemma shapes_of_links (l : list (string * (F3 * F3))) ls : Forall2 (fun d r => rl_name N r = fst d /\ exists T, rl_coll N r = [(T, Some (fst (snd d)))]) l ls ->
  link_shapes N ls = Ok (map (fun d => (fst d, fst (snd d))) l).
Proof.
  induction 1 as [|d r l ls (E & T & C) H IH]; [auto|]. cbn [link_shapes map]. rewrite C. unfold parse_link. rewrite C. cbn [bind]. rewrite IH. cbn [bind]. rewrite E. auto.
Qed.
Lemma dict_get_map (l : list (string * (F3 * F3))) d : NoDup (map fst l) -> In d l -> dict_get (fst d) (map (fun d => (fst d, fst (snd d))) l) = Ok (fst (snd d)).
Proof.
  induction l as [|x l IH]; intros D I; [destruct I|]. cbn [map dict_get]. inversion D as [|? ? D1 D2]; subst. destruct I as [->|I]; [rewrite String.eqb_refl; auto|].
  destruct (String.eqb_spec (fst d) (fst x)) as [E|E]; [|auto]. exfalso. apply D1. rewrite <- E. apply in_map. auto.
Qed.
(** the collection given by names, sizes and positions: unrotated *)
Definition flat (l : list (string * (F3 * F3))) : coll := Coll (map (fun d => shape_of N (fst (snd d))) l) (map (fun d => M4 mid (vec_of N (snd (snd d))) v0 1) l).
Lemma import_flat name l : named l -> import_doc N (urdf_doc name (map mk l)) = Ok (flat l).
Proof.
  intros Nm. destruct (load_doc name l Nm) as (ls & E & H). unfold import_doc. rewrite E. cbn [bind u_links u_joints u_base link_shapes rl_coll]. rewrite (shapes_of_links _ _ H). cbn [bind].
  unfold root_boxes. rewrite filter_all by (intros j I; apply in_map_iff in I; destruct I as (d & <- & _); reflexivity).
  assert (G : forall m, (forall d, In d m -> In d l) ->
    mapM (fun j => p <- dict_get (rj_child j) (map (fun d => (fst d, fst (snd d))) l) ;; Ok (shape_of N p, rj_origin j)) (map (fun d => RJoint "world" (fst d) (M4 mid (vec_of N (snd (snd d))) v0 1)) m)
    = Ok (map (fun d => (shape_of N (fst (snd d)), M4 mid (vec_of N (snd (snd d))) v0 1)) m)).
  { induction m as [|d m IH]; intros I; [auto|]. cbn [map mapM rj_child rj_origin]. rewrite dict_get_map by (try apply Nm; apply I; left; auto). cbn [bind]. rewrite IH by (intros; apply I; right; auto). auto. }
  rewrite G by auto. cbn [bind]. unfold flat. rewrite !map_map. auto.
Qed.

(** ** Export *)
Definition boxes_of (s : scene N) : list (F3 * F3) := combine (sc_sizes N s) (map (f_pos N) (sc_tfs N s)).
Definition labelled (s : scene N) : list (string * (F3 * F3)) := combine (map shape_name (seq 0 (length (sc_sizes N s)))) (boxes_of s).
Lemma combine_map {A B C D} (f : A -> C) (g : B -> D) l m : combine (map f l) (map g m) = map (fun p => (f (fst p), g (snd p))) (combine l m).
Proof. revert m. induction l as [|x l IH]; destruct m; cbn; auto. rewrite IH. auto. Qed.
Lemma export_data s : create_urdf_data N s (map shape_name (seq 0 (length (sc_sizes N s)))) = map mk (labelled s).
Proof.
  unfold create_urdf_data, labelled, boxes_of. set (ns := map shape_name _). generalize ns. clear ns. generalize (sc_sizes N s), (sc_tfs N s). intros l m. revert m. induction l as [|p l IH]; intros m ns; [destruct ns; auto|].
  destruct m as [|t m]; [destruct ns; auto|]. destruct ns as [|n ns]; [auto|]. cbn [combine map fst snd]. f_equal. apply IH.
Qed.
Lemma fst_combine_incl {A B} (l : list A) (m : list B) : exists k, map fst (combine l m) = firstn k l.
Proof. revert m. induction l as [|x l IH]; intros m; [exists 0%nat; auto|]. destruct m as [|y m]; [exists 0%nat; auto|]. destruct (IH m) as (k & E). exists (S k). cbn. rewrite E. auto. Qed.
Lemma NoDup_firstn {A} k (l : list A) : NoDup l -> NoDup (firstn k l).
Proof.
  revert k. induction l as [|x l IH]; intros [|k] H; cbn; try constructor; inversion H; subst; auto.
  intros I. apply H2. rewrite <- (firstn_skipn k l). apply in_or_app. auto.
Qed.
Lemma named_firstn k l : named l -> named (firstn k l).
Proof.
  intros [D W]. split; rewrite <- firstn_map; [apply NoDup_firstn; auto|]. intros I. apply W. rewrite <- (firstn_skipn k (map fst l)). apply in_or_app. auto.
Qed.
Lemma labelled_named s : named (labelled s).
Proof.
  unfold labelled. destruct (fst_combine_incl (map shape_name (seq 0 (length (sc_sizes N s)))) (boxes_of s)) as (k & E). unfold named. rewrite E. split.
  - apply NoDup_firstn. apply FinFun.Injective_map_NoDup; [intros i j; apply shape_name_inj|apply seq_NoDup].
  - intros I. assert (J : In "world" (map shape_name (seq 0 (length (sc_sizes N s))))) by (rewrite <- (firstn_skipn k (map shape_name _)); apply in_or_app; auto).
    apply in_map_iff in J. destruct J as (i & J & _). apply (shape_name_world i). auto.
Qed.
Lemma loop_prefix name content es k : (k <= length es)%nat -> forall f, run (firstn (2 * k) (export_loop name content es)) f = match k with O => f | _ => DocFile (urdf_doc name (content ++ firstn k es)) end.
Proof.
  revert content k. induction es as [|e es IH]; intros content k K f; [cbn in K; assert (k = 0)%nat by lia; subst; reflexivity|].
  destruct k as [|k]; [reflexivity|]. cbn in K. replace (2 * S k)%nat with (S (S (2 * k))) by lia. cbn [export_loop firstn]. unfold run. cbn [fold_left step]. fold (run (firstn (2 * k) (export_loop name (content ++ [e]) es)) (DocFile (urdf_doc name (content ++ [e])))).
  rewrite IH by lia. destruct k as [|k]; [reflexivity|]. rewrite <- app_assoc. reflexivity.
Qed.
Lemma loop_length name content es : length (export_loop name content es) = (2 * length es)%nat.
Proof. revert content. induction es as [|e es IH]; intros; [auto|]. cbn [export_loop length]. rewrite IH. lia. Qed.
Lemma loop_odd name content es k : (k < length es)%nat -> forall f, run (firstn (2 * k + 1) (export_loop name content es)) f = EmptyFile.
Proof.
  revert content k. induction es as [|e es IH]; intros content k K f; [cbn in K; lia|]. destruct k as [|k]; [reflexivity|]. cbn in K. replace (2 * S k + 1)%nat with (S (S (2 * k + 1))) by lia. cbn [export_loop firstn]. unfold run. cbn [fold_left].
  apply (IH (content ++ [e])%list k); lia.
Qed.
(** the scene of the first k boxes *)
Definition first_boxes (k : nat) (s : scene N) : scene N := Scene N (firstn k (sc_sizes N s)) (firstn k (sc_tfs N s)).
(** position kept, rotation replaced by the identity *)
Definition flatten (s : scene N) : scene N := Scene N (sc_sizes N s) (map (fun t => Tf N mid (f_pos N t)) (sc_tfs N s)).
Definition even (s : scene N) : Prop := length (sc_sizes N s) = length (sc_tfs N s).
Lemma labelled_length s : even s -> length (labelled s) = length (sc_sizes N s).
Proof. intros E. unfold labelled, boxes_of. rewrite !combine_length, !map_length, seq_length. rewrite E. lia. Qed.
Lemma flat_combine ns (ps qs : list F3) : length ns = length ps -> length ps = length qs ->
  flat (combine ns (combine ps qs)) = Coll (map (shape_of N) ps) (map (fun q => M4 mid (vec_of N q) v0 1) qs).
Proof.
  revert ps qs. induction ns as [|n ns IH]; intros [|p ps] [|q qs] H1 H2; try discriminate; [reflexivity|]. cbn [combine]. unfold flat in *. cbn [map fst snd].
  injection H1 as H1. injection H2 as H2. specialize (IH ps qs H1 H2). injection IH as I1 I2. rewrite I1, I2. auto.
Qed.
Lemma combine_firstn' {A B} k (l : list A) (m : list B) : firstn k (combine l m) = combine (firstn k l) (firstn k m).
Proof. revert l m. induction k as [|k IH]; intros [|x l] [|y m]; cbn; try reflexivity. rewrite IH. auto. Qed.
Lemma flat_first k s : even s -> (k <= length (sc_sizes N s))%nat -> flat (firstn k (labelled s)) = coll_of N (flatten (first_boxes k s)).
Proof.
  intros E K. unfold labelled, boxes_of. rewrite !combine_firstn'. rewrite flat_combine.
  - unfold coll_of, flatten, first_boxes. cbn [sc_sizes sc_tfs]. f_equal. rewrite firstn_map, !map_map. auto.
  - rewrite !firstn_length, map_length, seq_length. auto.
  - unfold even in E. rewrite !firstn_length, map_length. lia.
Qed.
(** after k completed writes *)
Lemma export_prefix s name k f : even s -> (k <= length (sc_sizes N s))%nat -> let g := run (firstn (2 * k) (export_urdf N s name)) f in
  (k = 0%nat -> g = f) /\ ((1 <= k)%nat -> import_urdf N g = Ok (coll_of N (flatten (first_boxes k s)))).
Proof.
  intros E K. cbv zeta. unfold export_urdf. rewrite export_data, loop_prefix by (rewrite map_length, labelled_length; auto). split; [intros ->; auto|].
  destruct k as [|k]; [lia|]. intros _. unfold import_urdf. rewrite app_nil_l, firstn_map, import_flat by apply named_firstn, labelled_named. f_equal. apply flat_first; auto.
Qed.
Lemma export_window s name k f : even s -> (k < length (sc_sizes N s))%nat -> exists e, import_urdf N (run (firstn (2 * k + 1) (export_urdf N s name)) f) = Raise e.
Proof. intros E K. unfold export_urdf. rewrite export_data, loop_odd by (rewrite map_length, labelled_length; auto). cbn. eauto. Qed.
Lemma export_length s name : even s -> length (export_urdf N s name) = (2 * length (sc_sizes N s))%nat.
Proof. intros E. unfold export_urdf. rewrite export_data, loop_length, map_length, labelled_length; auto. Qed.
Lemma first_all s : even s -> first_boxes (length (sc_sizes N s)) s = s.
Proof. intros E. unfold first_boxes. rewrite firstn_all. rewrite E, firstn_all. destruct s; auto. Qed.
(** complete export: positions kept, rotations lost *)
Lemma export_flattens s name f : even s -> sc_sizes N s <> [] -> import_urdf N (run (export_urdf N s name) f) = Ok (coll_of N (flatten s)).
Proof.
  intros E H. destruct (export_prefix s name (length (sc_sizes N s)) f E (le_n _)) as (_ & G). rewrite <- export_length with (name := name) in G by auto. rewrite firstn_all, first_all in G by auto. apply G. destruct (sc_sizes N s); [contradiction|cbn; lia].
Qed.
Definition unrotated (s : scene N) : Prop := Forall (fun t => f_rot N t = mid) (sc_tfs N s).
Lemma flatten_id s : unrotated s -> flatten s = s.
Proof. destruct s as [ps ts]. unfold unrotated, flatten. cbn. intros H. f_equal. induction H as [|[r p] ts E H IH]; [auto|]. cbn in *. subst. rewrite IH. auto. Qed.
Lemma export_unrotated s name f : even s -> sc_sizes N s <> [] -> unrotated s -> import_urdf N (run (export_urdf N s name) f) = Ok (coll_of N s).
Proof. intros E H U. rewrite export_flattens by auto. rewrite flatten_id; auto. Qed.
(** exactly the unrotated scenes are kept *)
Lemma export_exactly s name f : even s -> sc_sizes N s <> [] -> (import_urdf N (run (export_urdf N s name) f) = Ok (coll_of N s) <-> unrotated s).
Proof.
  intros E H. split; [|apply export_unrotated; auto]. rewrite export_flattens by auto. intros X. injection X as X. unfold unrotated. clear E H. destruct s as [ps ts]. cbn in *. induction ts as [|t ts IH]; [constructor|]. cbn in X. injection X as X1 X2. constructor; auto.
Qed.
Lemma export_empty s name f : sc_sizes N s = [] -> run (export_urdf N s name) f = f.
Proof. intros H. unfold export_urdf, create_urdf_data. rewrite H. reflexivity. Qed.
End Urdf.

(** ** Integers as numbers, for examples *)
Definition show_Z (z : Z) : string := NilZero.string_of_int (Z.to_int z).
Definition read_Z (s : string) : option Z := option_map Z.of_int (NilZero.int_of_string s).
Lemma read_show_Z z : read_Z (show_Z z) = Some z.
Proof.
  unfold read_Z, show_Z. rewrite NilZero.isi.
  - cbn. rewrite DecimalZ.of_to. auto.
  - destruct z; cbn; try discriminate. intros H. injection H as H. revert H. apply DecimalPos.Unsigned.to_uint_nonnil.
  - destruct z; cbn; try discriminate. intros H. injection H as H. revert H. apply DecimalPos.Unsigned.to_uint_nonnil.
Qed.
Lemma uint_digits d c : In c (list_ascii_of_string (NilEmpty.string_of_uint d)) -> c <> space.
Proof. induction d; cbn; intros I; [destruct I|..]; (destruct I as [<-|I]; [discriminate|auto]). Qed.
Lemma nz_plain d : plain (NilZero.string_of_uint d).
Proof.
  split.
  - destruct d; discriminate.
  - intros I. destruct d; try (exact (uint_digits _ _ I eq_refl)). cbn in I. destruct I as [I|[]]. discriminate.
Qed.
Lemma show_plain_Z z : plain (show_Z z).
Proof.
  unfold show_Z. destruct (Z.to_int z) as [d|d]; cbn [NilZero.string_of_int]; [apply nz_plain|]. destruct (nz_plain d) as [_ H]. split; [discriminate|]. intros [I|I]; [discriminate|auto].
Qed.
Lemma read_0_Z : exists z, read_Z "0" = Some z /\ IZR z = 0%R.
Proof. exists 0%Z. auto. Qed.
Definition ints : numbers := Numbers Z show_Z read_Z IZR read_show_Z show_plain_Z read_0_Z.

(** ** Documents written by others *)
Section Import.
Context (N : numbers).
Notation F3 := (num N * num N * num N)%type.
(** pose of a link, following the joints from the base link *)
Inductive placed (u : urdf N) : string -> mat4 -> Prop :=
| placed_base : placed u (u_base N u) eye4
| placed_child j T : placed u (rj_parent j) T -> In j (u_joints N u) -> placed u (rj_child j) (tmul T (rj_origin j)).
(** the robot has a box of size p at T *)
Definition box_at (u : urdf N) (p : F3) (T : mat4) : Prop :=
  exists l Tc Tl, In l (u_links N u) /\ In (Tc, Some p) (rl_coll N l) /\ placed u (rl_name N l) Tl /\ T = tmul Tl Tc.
(** all joints start at the base link, collision shapes sit at their link, the
    base link has none *)
Record star (u : urdf N) : Prop := {
  star_joints : forall j, In j (u_joints N u) -> rj_parent j = u_base N u;
  star_origin : forall l c, In l (u_links N u) -> In c (rl_coll N l) -> fst c = eye4;
  star_base : forall l, In l (u_links N u) -> rl_name N l = u_base N u -> rl_coll N l = []
}.
Lemma load_links_names ls rs : mapM (load_link N) ls = Ok rs -> map (rl_name N) rs = map l_name ls.
Proof.
  intros H. apply mapM_Ok_Forall2 in H. induction H as [|l r ls rs E H IH]; [auto|]. cbn. rewrite IH. f_equal. unfold load_link in E. apply bind_Ok in E. destruct E as (cs & _ & E). injection E as <-. auto.
Qed.
Lemma load_joints_names js rs : mapM (load_joint N) js = Ok rs -> map rj_child rs = map j_child js.
Proof.
  intros H. apply mapM_Ok_Forall2 in H. induction H as [|l r ls rs E H IH]; [auto|]. cbn. rewrite IH. f_equal. unfold load_joint in E. apply bind_Ok in E. destruct E as (cs & _ & E). injection E as <-. auto.
Qed.
Lemma load_inv d u : load N d = Ok u -> NoDup (map (rl_name N) (u_links N u)) /\ ~ In (u_base N u) (map rj_child (u_joints N u)) /\
  (forall l, In l (u_links N u) -> rl_name N l <> u_base N u -> In (rl_name N l) (map rj_child (u_joints N u))).
Proof.
  unfold load. cbv zeta. intros H. apply bind_Ok in H. destruct H as (ls & Ls & H). apply bind_Ok in H. destruct H as (js & Js & H).
  destruct (nodupb (map l_name (d_links d))) eqn:B1; [|discriminate]. destruct (negb true || _) eqn:B2; [discriminate|]. clear B2. destruct (negb (forallb _ (d_joints d))); [discriminate|]. destruct (negb (forallb _ _)); [discriminate|].
  destruct (filter _ _) as [|b [|? ?]] eqn:Fl; try discriminate. injection H as <-. cbn [u_links u_joints u_base].
  rewrite (load_links_names _ _ Ls), (load_joints_names _ _ Js). split; [apply nodupb_NoDup; auto|]. split.
  - assert (I : In b [b]) by (left; auto). rewrite <- Fl in I. apply filter_In in I. destruct I as [_ I]. apply negb_true_iff, mem_notIn in I. auto.
  - intros l I Nb. assert (J : In (rl_name N l) (map l_name (d_links d))) by (rewrite <- (load_links_names _ _ Ls); apply in_map; auto).
    destruct (mem (rl_name N l) (map j_child (d_joints d))) eqn:M; [apply mem_In; auto|]. exfalso. apply Nb.
    assert (K : In (rl_name N l) [b]) by (rewrite <- Fl; apply filter_In; split; [auto|rewrite M; auto]). destruct K as [K|[]]. auto.
Qed.
Lemma load_children d u : load N d = Ok u -> forall j, In j (u_joints N u) -> In (rj_child j) (map (rl_name N) (u_links N u)).
Proof.
  unfold load. cbv zeta. intros H. apply bind_Ok in H. destruct H as (ls & Ls & H). apply bind_Ok in H. destruct H as (js & Js & H).
  destruct (negb _ || _); [discriminate|]. destruct (forallb _ (d_joints d)) eqn:B; [|discriminate]. cbn [negb] in H. destruct (negb (forallb _ _)); [discriminate|].
  destruct (filter _ _) as [|b [|? ?]]; try discriminate. injection H as <-. cbn [u_links u_joints]. rewrite (load_links_names _ _ Ls). intros j I.
  assert (K : In (rj_child j) (map rj_child js)) by (apply in_map; auto). rewrite (load_joints_names _ _ Js) in K. apply in_map_iff in K. destruct K as (j' & E & K). rewrite forallb_forall in B. specialize (B j' K). apply andb_true_iff in B. destruct B as [_ B]. apply mem_In in B. congruence.
Qed.
Lemma link_shapes_get ls sh : link_shapes N ls = Ok sh -> NoDup (map (rl_name N) ls) ->
  (forall k p, dict_get k sh = Ok p -> exists l T, In l ls /\ rl_name N l = k /\ rl_coll N l = [(T, Some p)]) /\
  (forall l c, In l ls -> In c (rl_coll N l) -> exists T p, c = (T, Some p) /\ rl_coll N l = [c] /\ dict_get (rl_name N l) sh = Ok p).
Proof.
  revert sh. induction ls as [|r ls IH]; intros sh H D.
  - injection H as <-. split; [discriminate|]. intros ? ? [].
  - cbn [map] in D. inversion D as [|? ? D1 D2]; subst. cbn [link_shapes] in H. destruct (rl_coll N r) as [|c cs] eqn:C.
    + destruct (IH sh H D2) as [I1 I2]. split.
      * intros k p G. destruct (I1 k p G) as (l & T & I & E1 & E2). exists l, T. split; [right; auto|auto].
      * intros l c [<-|I] J; [rewrite C in J; destruct J|]. apply I2; auto.
    + apply bind_Ok in H. destruct H as (p & P & H). apply bind_Ok in H. destruct H as (sh' & S & H). injection H as <-. destruct (IH sh' S D2) as [I1 I2].
      unfold parse_link in P. rewrite C in P. destruct c as [T [q|]], cs as [|? ?]; try discriminate. injection P as ->. split.
      * intros k p' G. cbn [dict_get] in G. destruct (String.eqb_spec k (rl_name N r)) as [E|E].
        -- injection G as <-. exists r, T. split; [left; auto|auto].
        -- destruct (I1 k p' G) as (l & T' & I & E1 & E2). exists l, T'. split; [right; auto|auto].
      * intros l c [<-|I] J.
        -- rewrite C in J. destruct J as [<-|[]]. exists T, p. split; [auto|]. split; [auto|]. cbn [dict_get]. rewrite String.eqb_refl. auto.
        -- destruct (I2 l c I J) as (T' & p' & E & E1 & E2). exists T', p'. split; [auto|]. split; [auto|]. cbn [dict_get]. destruct (String.eqb_spec (rl_name N l) (rl_name N r)) as [X|X]; [|auto].
           exfalso. apply D1. rewrite <- X. apply in_map. auto.
Qed.
Lemma placed_star u d l T : load N d = Ok u -> star u -> placed u l T -> l <> u_base N u -> exists j, In j (u_joints N u) /\ rj_parent j = u_base N u /\ rj_child j = l /\ T = rj_origin j.
Proof.
  intros L S P. destruct (load_inv _ _ L) as (_ & Nb & _). induction P as [|j T P IH I]; [congruence|]. intros _. exists j. split; [auto|]. split; [apply (star_joints _ S); auto|]. split; [auto|].
  rewrite (star_joints _ S j I) in P. inversion P as [|j' T' P' I' E].
  - apply tmul_1_l.
  - exfalso. apply Nb. rewrite <- E. apply in_map. auto.
Qed.
(** a star-shaped robot is imported box by box *)
Lemma import_star d u c : load N d = Ok u -> star u -> import_doc N d = Ok c ->
  forall s T, In (s, T) (combine (c_s c) (c_tf c)) <-> exists p, s = shape_of N p /\ box_at u p T.
Proof.
  intros L S H s T. destruct (load_inv _ _ L) as (D & Nb & Ch). unfold import_doc in H. rewrite L in H. cbn [bind] in H. apply bind_Ok in H. destruct H as (sh & Sh & H). apply bind_Ok in H. destruct H as (bs & Bs & H). injection H as <-. cbn [c_s c_tf].
  assert (E : combine (map fst bs) (map snd bs) = bs). { clear. induction bs as [|[a b] bs IH]; cbn; [auto|rewrite IH; auto]. }
  rewrite E. destruct (link_shapes_get _ _ Sh D) as [G1 G2]. unfold root_boxes in Bs. apply mapM_Ok_Forall2 in Bs. split.
  - intros I. apply (Forall2_In_r _ _ _ _ Bs) in I. destruct I as (j & J & X). apply filter_In in J. destruct J as [J _]. apply bind_Ok in X. destruct X as (p & P & X). injection X as <- <-.
    exists p. split; [auto|]. destruct (G1 _ _ P) as (l & Tc & I & En & Ec). exists l, Tc, (tmul eye4 (rj_origin j)). split; [auto|]. split; [rewrite Ec; left; auto|]. split.
    + rewrite En. apply placed_child; [rewrite (star_joints _ S j J); constructor|auto].
    + assert (Tc = eye4) as -> by (apply (star_origin _ S l (Tc, Some p) I); rewrite Ec; left; auto). rewrite tmul_1_r, tmul_1_l. auto.
  - intros (p & -> & l & Tc & Tl & I & J & P & ->). assert (Nl : rl_name N l <> u_base N u) by (intros X; rewrite (star_base _ S l I X) in J; destruct J).
    destruct (placed_star u d _ _ L S P Nl) as (j & Ij & Pj & Cj & ->). pose proof (star_origin _ S l _ I J) as O. cbn in O. subst Tc. rewrite tmul_1_r.
    destruct (G2 l _ I J) as (Tc & p' & X & _ & Gd). injection X as <- <-.
    assert (F : In j (filter (fun j => String.eqb (rj_parent j) (u_base N u)) (u_joints N u))) by (apply filter_In; split; [auto|rewrite Pj; apply String.eqb_refl]).
    apply (Forall2_In_l _ _ _ _ Bs) in F. destruct F as (y & Y & X). rewrite Cj, Gd in X. cbn [bind] in X. injection X as <-. auto.
Qed.
(** it returns when every other link has exactly one box *)
Lemma import_star_returns d u : load N d = Ok u -> star u ->
  (forall l, In l (u_links N u) -> rl_name N l <> u_base N u -> exists T p, rl_coll N l = [(T, Some p)]) -> exists c, import_doc N d = Ok c.
Proof.
  intros L S B. pose proof (load_children _ _ L) as K. destruct (load_inv _ _ L) as (D & Nb & Ch). unfold import_doc. rewrite L. cbn [bind].
  assert (X : exists sh, link_shapes N (u_links N u) = Ok sh).
  { assert (G : forall ls, (forall l, In l ls -> In l (u_links N u)) -> exists sh, link_shapes N ls = Ok sh); [|apply G; auto].
    induction ls as [|l ls IH]; intros I; [exists []; auto|]. destruct (IH ltac:(intros; apply I; right; auto)) as (sh & E). cbn [link_shapes].
    destruct (String.eqb_spec (rl_name N l) (u_base N u)) as [Q|Q].
    - rewrite (star_base _ S l ltac:(apply I; left; auto) Q). eauto.
    - destruct (B l ltac:(apply I; left; auto) Q) as (T & p & C). rewrite C. unfold parse_link. rewrite C. cbn [bind]. rewrite E. cbn. eauto. }
  destruct X as (sh & Sh). rewrite Sh. cbn [bind]. destruct (link_shapes_get _ _ Sh D) as [G1 G2].
  destruct (mapM_ex (fun j => p <- dict_get (rj_child j) sh ;; Ok (shape_of N p, rj_origin j)) (fun _ _ => True) (filter (fun j => String.eqb (rj_parent j) (u_base N u)) (u_joints N u))) as (bs & E & _).
  - intros j J. apply filter_In in J. destruct J as [J _]. pose proof (K j J) as I. apply in_map_iff in I. destruct I as (l & En & I).
    destruct (B l I) as (T & p & C). { intros Q. apply Nb. rewrite <- Q, En. apply in_map. auto. }
    destruct (G2 l (T, Some p) I ltac:(rewrite C; left; auto)) as (T' & p' & X & _ & Gd). rewrite <- En, Gd. cbn [bind]. eauto.
  - unfold root_boxes. rewrite E. cbn [bind]. eauto.
Qed.
(** a link with more than one collision shape, or another geometry, is refused *)
Lemma import_refuses d u l : load N d = Ok u -> In l (u_links N u) -> rl_coll N l <> [] -> (forall T p, rl_coll N l <> [(T, Some p)]) -> import_doc N d = Raise AssertionError.
Proof.
  intros L I C B. unfold import_doc. rewrite L. cbn [bind]. assert (H : forall ls, In l ls -> link_shapes N ls = Raise AssertionError).
  { induction ls as [|r ls IH]; intros J; [destruct J|]. cbn [link_shapes]. destruct (rl_coll N r) as [|c cs] eqn:E.
    - destruct J as [->|J]; [contradiction|auto].
    - unfold parse_link. rewrite E. destruct J as [->|J].
      + destruct c as [T [p|]], cs; try reflexivity. exfalso. apply (B T p). auto.
      + destruct c as [T [p|]], cs; try reflexivity. cbn [bind]. rewrite IH by auto. auto. }
  rewrite H by auto. auto.
Qed.
End Import.

(** ** Refutations *)
Lemma rotated_refuted : exists (N : numbers) s name f, even N s /\ sc_sizes N s <> [] /\ Forall (fun t => rotation (f_rot N t)) (sc_tfs N s) /\ import_urdf N (run (export_urdf N s name) f) <> Ok (coll_of N s).
Proof.
  exists ints, (Scene ints [(1, 1, 1)%Z] [Tf ints (rot_x PI) (0, 0, 0)%Z]), "r", NoFile. split; [reflexivity|]. split; [discriminate|]. split; [constructor; [apply rot_x_rotation|constructor]|].
  intros H. apply export_exactly in H; [|reflexivity|discriminate]. unfold unrotated in H. cbn in H. inversion H as [|? ? H1 _]. cbn in H1. unfold rot_x, mid in H1. injection H1 as H1 _ _ _. rewrite cos_PI in H1. lra.
Qed.
Lemma empty_refuted : exists (N : numbers) s name f, sc_sizes N s = [] /\ sc_tfs N s = [] /\ import_urdf N (run (export_urdf N s name) f) <> Ok (coll_of N s) /\ f <> NoFile.
Proof.
  set (e := Scene ints [] []). set (one := Scene ints [(1, 1, 1)%Z] [Tf ints mid (0, 0, 0)%Z]). exists ints, e, "r", (run (export_urdf ints one "r") NoFile). split; [auto|]. split; [auto|]. rewrite export_empty by auto.
  rewrite export_unrotated; [|reflexivity|discriminate|repeat constructor]. split; [discriminate|]. discriminate.
Qed.
Definition chain_doc : doc := Doc "chain" [Link "world" []; Link "a" [Collision "0 0 0" "0 0 0" (GBox "1 1 1")]; Link "b" [Collision "0 0 0" "0 0 0" (GBox "1 1 1")]]
  [Joint "j1" "world" "a" "0 0 0" "0 0 0"; Joint "j2" "a" "b" "0 0 5" "0 0 0"].
Definition offset_doc : doc := Doc "offset" [Link "world" []; Link "a" [Collision "0 0 5" "0 0 0" (GBox "1 1 1")]] [Joint "j1" "world" "a" "0 0 0" "0 0 0"].
(** a box of the robot that the import loses *)
Definition loses (d : doc) : Prop := exists u c p T, load ints d = Ok u /\ import_doc ints d = Ok c /\ box_at ints u p T /\ ~ In (shape_of ints p, T) (combine (c_s c) (c_tf c)).
Definition T_of (z : Z) : mat4 := M4 (rpy_to_matrix 0 0 0) (V3 0 0 (IZR z)) v0 1.
Lemma T_of_mul a b : tmul (T_of a) (T_of b) = T_of (a + b).
Proof. unfold T_of. rewrite rpy_to_matrix_0, plus_IZR. rewrite tmul_blocks by reflexivity. cbn [rot pos]. rewrite mmul_1_l, mapply_1. apply mat4_eq; cbn [rot pos brow bww]; auto. munf. f_equal; ring. Qed.
Lemma T_of_0 : T_of 0 = eye4.
Proof. unfold T_of. rewrite rpy_to_matrix_0. reflexivity. Qed.
Lemma T_of_inj a b : T_of a = T_of b -> a = b.
Proof. intros H. apply eq_IZR. exact (f_equal (fun T => vz (pos T)) H). Qed.
Definition one3 : Z * Z * Z := (1, 1, 1)%Z.
Definition chain_urdf : urdf ints := Robot ints
  [RLink ints "world" []; RLink ints "a" [(T_of 0, Some one3)]; RLink ints "b" [(T_of 0, Some one3)]] [RJoint "world" "a" (T_of 0); RJoint "a" "b" (T_of 5)] "world".
Lemma chain_loads : load ints chain_doc = Ok chain_urdf /\ import_doc ints chain_doc = Ok (Coll [Shape 1 1 1] [T_of 0]).
Proof. split; reflexivity. Qed.
Lemma chain_loses : loses chain_doc.
Proof.
  exists chain_urdf, (Coll [Shape 1 1 1] [T_of 0]), one3, (T_of 5). split; [apply chain_loads|]. split; [apply chain_loads|]. split.
  - exists (RLink ints "b" [(T_of 0, Some one3)]), (T_of 0), (tmul (tmul eye4 (T_of 0)) (T_of 5)). split; [right; right; left; auto|]. split; [left; auto|]. split.
    + apply (placed_child ints chain_urdf (RJoint "a" "b" (T_of 5))); [|right; left; auto]. apply (placed_child ints chain_urdf (RJoint "world" "a" (T_of 0))); [constructor|left; auto].
    + rewrite tmul_1_l, !T_of_mul. auto.
  - cbn [c_s c_tf combine]. intros [H|[]]. apply (f_equal snd) in H. cbn [snd] in H. apply T_of_inj in H. discriminate.
Qed.
Definition offset_urdf : urdf ints := Robot ints [RLink ints "world" []; RLink ints "a" [(T_of 5, Some one3)]] [RJoint "world" "a" (T_of 0)] "world".
Lemma offset_loads : load ints offset_doc = Ok offset_urdf /\ import_doc ints offset_doc = Ok (Coll [Shape 1 1 1] [T_of 0]).
Proof. split; reflexivity. Qed.
Lemma offset_loses : loses offset_doc.
Proof.
  exists offset_urdf, (Coll [Shape 1 1 1] [T_of 0]), one3, (T_of 5). split; [apply offset_loads|]. split; [apply offset_loads|]. split.
  - exists (RLink ints "a" [(T_of 5, Some one3)]), (T_of 5), (tmul eye4 (T_of 0)). split; [right; left; auto|]. split; [left; auto|]. split.
    + apply (placed_child ints offset_urdf (RJoint "world" "a" (T_of 0))); [constructor|left; auto].
    + rewrite tmul_1_l, T_of_mul. auto.
  - cbn [c_s c_tf combine]. intros [H|[]]. apply (f_equal snd) in H. cbn [snd] in H. apply T_of_inj in H. discriminate.
Qed.
Lemma import_loses : loses chain_doc /\ loses offset_doc.
Proof. exact (conj chain_loses offset_loses). Qed.
Lemma import_refuted : exists d, loses d.
Proof. exists chain_doc. exact chain_loses. Qed.
(** a document meeting the conditions *)
Definition star_doc : doc := Doc "star" [Link "world" []; Link "a" [Collision "0 0 0" "0 0 0" (GBox "1 1 1")]] [Joint "j1" "world" "a" "0 0 -3" "0 0 0"].
Lemma star_example : exists u, load ints star_doc = Ok u /\ star ints u /\ exists c, import_doc ints star_doc = Ok c.
Proof.
  exists (Robot ints [RLink ints "world" []; RLink ints "a" [(T_of 0, Some one3)]] [RJoint "world" "a" (T_of (-3))] "world"). split; [reflexivity|]. split; [|eexists; reflexivity]. split; cbn.
  - intros j [<-|[]]. auto.
  - intros l c [<-|[<-|[]]] I; cbn in I; [destruct I|]. destruct I as [<-|[]]. apply T_of_0.
  - intros l [<-|[<-|[]]] E; cbn in *; [auto|discriminate].
Qed.

(** ** roll, pitch and yaw *)
Section Rpy.
Local Open Scope R_scope.
Lemma rot_neg a : mtr (rot_x (- a)) = rot_x a /\ mtr (rot_y (- a)) = rot_y a /\ mtr (rot_z (- a)) = rot_z a.
Proof. unfold mtr, rot_x, rot_y, rot_z. cbn [m00 m01 m02 m10 m11 m12 m20 m21 m22]. rewrite cos_neg, sin_neg, Ropp_involutive. auto. Qed.
Lemma rpy_transpose r p y : rpy_to_matrix r p y = mtr (rot_xyz (- r) (- p) (- y)).
Proof. unfold rpy_to_matrix, rot_xyz. rewrite !mtr_mmul. destruct (rot_neg r) as (-> & _ & _), (rot_neg p) as (_ & -> & _), (rot_neg y) as (_ & _ & ->). symmetry. apply mmul_assoc. Qed.
Lemma rot_0 : rot_x 0 = mid /\ rot_y 0 = mid /\ rot_z 0 = mid.
Proof. unfold rot_x, rot_y, rot_z, mid. rewrite cos_0, sin_0, Ropp_0. auto. Qed.
Lemma rpy_single a : rpy_to_matrix a 0 0 = rot_xyz a 0 0 /\ rpy_to_matrix 0 a 0 = rot_xyz 0 a 0 /\ rpy_to_matrix 0 0 a = rot_xyz 0 0 a.
Proof. unfold rpy_to_matrix, rot_xyz. destruct rot_0 as (-> & -> & ->). rewrite !mmul_1_l, !mmul_1_r. auto. Qed.
Lemma rpy_differs : rpy_to_matrix (PI / 2) (PI / 2) 0 <> rot_xyz (PI / 2) (PI / 2) 0.
Proof.
  unfold rpy_to_matrix, rot_xyz. destruct rot_0 as (_ & _ & ->). rewrite mmul_1_l, mmul_1_r. intros H. apply (f_equal m01) in H.
  unfold rot_x, rot_y in H. rewrite cos_PI2, sin_PI2 in H. unfold mmul in H. cbn [m00 m01 m02 m10 m11 m12 m20 m21 m22] in H. lra.
Qed.
Lemma rpy_rotation r p y : rotation (rpy_to_matrix r p y).
Proof. rewrite rpy_transpose. apply rotation_tr. apply rot_xyz_rotation. Qed.
End Rpy.
(** urdfpy's reading of an origin *)
Lemma origin_read N xyz rpy x y z r p w : read3 N xyz = Ok (x, y, z) -> read3 N rpy = Ok (r, p, w) ->
  origin N xyz rpy = Ok (M4 (mmul (rot_z (value N w)) (mmul (rot_y (value N p)) (rot_x (value N r)))) (V3 (value N x) (value N y) (value N z)) v0 1).
Proof. intros E1 E2. unfold origin. rewrite E1, E2. reflexivity. Qed.
