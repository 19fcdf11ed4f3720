(** * Cost arithmetic.

    The graph searches and the dynamic program only compare costs with [<] and
    add them with [+].  The models are written over any arithmetic with a
    strict weak order, a monotone addition and a top element "infinity"; this
    covers exact numbers and IEEE rounding alike (NaN excluded). *)
From Coq Require Import List Arith ZArith Lia Bool Reals Lra.
Import ListNotations.

Record CostStruct : Type := {
  cost :> Type;
  clt : cost -> cost -> bool;         (* a < b *)
  cadd : cost -> cost -> cost;        (* a + b *)
  czero : cost;                       (* 0.0 *)
  cinf : cost;                        (* np.inf / INF *)
  clt_irrefl : forall a, clt a a = false;
  clt_trans : forall a b c, clt a b = true -> clt b c = true -> clt a c = true;
  clt_weak : forall a b c, clt a c = true -> clt a b = true \/ clt b c = true;
  cadd_mono_l : forall a b c, clt a b = false -> clt (cadd a c) (cadd b c) = false;
  cadd_mono_r : forall a b c, clt a b = false -> clt (cadd c a) (cadd c b) = false;
  cinf_top : forall a, clt cinf a = false;
  cadd_inf : forall a, clt (cadd cinf a) cinf = false;
  cadd_inf_r : forall a, clt (cadd a cinf) cinf = false;
  czero_fin : clt czero cinf = true
}.
Arguments clt {_}. Arguments cadd {_}. Arguments czero {_}. Arguments cinf {_}.

(** [cle a b]: a is not larger than b. *)
Definition cle {K : CostStruct} (a b : K) : Prop := clt b a = false.

Section Laws.
Context {K : CostStruct}.
Implicit Types a b c : K.

Lemma cle_refl a : cle a a.
Proof. apply clt_irrefl. Qed.

Lemma cle_trans a b c : cle a b -> cle b c -> cle a c.
Proof.
  unfold cle; intros H1 H2. destruct (clt c a) eqn:E; auto.
  destruct (clt_weak K c b a E) as [H|H]; congruence.
Qed.

Lemma clt_cle a b : clt a b = true -> cle a b.
Proof.
  unfold cle; intros H. destruct (clt b a) eqn:E; auto.
  pose proof (clt_trans K _ _ _ H E) as H2. rewrite clt_irrefl in H2; discriminate.
Qed.

Lemma cle_lt_trans a b c : cle a b -> clt b c = true -> clt a c = true.
Proof.
  unfold cle; intros H1 H2. destruct (clt_weak K b a c H2) as [H|H]; congruence.
Qed.

Lemma clt_le_trans a b c : clt a b = true -> cle b c -> clt a c = true.
Proof.
  unfold cle; intros H1 H2. destruct (clt_weak K a c b H1) as [H|H]; congruence.
Qed.

Lemma cle_total a b : cle a b \/ cle b a.
Proof.
  unfold cle. destruct (clt b a) eqn:E; auto. right. apply clt_cle; auto.
Qed.

Lemma cle_inf a : cle a cinf.
Proof. apply cinf_top. Qed.

Lemma cadd_le_l a b c : cle a b -> cle (cadd a c) (cadd b c).
Proof. unfold cle; intros; apply cadd_mono_l; auto. Qed.

Lemma cadd_le_r a b c : cle a b -> cle (cadd c a) (cadd c b).
Proof. unfold cle; intros; apply cadd_mono_r; auto. Qed.

Lemma cadd_lt_inf a c : clt (cadd a c) cinf = true -> clt a cinf = true.
Proof.
  intros H. destruct (clt a cinf) eqn:E; auto.
  assert (Hle : cle (cadd cinf c) (cadd a c)) by (apply cadd_le_l; exact E).
  pose proof (cle_lt_trans _ _ _ Hle H) as H2. rewrite cadd_inf in H2; discriminate.
Qed.

Lemma cadd_lt_inf_r a c : clt (cadd a c) cinf = true -> clt c cinf = true.
Proof.
  intros H. destruct (clt c cinf) eqn:E; auto.
  assert (Hle : cle (cadd a cinf) (cadd a c)) by (apply cadd_le_r; exact E).
  pose proof (cle_lt_trans _ _ _ Hle H) as H2. rewrite cadd_inf_r in H2; discriminate.
Qed.
End Laws.

(** ** Instances *)

(** Extended integers; [None] is infinity.  Used for computed examples. *)
Definition zlt (a b : option Z) : bool :=
  match a, b with Some x, Some y => Z.ltb x y | Some _, None => true | None, _ => false end.
Definition zadd (a b : option Z) : option Z :=
  match a, b with Some x, Some y => Some (x + y)%Z | _, _ => None end.

Program Definition ZCost : CostStruct := {|
  cost := option Z; clt := zlt; cadd := zadd; czero := Some 0%Z; cinf := None |}.
Next Obligation. destruct a; simpl; auto. apply Z.ltb_irrefl. Qed.
Next Obligation. destruct a, b, c; simpl in *; try discriminate; auto. apply Z.ltb_lt in H, H0. apply Z.ltb_lt. lia. Qed.
Next Obligation. destruct a, b, c; simpl in *; try discriminate; auto. apply Z.ltb_lt in H. rewrite !Z.ltb_lt. lia. Qed.
Next Obligation. destruct a, b, c; simpl in *; try discriminate; auto. apply Z.ltb_ge in H. apply Z.ltb_ge. lia. Qed.
Next Obligation. destruct a, b, c; simpl in *; try discriminate; auto. apply Z.ltb_ge in H. apply Z.ltb_ge. lia. Qed.
Next Obligation. destruct a; reflexivity. Qed.

(** Extended reals; [None] is infinity. *)
Definition rltb (x y : R) : bool := if Rlt_dec x y then true else false.
Lemma rltb_true x y : rltb x y = true <-> (x < y)%R.
Proof. unfold rltb; destruct (Rlt_dec x y); split; intros; try discriminate; auto; contradiction. Qed.
Lemma rltb_false x y : rltb x y = false <-> (y <= x)%R.
Proof. unfold rltb; destruct (Rlt_dec x y); split; intros; try discriminate; auto; lra. Qed.

Definition xrlt (a b : option R) : bool :=
  match a, b with Some x, Some y => rltb x y | Some _, None => true | None, _ => false end.
Definition xradd (a b : option R) : option R :=
  match a, b with Some x, Some y => Some (x + y)%R | _, _ => None end.

Program Definition RCost : CostStruct := {|
  cost := option R; clt := xrlt; cadd := xradd; czero := Some 0%R; cinf := None |}.
Next Obligation. destruct a; simpl; auto. apply rltb_false; lra. Qed.
Next Obligation. destruct a, b, c; simpl in *; try discriminate; auto. apply rltb_true in H, H0. apply rltb_true. lra. Qed.
Next Obligation. destruct a, b, c; simpl in *; try discriminate; auto. apply rltb_true in H. rewrite !rltb_true. lra. Qed.
Next Obligation. destruct a, b, c; simpl in *; try discriminate; auto. apply rltb_false in H. apply rltb_false. lra. Qed.
Next Obligation. destruct a, b, c; simpl in *; try discriminate; auto. apply rltb_false in H. apply rltb_false. lra. Qed.
Next Obligation. destruct a; reflexivity. Qed.
