(** * IEEE float32 / float64 rounding as a cost arithmetic (Flocq).

    A cost is a real number or infinity; addition rounds to nearest-even in
    the binary32 (binary64) format with gradual underflow and overflows to
    infinity.  NaN and negative infinity are not modelled. *)
From Coq Require Import ZArith Lia Bool Reals Lra.
From Flocq Require Import Core.
From Verif Require Import Cost.

Section Rounded.
Context (emin prec emax : Z).
Context (Hprec : Prec_gt_0 prec).

Definition rnd (x : R) : R := round radix2 (FLT_exp emin prec) ZnearestE x.

Definition fladd (a b : option R) : option R :=
  match a, b with
  | Some x, Some y => let s := rnd (x + y) in if rltb s (bpow radix2 emax) then Some s else None
  | _, _ => None
  end.

Lemma rnd_mono x y : (x <= y)%R -> (rnd x <= rnd y)%R.
Proof. intros H. apply round_le; auto; typeclasses eauto. Qed.

Lemma fladd_mono_l a b c : xrlt a b = false -> xrlt (fladd a c) (fladd b c) = false.
Proof.
  destruct a as [a|], b as [b|], c as [c|]; simpl; intros H; try discriminate; auto.
  apply rltb_false in H.
  pose proof (rnd_mono (b + c) (a + c) ltac:(lra)) as Hm.
  destruct (rltb (rnd (a + c)) (bpow radix2 emax)) eqn:Ea; simpl.
  - destruct (rltb (rnd (b + c)) (bpow radix2 emax)) eqn:Eb; simpl.
    + apply rltb_false; auto.
    + apply rltb_true in Ea. apply rltb_false in Eb. lra.
  - destruct (rltb (rnd (b + c)) (bpow radix2 emax)); reflexivity.
Qed.

Lemma fladd_comm a b : fladd a b = fladd b a.
Proof. destruct a, b; simpl; auto. rewrite Rplus_comm. reflexivity. Qed.

Lemma fladd_mono_r a b c : xrlt a b = false -> xrlt (fladd c a) (fladd c b) = false.
Proof. rewrite !(fladd_comm c). apply fladd_mono_l. Qed.

Program Definition RoundedCost : CostStruct := {|
  cost := option R; clt := xrlt; cadd := fladd; czero := Some 0%R; cinf := None;
  clt_irrefl := clt_irrefl RCost; clt_trans := clt_trans RCost; clt_weak := clt_weak RCost;
  cadd_mono_l := fladd_mono_l; cadd_mono_r := fladd_mono_r |}.
Next Obligation. destruct a; reflexivity. Qed.
End Rounded.

(** IEEE single and double precision. *)
Definition Float32Cost : CostStruct := RoundedCost (-149) 24 128 ltac:(reflexivity).
Definition Float64Cost : CostStruct := RoundedCost (-1074) 53 1024 ltac:(reflexivity).
