(** * The costs of graph.cpp in C++ floating point, and exact joint motion.

    A float is the real number it stands for.  [b32] and [b64] round to the
    nearest float and double (ties to even); a result that reaches 2^128
    overflows to infinity ([None]).  NaN is not modelled. *)
From Coq Require Import ZArith Reals List Arith.
From Flocq Require Import Core.
From Verif Require Import Cost CostFloat.
Import ListNotations.
Local Open Scope R_scope.

Definition b32 (x : R) : R := rnd (-149) 24 x.
Definition b64 (x : R) : R := rnd (-1074) 53 x.
(** x is a float *)
Definition is32 (x : R) : Prop := generic_format radix2 (FLT_exp (-149) 24) x.
Definition max32 : R := bpow radix2 128.
Definition fin32 (x : R) : option R := if rltb x max32 then Some x else None.

(** graph.cpp:183 cost += weights[i] * std::pow(n1[i] - n2[i], 2.0).
    The difference is a float, std::pow(float, double) a double, so are the
    product and the sum; the assignment rounds to float.  The power is taken to
    be correctly rounded.  A difference that overflows makes the cost infinite
    (with weight zero it would be NaN). *)
Definition fsq32 (acc : Float32Cost) (w a b : R) : Float32Cost :=
  match acc with
  | None => None
  | Some c =>
      let d := b32 (a - b) in
      if rltb (Rabs d) max32 then
        let t := b64 (w * b64 (d * d)) in
        fin32 (b32 (b64 (c + t)))
      else None
  end.

(** ** Specification: weighted squared joint motion in exact arithmetic *)
Fixpoint sqdist (w a b : list R) : R :=
  match w, a, b with
  | wi :: w', x :: a', y :: b' => wi * ((x - y) * (x - y)) + sqdist w' a' b'
  | _, _, _ => 0
  end.
Fixpoint motion (w : list R) (p : list (list R)) : R :=
  match p with
  | x :: ((y :: _) as p') => sqdist w x y + motion w p'
  | _ => 0
  end.

(** rounding unit of float, half the smallest float *)
Definition u32 : R := bpow radix2 (-24).
Definition eta32 : R := bpow radix2 (-150).
(** [within k m v x]: x is v up to k relative rounding errors and m underflows *)
Definition within (k m : nat) (v x : R) : Prop :=
  (1 - u32) ^ k * v - INR m * eta32 <= x <= (1 + u32) ^ k * (v + INR m * eta32).
(** number of roundings and of underflows for N points with n joints *)
Definition ops (n N : nat) : nat := 2 * n + N + 3.
Definition unf (n N : nat) : nat := n * (N - 1).

(** ** Specification: the l1-norm named in the docstring, planning.py:393 *)
Fixpoint l1dist (a b : list R) : R :=
  match a, b with
  | x :: a', y :: b' => Rabs (x - y) + l1dist a' b'
  | _, _ => 0
  end.
Fixpoint travel (p : list (list R)) : R :=
  match p with
  | x :: ((y :: _) as p') => l1dist x y + travel p'
  | _ => 0
  end.
