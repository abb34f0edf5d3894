(** What is asked of the floating-point arithmetic: results close to the real
    ones, and exact where the true result is a small integer.  IEEE 754 division
    and any usual log2 qualify; the arithmetic may otherwise do as it likes. *)
From Coq Require Import ZArith NArith Reals.
From Flocq Require Import Core.
From Verif Require Import FpParams.
Open Scope R_scope.

(** The binary logarithm of a positive real. *)
Definition log2R (x : R) : R := ln x / ln 2.

(** [m] computes logarithms of integers below [B] and quotients of numbers up to
    32 by small positive integers with an error of at most [e], and makes no error
    when the result is an integer (up to 256). *)
Record accurate (B : Z) (e : R) (m : fpu) : Prop := {
  acc_log : forall n : Z, (0 < n < B)%Z -> Rabs (fp_log2 m (IZR n) - log2R (IZR n)) <= e;
  acc_log_pow : forall k : Z, (0 <= k)%Z -> (2 ^ k < B)%Z -> fp_log2 m (IZR (2 ^ k)) = IZR k;
  acc_div : forall (a : R) (b : Z), 0 <= a <= 32 -> (0 < b < 32)%Z ->
    Rabs (fp_div m a (IZR b) - a / IZR b) <= e;
  acc_div_int : forall (q b : Z), (0 <= q * b <= 256)%Z -> (0 < b < 32)%Z ->
    fp_div m (IZR (q * b)) (IZR b) = IZR q
}.

(** IEEE 754 binary64 and binary32 arithmetic, every operation correctly rounded
    to nearest even. *)
Definition rnd64 : R -> R := round radix2 (FLT_exp (-1074) 53) ZnearestE.
Definition rnd32 : R -> R := round radix2 (FLT_exp (-149) 24) ZnearestE.
Definition ieee (rnd : R -> R) : fpu :=
  mkFpu (fun x => rnd (log2R x)) (fun x y => rnd (x / y)).
