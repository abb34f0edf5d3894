(** wots_set_params with its floating-point arithmetic: src/xmss-alt/wots.c:19-28
    and src/rust_wrapper/xmss_alt/wots.rs:36-52.  The model in Wots.v takes the
    logarithm, quotient and roundings exactly; here they are whatever the C
    library and the processor make of them. *)
From Coq Require Import List NArith ZArith Arith Bool Reals.
From Flocq Require Import Core.
From Verif Require Import Base Bytes Wots RsWots.
Open Scope R_scope.

(** The machine's binary logarithm and its division, as functions on the reals
    that floating-point numbers denote. *)
Record fpu : Type := mkFpu { fp_log2 : R -> R; fp_div : R -> R -> R }.

(** The [(int)] conversion of C and Rust's [as u32] for the nonnegative values
    that occur (wots.c:22-24, wots.rs:9,40,41): truncation towards zero. *)
Definition fp_int (x : R) : nat := Z.to_nat (Ztrunc x).

(** wots.c:19-28 with n = 32.  [(8 * n) / log_w] is an integer division, so the
    ceil of wots.c:23 does nothing.  Undefined as in Wots.v: w = 0, w >= 2^31,
    log_w = 0, and the logarithm of 0. *)
Definition wots_set_params_fp (m : fpu) (w : N) : res wots_params :=
  (if (w =? 0) || (2 ^ 31 <=? w) then UB else
   let log_w := fp_int (fp_log2 m (IZR (Z.of_N w))) in
   if (log_w =? 0)%nat then UB else
   let len_1 := (256 / log_w)%nat in
   let x := u32 (N.of_nat len_1 * (w - 1)) in
   if x =? 0 then UB else
   let q := fp_div m (fp_log2 m (IZR (Z.of_N x))) (IZR (Z.of_nat log_w)) in
   let len_2 := (Z.to_nat (Zfloor q) + 1)%nat in
   Ok (mkWP w log_w len_1 len_2))%N.

(** wots.rs:36-52 WOTSParams::new with n = 32: the same computation in f32, with
    a real ceil at wots.rs:40.  (The conversions of 256, log_w and
    len_1*(w-1) <= 8160 to f32 are exact.) *)
Definition rs_wots_new_fp (m : fpu) (wv : rs_w) : wots_params :=
  (let w := w_of wv in
   let log_w := fp_int (fp_log2 m (IZR (Z.of_N w))) in
   let len_1 := fp_int (IZR (Zceil (fp_div m 256 (IZR (Z.of_nat log_w))))) in
   let x := N.of_nat len_1 * (w - 1) in
   let q := fp_div m (fp_log2 m (IZR (Z.of_N x))) (IZR (Z.of_nat log_w)) in
   let len_2 := (fp_int (IZR (Zfloor q)) + 1)%nat in
   mkWP w log_w len_1 len_2)%N.
