(** Model of src/xmss-alt/wots.c (n = 32). *)
From Coq Require Import List NArith Arith Lia Bool.
From Verif Require Import Base Bytes HashAddress.
Import ListNotations.
Open Scope N_scope.

(** wots_params.h: the fields that vary (n = 32, keysize = 32 * len).  wots_params.h:10-18. *)
Record wots_params : Type := mkWP {
  w_w : N; w_log_w : nat; w_len_1 : nat; w_len_2 : nat }.
(** wots_params.h:13. *)
Definition w_len (p : wots_params) : nat := (w_len_1 p + w_len_2 p)%nat.
(** wots_params.h:17. *)
Definition w_keysize (p : wots_params) : nat := (w_len p * 32)%nat.

(** wots.c:19-27 wots_set_params with n = 32.  [w] is the API's uint32_t,
    converted to int.  The floating-point log2 is the exact floor of the binary
    logarithm for these ranges.  Undefined: w = 0 (log2 = -inf converted to int),
    w >= 2^31 (negative int, NaN), w = 1 (division by zero), or a product
    len_1*(w-1) that is 0 modulo 2^32 (log2 of 0). *)
Definition wots_set_params (w : N) : res wots_params :=
  if (w =? 0) || (2 ^ 31 <=? w) then UB else
  let log_w := N.to_nat (N.log2 w) in
  if (log_w =? 0)%nat then UB else
  let len_1 := (256 / log_w)%nat in
  let x := u32 (N.of_nat len_1 * (w - 1)) in
  if x =? 0 then UB else
  let len_2 := (N.to_nat (N.log2 x) / log_w + 1)%nat in
  Ok (mkWP w log_w len_1 len_2).

(** wots.c:34-44 *)
Definition expand_seed (hf : hashfn) (inseed : list N) (len : nat) : list (list N) :=
  map (fun i => prf hf (to_byte 32 (N.of_nat i)) inseed) (seq 0 len).

(** wots.c:65-68: the loop of gen_chain; [steps] iterations are left and [i] is
    the loop variable; the second loop condition is [i < w]. *)
Fixpoint gen_chain_loop (hf : hashfn) (steps : nat) (i : N) (out : list N)
         (p : wots_params) (pub_seed : list N) (addr : adrs) : list N * adrs :=
  match steps with
  | O => (out, addr)
  | S k =>
      if i <? w_w p then
        let addr := setHashADRS addr i in
        let '(out, addr) := hash_f hf out pub_seed addr in
        gen_chain_loop hf k (i + 1) out p pub_seed addr
      else (out, addr)
  end.

(** wots.c:53-69 *)
Definition gen_chain (hf : hashfn) (inp : list N) (start steps : N)
         (p : wots_params) (pub_seed : list N) (addr : adrs) : list N * adrs :=
  gen_chain_loop hf (N.to_nat steps) start inp p pub_seed addr.

(** wots.c:76-96 base_w.  [n] outputs are left, [pos] is [in].  A negative shift
    count (bits < log_w) and a read past the input are undefined behaviour. *)
Fixpoint base_w_loop (n : nat) (input : list N) (pos : nat) (total : N) (bits : nat)
         (p : wots_params) : res (list N) :=
  match n with
  | O => Ok []
  | S n' =>
      '(total, pos, bits) <-
        (if (bits =? 0)%nat then b <- get input pos ;; Ok (b, S pos, 8%nat)
         else Ok (total, pos, bits)) ;;
      if (bits <? w_log_w p)%nat then UB else
      let bits := (bits - w_log_w p)%nat in
      let d := N.land (N.shiftr total (N.of_nat bits)) (w_w p - 1) in
      rest <- base_w_loop n' input pos total bits p ;;
      Ok (d :: rest)
  end.
(** wots.c:76-96: the whole function. *)
Definition base_w (out_len : nat) (input : list N) (p : wots_params) : res (list N) :=
  base_w_loop out_len input 0 0 0 p.

(** wots.c:133-135, 182-184: [csum += w - 1 - basew[i]].  basew[i] <= w-1, so
    the unsigned subtraction does not wrap. *)
Definition csum_of (basew : list N) (p : wots_params) : N :=
  fold_left (fun c d => c + (w_w p - 1 - d)) basew 0.

(** wots.c:127-150 and 174-193: message digits followed by checksum digits. *)
Definition wots_digits (msg : list N) (p : wots_params) : res (list N) :=
  basew <- base_w (w_len_1 p) msg p ;;
  let csum := csum_of basew p in
  let csum := N.shiftl csum (8 - N.of_nat ((w_len_2 p * w_log_w p) mod 8)) in
  let len_2_bytes := ((w_len_2 p * w_log_w p + 7) / 8)%nat in
  let csum_bytes := to_byte len_2_bytes csum in
  csum_basew <- base_w (w_len_2 p) csum_bytes p ;;
  Ok (basew ++ csum_basew).

(** The common loop of wots.c:106-116, 154-157 and 194-199:
    [for i: setChainADRS(addr,i); cell_i = gen_chain(cell_i, start_i, steps_i)].
    [jobs] lists (cell, start, steps) for i, i+1, ... *)
Fixpoint gen_chains (hf : hashfn) (i : N) (jobs : list (list N * N * N))
         (p : wots_params) (pub_seed : list N) (addr : adrs) : list (list N) * adrs :=
  match jobs with
  | [] => ([], addr)
  | (c, start, steps) :: rest =>
      let addr := setChainADRS addr i in
      let '(out, addr) := gen_chain hf c start steps p pub_seed addr in
      let '(outs, addr) := gen_chains hf (i + 1) rest p pub_seed addr in
      (out :: outs, addr)
  end.

(** wots.c:98-117 *)
Definition wots_pkgen (hf : hashfn) (sk : list N) (p : wots_params) (pub_seed : list N)
         (addr : adrs) : list (list N) * adrs :=
  gen_chains hf 0 (map (fun c => (c, 0, w_w p - 1)) (expand_seed hf sk (w_len p))) p pub_seed addr.

(** wots.c:120-158 *)
Definition wots_sign (hf : hashfn) (msg sk : list N) (p : wots_params) (pub_seed : list N)
         (addr : adrs) : res (list (list N) * adrs) :=
  basew <- wots_digits msg p ;;
  Ok (gen_chains hf 0
        (map (fun cd => (fst cd, 0, snd cd)) (combine (expand_seed hf sk (w_len p)) basew))
        p pub_seed addr).

(** wots.c:160-200; [sig] is the signature as a list of len cells. *)
Definition wots_pkFromSig (hf : hashfn) (sig : list (list N)) (msg : list N) (p : wots_params)
         (pub_seed : list N) (addr : adrs) : res (list (list N) * adrs) :=
  basew <- wots_digits msg p ;;
  Ok (gen_chains hf 0
        (map (fun cd => (fst cd, snd cd, w_w p - 1 - snd cd)) (combine sig basew))
        p pub_seed addr).
