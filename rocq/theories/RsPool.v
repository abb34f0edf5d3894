(** Model of the Rust port's src/rust_wrapper/qrl/xmss_pool.rs.

    Every method that changes the pool takes [&mut self], so calls do not overlap;
    [rayon::ThreadPool::install] returns only when its closure has returned (and a
    panic of the closure continues in the caller), so a receiver in the cache is
    filled before [fill_cache] goes on.  A pool exists only if the thread pool was
    built; a call that panics ends the history. *)
From Coq Require Import List NArith Arith Bool.
From Verif Require Import Bytes HashAddress RsBase RsObj RsMisc.
Import ListNotations.
Open Scope N_scope.

(** [usize::to_string]: decimal digits; a 64-bit value has at most 20.  xmss_pool.rs:50. *)
Fixpoint rs_decimal (fuel : nat) (n : N) {struct fuel} : list N :=
  match fuel with
  | O => []
  | S f => if n <? 10 then [48 + n] else rs_decimal f (n / 10) ++ [48 + n mod 10]
  end.

(** xmss_pool.rs:10-17.  A cached receiver: the result in its channel, [None] if the
    channel is empty and its sender gone. *)
Record rs_pool : Type := mkRPool {
  rp_seed : list N; rp_height : N; rp_cur : N; rp_max : N; rp_cache : list (option (rerr + rs_fast)) }.
(** xmss_pool.rs:10-17: assignment to two members. *)
Definition rp_with (p : rs_pool) (cur : N) (cache : list (option (rerr + rs_fast))) : rs_pool :=
  mkRPool (rp_seed p) (rp_height p) cur (rp_max p) cache.

(** A [Result] as a value.  xmss_pool.rs:60-87. *)
Definition rs_catch {A} (r : rs A) : rs (rerr + A) :=
  match r with ROk a => ROk (inr a) | RErr e => ROk (inl e) | RPanic => RPanic end.

(** xmss_pool.rs:39-55; [usize] additions are checked. *)
Definition rs_tree_seed (base_seed : list N) (index : N) : rs (list N) :=
  hex <~ rs_bin2hstr base_seed 0 ;;
  if 2 ^ 64 <=? index + 1 then RPanic else
  let stake_seed := rs_sha2_256 (rs_str2bin (hex ++ rs_decimal 20 (index + 1))) in
  ext <~ rslice 0 16 stake_seed ;;
  ROk (stake_seed ++ ext).
(** xmss_pool.rs:39-54. *)
Definition rs_prepare_tree (base_seed : list N) (height index : N) : rs rs_fast :=
  seed <~ rs_tree_seed base_seed index ;;
  rs_fast_new seed height None None.

(** xmss_pool.rs:60-66: [n] iterations from [i]. *)
Fixpoint rs_fill_loop (n : nat) (i : N) (p : rs_pool) {struct n} : rs rs_pool :=
  match n with
  | O => ROk p
  | S n' =>
      r <~ rs_catch (rs_prepare_tree (rp_seed p) (rp_height p) i) ;;
      rs_fill_loop n' (i + 1) (rp_with p (rp_cur p) (rp_cache p ++ [Some r]))
  end.
(** xmss_pool.rs:57-67 *)
Definition rs_fill_cache (p : rs_pool) : rs rs_pool :=
  let start := rp_cur p + N.of_nat (length (rp_cache p)) in
  if 2 ^ 64 <=? start then RPanic else
  let e := rp_cur p + rp_max p in
  if 2 ^ 64 <=? e then RPanic else
  rs_fill_loop (N.to_nat (e - start)) start p.

(** xmss_pool.rs:20-37 *)
Definition rs_pool_new (base_seed : list N) (height starting_index max_cache_size : N) : rs rs_pool :=
  rs_fill_cache (mkRPool base_seed height starting_index max_cache_size []).

(** xmss_pool.rs:69-87: the pool after the call and the returned [Result]. *)
Definition rs_get_next_tree (p : rs_pool) : rs (rs_pool * (rerr + rs_fast)) :=
  match rp_cache p with
  | [] =>
      answer <~ rs_catch (rs_prepare_tree (rp_seed p) (rp_height p) (rp_cur p)) ;;
      if 2 ^ 64 <=? rp_cur p + 1 then RPanic else
      p <~ rs_fill_cache (rp_with p (rp_cur p + 1) []) ;;
      ROk (p, answer)
  | r_result :: rest =>
      if 2 ^ 64 <=? rp_cur p + 1 then RPanic else
      let cur := rp_cur p + 1 in
      '(p, next_tree) <~ match r_result with
        | Some r => ROk (rp_with p cur rest, r)
        | None =>
            r <~ rs_catch (rs_prepare_tree (rp_seed p) (rp_height p) cur) ;;
            ROk (rp_with p cur (rp_cache p), r)
        end ;;
      match next_tree with
      | inl e => ROk (p, inl e)
      | inr t => p <~ rs_fill_cache p ;; ROk (p, inr t)
      end
  end.
(** xmss_pool.rs:89-94 *)
Definition rs_is_available (p : rs_pool) : bool :=
  match rp_cache p with Some _ :: _ => true | _ => false end.
(** xmss_pool.rs:96-98 *)
Definition rs_pool_index (p : rs_pool) : N := rp_cur p.

(** Histories of calls on one pool.  xmss_pool.rs:69-98. *)
Inductive pcall : Type := PNext | PAvail | PIndex.
(** xmss_pool.rs:69-98. *)
Inductive pobs : Type := PTree (r : rerr + rs_fast) | PBool (b : bool) | PNum (i : N).
(** xmss_pool.rs:69-98. *)
Definition rs_pool_step (p : rs_pool) (c : pcall) : rs (rs_pool * pobs) :=
  match c with
  | PNext => '(p, r) <~ rs_get_next_tree p ;; ROk (p, PTree r)
  | PAvail => ROk (p, PBool (rs_is_available p))
  | PIndex => ROk (p, PNum (rs_pool_index p))
  end.
(** xmss_pool.rs:69-98. *)
Fixpoint rs_pool_run (p : rs_pool) (cs : list pcall) {struct cs} : rs (rs_pool * list pobs) :=
  match cs with
  | [] => ROk (p, [])
  | c :: rest =>
      '(p, x) <~ rs_pool_step p c ;;
      '(p, xs) <~ rs_pool_run p rest ;;
      ROk (p, x :: xs)
  end.
