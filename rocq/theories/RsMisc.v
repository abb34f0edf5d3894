(** Model of the Rust port's src/rust_wrapper/qrl/misc.rs, hashing.rs and
    shasha/shasha.rs.

    A Rust [String] is the list of its characters (Unicode scalar values); its
    [len()] is the length of its UTF-8 form.  [usize] has 64 bits; the length of a
    [Vec] never overflows it. *)
From Coq Require Import List NArith Arith Bool.
From Verif Require Import Bytes Sha256 Keccak Wordlist Misc RsBase RsKeccak.
Import ListNotations.
Open Scope N_scope.

(** ** Hexadecimal *)

(** misc.rs:13-22: the loop of bin2hstr; [count] is a u32 (it is compared with
    [wrap]); [format!("{:02x}", val)] of a u8 prints two lower-case digits. *)
Fixpoint rs_bin2hstr_loop (wrap count : N) (vec : list N) {struct vec} : rs (list N) :=
  match vec with
  | [] => ROk []
  | val :: rest =>
      if 0 <? wrap then
        if 2 ^ 32 <=? count + 1 then RPanic else
        if wrap <? count + 1
        then tl <~ rs_bin2hstr_loop wrap 1 rest ;; ROk (10 :: put_hex val ++ tl)
        else tl <~ rs_bin2hstr_loop wrap (count + 1) rest ;; ROk (put_hex val ++ tl)
      else tl <~ rs_bin2hstr_loop wrap count rest ;; ROk (put_hex val ++ tl)
  end.
(** misc.rs:9-24 *)
Definition rs_bin2hstr (vec : list N) (wrap : N) : rs (list N) := rs_bin2hstr_loop wrap 0 vec.

(** Bytes of a character in UTF-8.  [str] as bytes, misc.rs:26-28. *)
Definition utf8_char (c : N) : list N :=
  if c <? 0x80 then [c]
  else if c <? 0x800 then [0xC0 + c / 64; 0x80 + c mod 64]
  else if c <? 0x10000 then [0xE0 + c / 4096; 0x80 + (c / 64) mod 64; 0x80 + c mod 64]
  else [0xF0 + c / 262144; 0x80 + (c / 4096) mod 64; 0x80 + (c / 64) mod 64; 0x80 + c mod 64].
(** misc.rs:26-28 str2bin: [s.as_bytes().to_vec()]. *)
Definition rs_str2bin (s : list N) : list N := flat_map utf8_char s.
(** misc.rs:30-32 *)
Definition rs_binstr2hstr (s : list N) (wrap : N) : rs (list N) := rs_bin2hstr (rs_str2bin s) wrap.

(** [char::is_digit(16)], [char::is_digit(10)]: ASCII only.  misc.rs:62. *)
Definition rs_is_digit16 (c : N) : bool :=
  ((48 <=? c) && (c <=? 57)) || ((97 <=? c) && (c <=? 102)) || ((65 <=? c) && (c <=? 70)).
(** misc.rs:36. *)
Definition rs_is_digit10 (c : N) : bool := (48 <=? c) && (c <=? 57).

(** misc.rs:34-41; called on hexadecimal digits only, where [to_lowercase] is the
    ASCII one; u8 arithmetic is checked. *)
Definition rs_get_hex_value (c : N) : rs N :=
  let tmp := if (65 <=? c) && (c <=? 90) then c + 32 else c in
  if rs_is_digit10 tmp then (if tmp <? 48 then RPanic else ROk (u8 (tmp - 48)))
  else if tmp <? 97 then RPanic else if 256 <=? tmp - 97 + 10 then RPanic else ROk (tmp - 97 + 10).

(** misc.rs:52-70: the loop of hstr2bin, two characters per iteration. *)
Fixpoint rs_hstr2bin_loop (s : list N) {struct s} : rs (list N) :=
  match s with
  | [] => ROk []
  | c1 :: s' =>
      match s' with
      | [] => RErr RInvalidArgument
      | c2 :: rest =>
          if negb (rs_is_digit16 c1) || negb (rs_is_digit16 c2) then RErr RInvalidArgument else
          v1 <~ rs_get_hex_value c1 ;; v2 <~ rs_get_hex_value c2 ;;
          let hi := u8 (N.shiftl v1 4) in
          if 256 <=? hi + v2 then RPanic else
          tl <~ rs_hstr2bin_loop rest ;; ROk (hi + v2 :: tl)
      end
  end.
(** misc.rs:43-72; [s.len()] counts bytes. *)
Definition rs_hstr2bin (s : list N) : rs (list N) :=
  if negb (length (rs_str2bin s) mod 2 =? 0)%nat then RErr RInvalidArgument else rs_hstr2bin_loop s.

(** ** Mnemonics; wordlist.rs:1-403 has the words of wordlist.cpp in the same order. *)

(** misc.rs:82-99: the loop of bin2mnemonic at [nibble]; [fuel] bounds the number of
    iterations (running out is reported as a panic and proved unreachable). *)
Fixpoint rs_bin2mnemonic_loop (fuel : nat) (vec : list N) (nibble : N) (s : list N) {struct fuel} : rs (list N) :=
  match fuel with
  | O => RPanic
  | S f =>
      if nibble <? N.of_nat (length vec) * 2 then
        let p := N.shiftr nibble 1 in
        b1 <~ rget vec (N.to_nat p) ;;
        b2 <~ (if p + 1 <? N.of_nat (length vec) then rget vec (N.to_nat (p + 1)) else ROk 0) ;;
        let idx := if nibble mod 2 =? 0 then N.shiftl b1 4 + N.shiftr b2 4 else N.shiftl (N.land b1 0x0F) 8 + b2 in
        let s := if negb (nibble =? 0) then s ++ [32] else s in
        word <~ rget wordlist (N.to_nat idx) ;;
        rs_bin2mnemonic_loop f vec (nibble + 3) (s ++ word)
      else ROk s
  end.
(** misc.rs:74-101 *)
Definition rs_bin2mnemonic (vec : list N) : rs (list N) :=
  if negb (Nat.modulo (length vec) 3 =? 0)%nat then RErr RInvalidArgument
  else rs_bin2mnemonic_loop (S (length vec * 2)) vec 0 [].

(** [char::is_whitespace]: the Unicode property White_Space.  misc.rs:104, 123. *)
Definition rs_is_whitespace (c : N) : bool :=
  ((9 <=? c) && (c <=? 13)) || (c =? 32) || (c =? 0x85) || (c =? 0xA0) || (c =? 0x1680) ||
  ((0x2000 <=? c) && (c <=? 0x200A)) || (c =? 0x2028) || (c =? 0x2029) || (c =? 0x202F) || (c =? 0x205F) || (c =? 0x3000).
(** [str::split_whitespace]: [w] is the word being read.  misc.rs:104, 123. *)
Fixpoint rs_split_ws (w : list N) (s : list N) {struct s} : list (list N) :=
  match s with
  | [] => match w with [] => [] | _ => [w] end
  | c :: t =>
      if rs_is_whitespace c then match w with [] => rs_split_ws [] t | _ => w :: rs_split_ws [] t end
      else rs_split_ws (w ++ [c]) t
  end.

(** misc.rs:136-143: the inner loop; [current] is a u32. *)
Fixpoint rs_drain (fuel : nat) (current buffering : N) (out : list N) {struct fuel} : rs (N * N * list N) :=
  match fuel with
  | O => RPanic
  | S f =>
      if 2 <? buffering then
        let shift := 4 * (buffering - 2) in
        if 32 <=? shift then RPanic else
        let mask := N.shiftl 1 shift - 1 in
        let tmp := N.shiftr current shift in
        rs_drain f (N.land current mask) (buffering - 2) (out ++ [u8 tmp])
      else ROk (current, buffering, out)
  end.
(** misc.rs:123-144; the map built in misc.rs:112-117 is [word_lookup]. *)
Fixpoint rs_decode_loop (ws : list (list N)) (current buffering : N) (out : list N) {struct ws} : rs (N * N * list N) :=
  match ws with
  | [] => ROk (current, buffering, out)
  | w :: rest =>
      match word_lookup w with
      | None => RErr RInvalidArgument
      | Some value =>
          if 2 ^ 32 <=? u32 (N.shiftl current 12) + value then RPanic else
          '(current, buffering, out) <~ rs_drain 3 (u32 (N.shiftl current 12) + value) (buffering + 3) out ;;
          rs_decode_loop rest current buffering out
      end
  end.
(** misc.rs:103-151 *)
Definition rs_mnemonic2bin (mnemonic : list N) : rs (list N) :=
  let ws := rs_split_ws [] mnemonic in
  if negb (length ws mod 2 =? 0)%nat then RErr RInvalidArgument else
  '(current, buffering, out) <~ rs_decode_loop ws 0 0 [] ;;
  if 0 <? buffering then ROk (out ++ [N.land (u8 current) 255]) else ROk out.

(** ** Seeds *)

(** misc.rs:153-160; [os] are the [seed_size] bytes OsRng delivers (it panics itself
    if the operating system has none). *)
Definition rs_get_random_seed (os : list N) (seed_size : N) (entropy : list N) : rs (list N) :=
  rs_shake256 (N.to_nat seed_size) (os ++ rs_str2bin entropy).

(** misc.rs:168-170 and 174-176: four little-endian bytes of a u32 stored at [p];
    [(x >> (8 * j)) as u8 & 0xFF]. *)
Definition rs_store_le32 (p : nat) (v : N) (buf : list N) : rs (list N) :=
  rfor 4 (fun j b => rset b (p + j) (N.land (u8 (N.shiftr v (8 * N.of_nat j))) 255)) buf.
(** misc.rs:173-178 *)
Fixpoint rs_hash_chain_loop (n : nat) (i : N) (p : nat) (tmp_seed : list N) {struct n} : rs (list (list N)) :=
  match n with
  | O => ROk []
  | S n' =>
      tmp <~ rs_store_le32 p i tmp_seed ;;
      h <~ rs_shake256 32 tmp ;;
      tl <~ rs_hash_chain_loop n' (i + 1) p tmp ;;
      ROk (h :: tl)
  end.
(** misc.rs:162-180; [seed_shift] and [count] are u32. *)
Definition rs_get_hash_chain_seed (seed : list N) (seed_shift count : N) : rs (list (list N)) :=
  tmp <~ rs_store_le32 (length seed) seed_shift (seed ++ repeat 0 8) ;;
  rs_hash_chain_loop (N.to_nat count) 0 (length seed + 4) tmp.

(** hashing.rs:16-18, shasha.rs:5-14: the sha2 crate's SHA-256. *)
Definition rs_sha2_256 (input : list N) : list N := sha256 input.
(** hashing.rs:20-33; [for _ in 1..count]. *)
Fixpoint rs_sha2_loop (n : nat) (h : list N) {struct n} : list N :=
  match n with O => h | S n' => rs_sha2_loop n' (rs_sha2_256 h) end.
(** hashing.rs:20-33. *)
Definition rs_sha2_256_n (input : list N) (count : N) : rs (list N) :=
  if count =? 0 then RErr RInvalidArgument
  else ROk (rs_sha2_loop (N.to_nat (count - 1)) (rs_sha2_256 input)).
