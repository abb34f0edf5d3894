(** Model of src/qrl/misc.cpp and of the hashing helpers of src/qrl/hashing.cpp.

    A C++ [std::string] and a [std::vector<unsigned char>] are both lists of numbers
    below 256 (character codes / bytes).  [char] is signed, [int] has 32 bits and
    [size_t] 64, as on x86-64.  Arithmetic on [int] loop counters that would
    overflow is [UB]. *)
From Coq Require Import List NArith Arith Bool.
From Verif Require Import Base Bytes Keccak Sha256 Wordlist.
Import ListNotations.
Open Scope N_scope.

(** int, misc.cpp:17, 55, 75, 98, 108-123 (32 bits). *)
Definition INT_MAX : N := 2 ^ 31 - 1.

(** ** Hexadecimal *)

(** One lower-case hexadecimal digit, as std::hex prints it.  misc.cpp:26. *)
Definition hex_digit (d : N) : N := if d <? 10 then 48 + d else 87 + d.

(** misc.cpp:26: [ss << setfill('0') << setw(2) << hex << (int) val], for a byte:
    the digits of the number without leading zeros, filled to two. *)
Definition put_hex (val : N) : list N :=
  if val <? 16 then [48; hex_digit val] else [hex_digit (val / 16); hex_digit (val mod 16)].

(** misc.cpp:17-27: the loop of bin2hstr; [count] is its [int] counter. *)
Fixpoint bin2hstr_loop (wrap count : N) (vec : list N) {struct vec} : res (list N) :=
  match vec with
  | [] => Ok []
  | val :: rest =>
      if 0 <? wrap then
        if INT_MAX <? count + 1 then UB                            (* count++ overflows *)
        else if wrap <? count + 1
             then tl <- bin2hstr_loop wrap 1 rest ;; Ok (10 :: put_hex val ++ tl)
             else tl <- bin2hstr_loop wrap (count + 1) rest ;; Ok (put_hex val ++ tl)
      else tl <- bin2hstr_loop wrap count rest ;; Ok (put_hex val ++ tl)
  end.
(** misc.cpp:14-30 *)
Definition bin2hstr (vec : list N) (wrap : N) : res (list N) := bin2hstr_loop wrap 0 vec.

(** misc.cpp:36-39: the bytes of a string. *)
Definition str2bin (s : list N) : list N := s.
(** misc.cpp:32-34 *)
Definition bin2hstr_str (s : list N) (wrap : N) : res (list N) := bin2hstr (str2bin s) wrap.

(** <cctype> on a [char] argument: a negative value other than EOF (-1, code 255)
    is undefined; the "C" locale otherwise.  misc.cpp:56. *)
Definition isxdigit (c : N) : res bool :=
  if c <? 128 then Ok (((48 <=? c) && (c <=? 57)) || ((65 <=? c) && (c <=? 70)) || ((97 <=? c) && (c <=? 102)))
  else if c =? 255 then Ok false else UB.
(** misc.cpp:42. *)
Definition tolower (c : N) : N := if (65 <=? c) && (c <=? 90) then c + 32 else c.
(** misc.cpp:43. *)
Definition isdigit (c : N) : bool := (48 <=? c) && (c <=? 57).

(** misc.cpp:41-47, called on hex digits only (the differences are not negative). *)
Definition getHexValue (c : N) : N :=
  let tmp := tolower c in
  if isdigit tmp then u8 (tmp - 48) else u8 (tmp - 97 + 10).

(** misc.cpp:55-62: the loop of hstr2bin at [int i], [s] = the characters from i on. *)
Fixpoint hstr2bin_loop (i : N) (s : list N) {struct s} : res (list N) :=
  match s with
  | [] => Ok []
  | c1 :: s' =>
      match s' with
      | [] => UB
      | c2 :: rest =>
          x1 <- isxdigit c1 ;;
          if negb x1 then Exn InvalidArgument else
          x2 <- isxdigit c2 ;;
          if negb x2 then Exn InvalidArgument else
          let v := u8 (getHexValue c1 * 16 + getHexValue c2) in
          if INT_MAX <? i + 2 then UB else
          tl <- hstr2bin_loop (i + 2) rest ;; Ok (v :: tl)
      end
  end.
(** misc.cpp:49-65 *)
Definition hstr2bin (s : list N) : res (list N) :=
  if Nat.odd (length s) then Exn InvalidArgument else hstr2bin_loop 0 s.

(** ** Mnemonics *)

(** misc.cpp:75-82: the loop of bin2mnemonic at [int nibble]; [fuel] bounds the
    number of iterations (running out is reported as UB and proved unreachable). *)
Fixpoint bin2mnemonic_loop (fuel : nat) (vec : list N) (nibble : N) (separator : list N) {struct fuel} : res (list N) :=
  match fuel with
  | O => UB
  | S f =>
      if nibble <? N.of_nat (length vec) * 2 then
        let p := nibble / 2 in
        b1 <- get vec (N.to_nat p) ;;
        b2 <- (if p + 1 <? N.of_nat (length vec) then get vec (N.to_nat (p + 1)) else Ok 0) ;;
        let idx := if nibble mod 2 =? 0 then b1 * 16 + b2 / 16 else (b1 mod 16) * 256 + b2 in
        word <- get wordlist (N.to_nat idx) ;;
        if INT_MAX <? nibble + 3 then UB else
        tl <- bin2mnemonic_loop f vec (nibble + 3) [32] ;;
        Ok (separator ++ word ++ tl)
      else Ok []
  end.
(** misc.cpp:67-85 *)
Definition bin2mnemonic (vec : list N) : res (list N) :=
  if negb (Nat.modulo (length vec) 3 =? 0)%nat then Exn InvalidArgument
  else bin2mnemonic_loop (S (length vec * 2)) vec 0 [].

(** misc.cpp:112: equality of keys. *)
Definition str_eqb (a b : list N) : bool := if list_eq_dec N.eq_dec a b then true else false.

(** misc.cpp:97-101 and 112: [word_lookup[w] = count++] for all words, then find: the
    position of the last word equal to [w]. *)
Fixpoint lookup_from (l : list (list N)) (count : N) (w : list N) (acc : option N) {struct l} : option N :=
  match l with
  | [] => acc
  | x :: t => lookup_from t (count + 1) w (if str_eqb x w then Some count else acc)
  end.
(** misc.cpp:97-101, 112. *)
Definition word_lookup (w : list N) : option N := lookup_from wordlist 0 w None.

(** White space of the "C" locale, which [ss >> word] skips and stops at.  misc.cpp:111. *)
Definition isspace (c : N) : bool := (c =? 32) || ((9 <=? c) && (c <=? 13)).
(** misc.cpp:111. *)
Fixpoint skip_ws (s : list N) : list N :=
  match s with [] => [] | c :: t => if isspace c then skip_ws t else s end.
(** misc.cpp:111. *)
Fixpoint read_word (s : list N) : list N * list N :=
  match s with
  | [] => ([], [])
  | c :: t => if isspace c then ([], s) else let '(w, r) := read_word t in (c :: w, r)
  end.
(** [ss >> word]: None when no character is left after skipping white space.  misc.cpp:111. *)
Definition extract_word (s : list N) : option (list N * list N) :=
  match skip_ws s with [] => None | s' => Some (read_word s') end.

(** misc.cpp:120-127: the inner loop, [buffering] nibbles in [current]. *)
Fixpoint drain (fuel : nat) (current buffering : N) (out : list N) {struct fuel} : res (N * N * list N) :=
  match fuel with
  | O => UB
  | S f =>
      if 2 <? buffering then
        let shift := 4 * (buffering - 2) in
        let tmp := current / 2 ^ shift in
        drain f (N.land current (2 ^ shift - 1)) (buffering - 2) (out ++ [u8 tmp])
      else Ok (current, buffering, out)
  end.

(** misc.cpp:111-128: the outer loop. *)
Fixpoint decode_loop (fuel : nat) (ss : list N) (current buffering : N) (out : list N) {struct fuel} : res (N * N * list N) :=
  match fuel with
  | O => UB
  | S f =>
      match extract_word ss with
      | None => Ok (current, buffering, out)
      | Some (word, ss') =>
          match word_lookup word with
          | None => Exn InvalidArgument
          | Some v =>
              '(current', buffering', out') <- drain 3 (current * 4096 + v) (buffering + 3) out ;;
              decode_loop f ss' current' buffering' out'
          end
      end
  end.

(** misc.cpp:89: std::count. *)
Fixpoint count_char (c : N) (s : list N) : N :=
  match s with [] => 0 | x :: t => (if x =? c then 1 else 0) + count_char c t end.

(** misc.cpp:87-135 *)
Definition mnemonic2bin (mnemonic : list N) : res (list N) :=
  let word_count := count_char 32 mnemonic + 1 in
  if negb (word_count mod 2 =? 0) then Exn InvalidArgument else
  '(current, buffering, out) <- decode_loop (S (length mnemonic)) mnemonic 0 0 [] ;;
  if 0 <? buffering then Ok (out ++ [N.land current 255]) else Ok out.

(** ** Seeds *)

(** What /dev/urandom does: cannot be opened, or delivers these bytes (and then
    ends).  misc.cpp:140-148. *)
Definition device := option (list N).

(** misc.cpp:137-155 *)
Definition getRandomSeed (urandom : device) (seed_size : N) (entropy : list N) : res (list N) :=
  match urandom with
  | None => Exn RuntimeError
  | Some avail =>
      if N.of_nat (length avail) <? seed_size then Exn RuntimeError
      else Ok (shake256 (N.to_nat seed_size) (firstn (N.to_nat seed_size) avail ++ str2bin entropy))
  end.

(** misc.cpp:165-167 and 172-174: four little-endian bytes of a uint32_t stored at
    position [p] of a buffer. *)
Definition store_le32 (p : nat) (v : N) (buf : list N) : res (list N) :=
  for_up 4 (fun j b => set b (p + j) ((v / 2 ^ (8 * N.of_nat j)) mod 256)) buf.

(** misc.cpp:170-178: the loop over [i]; the buffer is reused. *)
Fixpoint hash_chain_loop (n : nat) (i : N) (p : nat) (tmp_seed : list N) {struct n} : res (list (list N)) :=
  match n with
  | O => Ok []
  | S n' =>
      tmp <- store_le32 p i tmp_seed ;;
      tl <- hash_chain_loop n' (i + 1) p tmp ;;
      Ok (shake256 32 tmp :: tl)
  end.
(** misc.cpp:157-181; [count] and [seed_shift] are uint32_t. *)
Definition getHashChainSeed (seed : list N) (seed_shift count : N) : res (list (list N)) :=
  tmp <- store_le32 (length seed) seed_shift (seed ++ repeat 0 8) ;;
  hash_chain_loop (N.to_nat count) 0 (length seed + 4) tmp.

(** ** hashing.cpp *)

(** hashing.cpp:24-28 *)
Definition sha2_256 (input : list N) : list N := sha256 input.
(** hashing.cpp:30-43; hash256 reads its whole input before it writes. *)
Fixpoint sha2_loop (n : nat) (h : list N) {struct n} : list N :=
  match n with O => h | S n' => sha2_loop n' (sha256 h) end.
(** hashing.cpp:30-43. *)
Definition sha2_256_n (input : list N) (count : N) : res (list N) :=
  if count =? 0 then Exn InvalidArgument
  else Ok (sha2_loop (N.to_nat (count - 1)) (sha256 input)).
