(** Specification of the text encodings: hexadecimal and mnemonics. *)
From Coq Require Import String List NArith Arith Bool.
From Verif Require Import Wordlist.
Import ListNotations.
Open Scope N_scope.

(** The sixteen lower-case hexadecimal characters. *)
Definition hex_chars : list N := codes "0123456789abcdef"%string.
(** Two characters per byte. *)
Definition hex_text (v : list N) : list N :=
  flat_map (fun b => [nth (N.to_nat (b / 16)) hex_chars 0; nth (N.to_nat (b mod 16)) hex_chars 0]) v.
Definition is_hex (c : N) : Prop := In c (codes "0123456789abcdefABCDEF"%string).
Definition ascii (s : list N) : Prop := Forall (fun c => c < 128) s.
(** A-Z to a-z. *)
Definition lower (s : list N) : list N :=
  map (fun c => if (65 <=? c) && (c <=? 90) then c + 32 else c) s.

(** Lines joined by newlines / words joined by single spaces. *)
Fixpoint join (sep : N) (ls : list (list N)) : list N :=
  match ls with
  | [] => []
  | [l] => l
  | l :: rest => l ++ sep :: join sep rest
  end.

(** ** Mnemonics *)

(** The three nibbles of a 12-bit number, and bytes packed from nibbles (a single
    last nibble becomes a byte of its own). *)
Definition nibbles3 (d : N) : list N := [d / 256; (d / 16) mod 16; d mod 16].
Fixpoint pack (ns : list N) : list N :=
  match ns with
  | a :: b :: t => 16 * a + b :: pack t
  | [a] => [a]
  | [] => []
  end.

(** The nibbles of a byte string, and 12-bit numbers from groups of three. *)
Definition nibs (v : list N) : list N := flat_map (fun b => [b / 16; b mod 16]) v.
Fixpoint pack3 (ns : list N) : list N :=
  match ns with
  | a :: b :: c :: t => 256 * a + 16 * b + c :: pack3 t
  | _ => []
  end.

(** Position of the first word equal to [w]. *)
Fixpoint index_of (l : list (list N)) (w : list N) : option N :=
  match l with
  | [] => None
  | x :: t => if list_eq_dec N.eq_dec x w then Some 0
              else match index_of t w with Some i => Some (i + 1) | None => None end
  end.
Fixpoint indices (ws : list (list N)) : option (list N) :=
  match ws with
  | [] => Some []
  | w :: t => match index_of wordlist w, indices t with Some i, Some l => Some (i :: l) | _, _ => None end
  end.
Definition word (d : N) : list N := nth (N.to_nat d) wordlist [].

(** White space: blank, tab, line feed, vertical tab, form feed, return. *)
Definition is_white (c : N) : bool := existsb (N.eqb c) [32; 9; 10; 11; 12; 13].
(** Pieces between white space characters (possibly empty), and the words: the
    non-empty ones. *)
Fixpoint fields (s : list N) : list (list N) :=
  match s with
  | [] => [[]]
  | c :: t => if is_white c then [] :: fields t
              else match fields t with f :: fs => (c :: f) :: fs | [] => [[c]] end
  end.
Definition words (s : list N) : list (list N) := filter (fun f => match f with [] => false | _ => true end) (fields s).
(** Number of blanks. *)
Definition blanks (s : list N) : nat := length (filter (N.eqb 32) s).
