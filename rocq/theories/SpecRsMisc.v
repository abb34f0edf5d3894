(** Specification for the text encodings of the Rust port: characters and words. *)
From Coq Require Import List NArith Arith Bool.
Import ListNotations.
Open Scope N_scope.

(** Unicode white space. *)
Definition unicode_white : list N :=
  [9; 10; 11; 12; 13; 32; 0x85; 0xA0; 0x1680; 0x2000; 0x2001; 0x2002; 0x2003; 0x2004; 0x2005; 0x2006; 0x2007; 0x2008; 0x2009;
   0x200A; 0x2028; 0x2029; 0x202F; 0x205F; 0x3000].
Definition is_uwhite (c : N) : bool := existsb (N.eqb c) unicode_white.
(** Pieces between white space characters (possibly empty), and the words: the
    non-empty ones. *)
Fixpoint ufields (s : list N) : list (list N) :=
  match s with
  | [] => [[]]
  | c :: t => if is_uwhite c then [] :: ufields t
              else match ufields t with f :: fs => (c :: f) :: fs | [] => [[c]] end
  end.
Definition uwords (s : list N) : list (list N) := filter (fun f => match f with [] => false | _ => true end) (ufields s).

(** UTF-8 read back (RFC 3629): a lead byte and one to three continuation bytes, shortest
    form only. *)
Definition is_cont (b : N) : bool := (0x80 <=? b) && (b <? 0xC0).
Fixpoint utf8_read (l : list N) : option (list N) :=
  match l with
  | [] => Some []
  | a :: t =>
      if a <? 0x80 then option_map (cons a) (utf8_read t)
      else match t with
      | b :: t1 =>
          if (0xC2 <=? a) && (a <? 0xE0) && is_cont b then option_map (cons ((a - 0xC0) * 64 + (b - 0x80))) (utf8_read t1)
          else match t1 with
          | c :: t2 =>
              let v := (a - 0xE0) * 4096 + (b - 0x80) * 64 + (c - 0x80) in
              if (0xE0 <=? a) && (a <? 0xF0) && is_cont b && is_cont c && (0x800 <=? v) then option_map (cons v) (utf8_read t2)
              else match t2 with
              | d :: t3 =>
                  let v := (a - 0xF0) * 262144 + (b - 0x80) * 4096 + (c - 0x80) * 64 + (d - 0x80) in
                  if (0xF0 <=? a) && (a <? 0xF5) && is_cont b && is_cont c && is_cont d && (0x10000 <=? v) && (v <? 0x110000)
                  then option_map (cons v) (utf8_read t3) else None
              | [] => None
              end
          | [] => None
          end
      | [] => None
      end
  end.
