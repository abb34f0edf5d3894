(** Facts about the word list, by computation. *)
From Coq Require Import List NArith Arith Lia Bool.
From Verif Require Import Wordlist.
Import ListNotations.
Open Scope N_scope.

(** ** The word list *)
Definition word_ok (w : list N) : bool := match w with [] => false | _ => forallb (fun c => (97 <=? c) && (c <=? 122)) w end.
Lemma wordlist_length : length wordlist = 4096%nat.
Proof. vm_compute. reflexivity. Qed.
Lemma wordlist_words : forallb word_ok wordlist = true.
Proof. vm_compute. reflexivity. Qed.
Fixpoint nodupb (l : list (list N)) : bool :=
  match l with [] => true | x :: t => negb (existsb (fun y => if list_eq_dec N.eq_dec y x then true else false) t) && nodupb t end.
Lemma nodupb_ok : forall l, nodupb l = true -> NoDup l.
Proof.
  induction l as [|x l IH]; intros H; constructor; cbn [nodupb] in H; apply andb_true_iff in H; destruct H as [H1 H2]; auto.
  intros Hin. apply negb_true_iff in H1. assert (existsb (fun y => if list_eq_dec N.eq_dec y x then true else false) l = true); [|congruence].
  apply existsb_exists. exists x. split; auto. destruct (list_eq_dec _ _ _); auto.
Qed.
Lemma wordlist_nodup : NoDup wordlist.
Proof. apply nodupb_ok. vm_compute. reflexivity. Qed.

