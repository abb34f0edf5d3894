(** Outcome of a C++ call, checked buffers and loop combinators shared by the
    whole model.  Nothing in this file models a particular function of /repo. *)
From Coq Require Import List NArith Arith Lia Bool.
Import ListNotations.

(** The two standard exception classes thrown by the library. *)
Inductive exn : Set := InvalidArgument | RuntimeError.

(** [Ok a]: the call returned [a].  [Exn e]: it threw [e].  [UB]: the run
    reached something the C++ standard leaves undefined. *)
Inductive res (A : Type) : Type :=
| Ok (a : A)
| Exn (e : exn)
| UB.
Arguments Ok {A} a.
Arguments Exn {A} e.
Arguments UB {A}.

Definition bind {A B} (m : res A) (k : A -> res B) : res B :=
  match m with Ok a => k a | Exn e => Exn e | UB => UB end.

Declare Scope res_scope.
Delimit Scope res_scope with res.
Open Scope res_scope.
Notation "x <- m ;; k" := (bind m (fun x => k))
  (at level 61, m at next level, right associativity) : res_scope.
Notation "' p <- m ;; k" := (bind m (fun p => k))
  (at level 61, p pattern, m at next level, right associativity) : res_scope.

Definition is_ok {A} (m : res A) : Prop := exists a, m = Ok a.

(** Checked read of a buffer: out of bounds is undefined behaviour. *)
Definition get {A} (l : list A) (i : nat) : res A :=
  match nth_error l i with Some a => Ok a | None => UB end.

(** Functional update; identity when out of range (see [set]). *)
Fixpoint upd {A} (l : list A) (i : nat) (a : A) : list A :=
  match l, i with
  | [], _ => []
  | _ :: t, O => a :: t
  | x :: t, S i' => x :: upd t i' a
  end.

(** Checked write of a buffer. *)
Definition set {A} (l : list A) (i : nat) (a : A) : res (list A) :=
  if i <? length l then Ok (upd l i a) else UB.

(** [for (i = a; i < a + n; i++) s = f i s]. *)
Fixpoint for_from {S} (n : nat) (a : nat) (f : nat -> S -> res S) (s : S) : res S :=
  match n with
  | O => Ok s
  | Datatypes.S n' => s' <- f a s ;; for_from n' (Datatypes.S a) f s'
  end.
Definition for_up {S} (n : nat) (f : nat -> S -> res S) (s : S) : res S :=
  for_from n 0 f s.

(** ** Lemmas *)
Lemma bind_ok : forall A B (m : res A) (k : A -> res B) b,
  bind m k = Ok b <-> exists a, m = Ok a /\ k a = Ok b.
Proof.
  intros A B [a| |] k b; simpl; split; intro H; try discriminate.
  - now exists a.
  - destruct H as [a' [E H]]. now injection E as ->.
  - destruct H as [? [E _]]; discriminate.
  - destruct H as [? [E _]]; discriminate.
Qed.

Lemma bind_assoc : forall A B C (m : res A) (f : A -> res B) (g : B -> res C),
  bind (bind m f) g = bind m (fun x => bind (f x) g).
Proof. now intros A B C [a| |] f g. Qed.

Lemma upd_length : forall A (l : list A) i a, length (upd l i a) = length l.
Proof. induction l; destruct i; simpl; intros; auto. Qed.

Lemma nth_error_upd_same : forall A (l : list A) i a,
  i < length l -> nth_error (upd l i a) i = Some a.
Proof. induction l; destruct i; simpl; intros; try lia; auto. apply IHl; lia. Qed.

Lemma nth_error_upd_other : forall A (l : list A) i j a,
  i <> j -> nth_error (upd l i a) j = nth_error l j.
Proof. induction l; destruct i, j; simpl; intros; try lia; auto. Qed.

Lemma get_nth : forall A (l : list A) i d, i < length l -> get l i = Ok (nth i l d).
Proof.
  intros. unfold get. now rewrite (nth_error_nth' l d H).
Qed.

Lemma get_ok : forall A (l : list A) i a, get l i = Ok a <-> nth_error l i = Some a.
Proof.
  intros; unfold get; destruct (nth_error l i); split; congruence.
Qed.

Lemma get_in_range : forall A (l : list A) i, i < length l -> exists a, get l i = Ok a.
Proof.
  intros. destruct (nth_error l i) eqn:E.
  - exists a. now apply get_ok.
  - apply nth_error_None in E. lia.
Qed.

Lemma set_ok : forall A (l : list A) i a, i < length l -> set l i a = Ok (upd l i a).
Proof.
  intros. unfold set. now rewrite (proj2 (Nat.ltb_lt _ _) H).
Qed.

Lemma set_ub : forall A (l : list A) i a, length l <= i -> set l i a = UB.
Proof.
  intros. unfold set. now rewrite (proj2 (Nat.ltb_ge _ _) H).
Qed.

Lemma get_upd_same : forall A (l : list A) i a, i < length l -> get (upd l i a) i = Ok a.
Proof. intros. apply get_ok. now apply nth_error_upd_same. Qed.

Lemma get_upd_other : forall A (l : list A) i j a, i <> j -> get (upd l i a) j = get l j.
Proof. intros. unfold get. now rewrite nth_error_upd_other. Qed.

Lemma nth_upd_same : forall A (l : list A) i a d, i < length l -> nth i (upd l i a) d = a.
Proof.
  induction l; destruct i; simpl; intros; try lia; auto. apply IHl; lia.
Qed.

Lemma nth_upd_other : forall A (l : list A) i j a d, i <> j -> nth j (upd l i a) d = nth j l d.
Proof.
  induction l; destruct i, j; simpl; intros; try lia; auto.
Qed.

Lemma firstn_upd : forall A (l : list A) i j a, j <= i -> firstn j (upd l i a) = firstn j l.
Proof.
  induction l; destruct i, j; simpl; intros; try lia; auto. f_equal. apply IHl. lia.
Qed.

Lemma firstn_upd_S : forall A (l : list A) i a,
  i < length l -> firstn (S i) (upd l i a) = firstn i l ++ [a].
Proof.
  induction l; destruct i; simpl; intros; try lia; auto. f_equal. apply IHl. lia.
Qed.

Lemma firstn_S_nth_error : forall A (l : list A) i a,
  nth_error l i = Some a -> firstn (S i) l = firstn i l ++ [a].
Proof.
  induction l; destruct i; simpl; intros; try discriminate.
  - congruence.
  - f_equal. now apply IHl.
Qed.

(** Rule for counted loops: an invariant that each iteration preserves and
    under which each iteration succeeds. *)
Lemma for_from_inv : forall S (I : nat -> S -> Prop) f n a s,
  I a s ->
  (forall i s', a <= i < a + n -> I i s' -> exists s'', f i s' = Ok s'' /\ I (Datatypes.S i) s'') ->
  exists s', for_from n a f s = Ok s' /\ I (a + n) s'.
Proof.
  induction n; simpl; intros a s H0 Hstep.
  - exists s. now rewrite Nat.add_0_r.
  - destruct (Hstep a s) as [s1 [E1 I1]]; [lia | assumption |].
    rewrite E1; simpl.
    destruct (IHn (Datatypes.S a) s1 I1) as [s2 [E2 I2]].
    + intros i s' Hi. apply Hstep. lia.
    + exists s2. split; [assumption|]. now replace (a + Datatypes.S n) with (Datatypes.S a + n) by lia.
Qed.

Lemma for_up_inv : forall S (I : nat -> S -> Prop) f n s,
  I 0 s ->
  (forall i s', i < n -> I i s' -> exists s'', f i s' = Ok s'' /\ I (Datatypes.S i) s'') ->
  exists s', for_up n f s = Ok s' /\ I n s'.
Proof.
  intros. unfold for_up. destruct (for_from_inv S I f n 0 s) as [s' [E H1]]; auto.
  - intros. apply H0; auto; lia.
  - now exists s'.
Qed.

Lemma for_from_ext : forall S f g n a (s : S),
  (forall i s', a <= i < a + n -> f i s' = g i s') -> for_from n a f s = for_from n a g s.
Proof.
  induction n; simpl; intros; auto.
  rewrite H by lia. destruct (g a s); simpl; auto. apply IHn. intros; apply H; lia.
Qed.

Lemma for_from_split : forall S f n m a (s : S),
  for_from (n + m) a f s = bind (for_from n a f s) (for_from m (a + n) f).
Proof.
  induction n; simpl; intros.
  - now rewrite Nat.add_0_r.
  - destruct (f a s); simpl; auto. rewrite IHn. now replace (Datatypes.S a + n) with (a + Datatypes.S n) by lia.
Qed.
