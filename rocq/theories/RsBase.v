(** Outcome of a Rust call, checked slices and loop combinators for the model of the
    Rust port /repo/src/rust_wrapper.  Nothing in this file models a particular
    function; the integer conventions are those of a build with overflow checks. *)
From Coq Require Import List NArith Arith Lia Bool.
Import ListNotations.
Open Scope nat_scope.

(** errors.rs:1-5 QRLError, without the message strings. *)
Inductive rerr : Set := RInvalidArgument | RFailedConversion.

(** [ROk a]: returned [a] (or [Ok(a)]); [RErr e]: returned [Err(e)]; [RPanic]: the
    thread panicked (slice index, [unwrap] on nothing, arithmetic overflow).  Result and the operator ?, e.g. xmss_pool.rs:53, xmss_base.rs:57-81; panics, e.g. dilithium.rs:21-22. *)
Inductive rs (A : Type) : Type :=
| ROk (a : A)
| RErr (e : rerr)
| RPanic.
Arguments ROk {A} a.
Arguments RErr {A} e.
Arguments RPanic {A}.

(** Result and the operator ?, e.g. xmss_pool.rs:53, xmss_base.rs:57-81; panics, e.g. dilithium.rs:21-22. *)
Definition rbind {A B} (m : rs A) (k : A -> rs B) : rs B :=
  match m with ROk a => k a | RErr e => RErr e | RPanic => RPanic end.

Declare Scope rs_scope.
Delimit Scope rs_scope with rs.
Open Scope rs_scope.
(** notation for [rbind]: statements in sequence, e.g. hash.rs:155-181. *)
Notation "x <~ m ;; k" := (rbind m (fun x => k))
  (at level 61, m at next level, right associativity) : rs_scope.
(** notation for [rbind]: statements in sequence, e.g. hash.rs:155-181. *)
Notation "' p <~ m ;; k" := (rbind m (fun p => k))
  (at level 61, p pattern, m at next level, right associativity) : rs_scope.

(** [x[i]];  e.g. hash.rs:176-178, algsxmss.rs:295-298. *)
Definition rget {A} (l : list A) (i : nat) : rs A :=
  match nth_error l i with Some a => ROk a | None => RPanic end.

(** [x[i] = a];  e.g. hash.rs:176-178, algsxmss.rs:295-298. *)
Definition rset {A} (l : list A) (i : nat) (a : A) : rs (list A) :=
  if i <? length l then ROk (firstn i l ++ a :: skipn (S i) l) else RPanic.

(** [&x[a..b]] and [x.get(a..b).unwrap()];  e.g. wots.rs:61-74, algsxmss.rs:88-96. *)
Definition rslice {A} (a b : nat) (l : list A) : rs (list A) :=
  if (a <=? b) && (b <=? length l) then ROk (firstn (b - a) (skipn a l)) else RPanic.

(** A call [f(&mut x[a..b])]: [f] gets the sub-slice and returns its new contents.  e.g. wots.rs:61-74, algsxmss.rs:88-96. *)
Definition rwith {A} (a b : nat) (l : list A) (f : list A -> rs (list A)) : rs (list A) :=
  s <~ rslice a b l ;;
  s' <~ f s ;;
  ROk (firstn a l ++ s' ++ skipn b l).

(** [dst.copy_from_slice(src)] (or clone_from_slice): panics unless the lengths agree.  e.g. wots.rs:61-74, algsxmss.rs:88-96. *)
Definition rcopy {A} (src : list A) (dst : list A) : rs (list A) :=
  if length src =? length dst then ROk src else RPanic.

(** [for i in a..a+n { s = f(i, s) }];  e.g. hash.rs:176-178, wots.rs:61-74. *)
Fixpoint rfor_from {S} (n : nat) (a : nat) (f : nat -> S -> rs S) (s : S) : rs S :=
  match n with
  | O => ROk s
  | Datatypes.S n' => s' <~ f a s ;; rfor_from n' (Datatypes.S a) f s'
  end.
(** e.g. hash.rs:176-178, wots.rs:61-74. *)
Definition rfor {S} (n : nat) (f : nat -> S -> rs S) (s : S) : rs S := rfor_from n 0 f s.

(** [for j in 0..n { dst[d0 + j] = src[s0 + j]; }];  e.g. hash.rs:30-80. *)
Definition rcopy_loop {A} (n : nat) (src : list A) (s0 : nat) (dst : list A) (d0 : nat) : rs (list A) :=
  rfor n (fun j dst => x <~ rget src (s0 + j) ;; rset dst (d0 + j) x) dst.

(** ** Lemmas *)
Lemma rget_nth : forall A (l : list A) i d, i < length l -> rget l i = ROk (nth i l d).
Proof. intros. unfold rget. now rewrite (nth_error_nth' l d H). Qed.
Lemma rget_panic : forall A (l : list A) i, length l <= i -> rget l i = RPanic.
Proof. intros. unfold rget. apply nth_error_None in H. now rewrite H. Qed.
Lemma rset_ok : forall A (l : list A) i a, i < length l -> rset l i a = ROk (firstn i l ++ a :: skipn (S i) l).
Proof. intros. unfold rset. now rewrite (proj2 (Nat.ltb_lt _ _) H). Qed.
Lemma rset_panic : forall A (l : list A) i a, length l <= i -> rset l i a = RPanic.
Proof. intros. unfold rset. now rewrite (proj2 (Nat.ltb_ge _ _) H). Qed.
Lemma rslice_ok : forall A a b (l : list A), a <= b -> b <= length l -> rslice a b l = ROk (firstn (b - a) (skipn a l)).
Proof. intros. unfold rslice. now rewrite (proj2 (Nat.leb_le _ _) H), (proj2 (Nat.leb_le _ _) H0). Qed.
Lemma rslice_tail : forall A a (l : list A), a <= length l -> rslice a (length l) l = ROk (skipn a l).
Proof. intros. rewrite rslice_ok by lia. rewrite firstn_all2; [reflexivity|]. rewrite skipn_length. lia. Qed.
Lemma rslice_panic : forall A a b (l : list A), length l < b -> rslice a b l = RPanic.
Proof. intros. unfold rslice. rewrite (proj2 (Nat.leb_gt b _)) by auto. now rewrite andb_false_r. Qed.
Lemma rwith_ok : forall A a b (l : list A) f s', a <= b -> b <= length l ->
  f (firstn (b - a) (skipn a l)) = ROk s' -> rwith a b l f = ROk (firstn a l ++ s' ++ skipn b l).
Proof. intros. unfold rwith. rewrite rslice_ok by auto. cbn [rbind]. now rewrite H1. Qed.
Lemma rwith_tail : forall A a (l : list A) f s', a <= length l ->
  f (skipn a l) = ROk s' -> rwith a (length l) l f = ROk (firstn a l ++ s').
Proof. intros. unfold rwith. rewrite rslice_tail by auto. cbn [rbind]. rewrite H0. cbn [rbind]. rewrite skipn_all. now rewrite app_nil_r. Qed.
Lemma rcopy_ok : forall A (src dst : list A), length src = length dst -> rcopy src dst = ROk src.
Proof. intros. unfold rcopy. now rewrite (proj2 (Nat.eqb_eq _ _) H). Qed.

Lemma rfor_from_inv : forall S (I : nat -> S -> Prop) f n a s,
  I a s ->
  (forall i s', a <= i < a + n -> I i s' -> exists s'', f i s' = ROk s'' /\ I (Datatypes.S i) s'') ->
  exists s', rfor_from n a f s = ROk s' /\ I (a + n) s'.
Proof.
  induction n; simpl; intros a s H0 Hstep.
  - exists s. now rewrite Nat.add_0_r.
  - destruct (Hstep a s) as [s1 [E1 I1]]; [lia | assumption |].
    rewrite E1; simpl.
    destruct (IHn (Datatypes.S a) s1 I1) as [s2 [E2 I2]].
    + intros i s' Hi. apply Hstep. lia.
    + exists s2. split; [assumption|]. now replace (a + Datatypes.S n) with (Datatypes.S a + n) by lia.
Qed.
Lemma rfor_inv : forall S (I : nat -> S -> Prop) f n s,
  I 0 s ->
  (forall i s', i < n -> I i s' -> exists s'', f i s' = ROk s'' /\ I (Datatypes.S i) s'') ->
  exists s', rfor n f s = ROk s' /\ I n s'.
Proof.
  intros. unfold rfor. destruct (rfor_from_inv S I f n 0 s) as [s' [E H1]]; auto.
  - intros. apply H0; auto; lia.
  - now exists s'.
Qed.

Lemma rs_nth_error_skipn : forall A k (l : list A) i, nth_error (skipn k l) i = nth_error l (k + i).
Proof. induction k; intros [|a l] i; cbn; auto. now destruct i. Qed.
Lemma rcopy_loop_ok : forall A n (src : list A) s0 dst d0,
  s0 + n <= length src -> d0 + n <= length dst ->
  rcopy_loop n src s0 dst d0 = ROk (firstn d0 dst ++ firstn n (skipn s0 src) ++ skipn (d0 + n) dst).
Proof.
  intros A n src s0 dst d0 Hs Hd. unfold rcopy_loop.
  destruct (rfor_inv _ (fun j d => d = firstn d0 dst ++ firstn j (skipn s0 src) ++ skipn (d0 + j) dst)
    (fun j d => x <~ rget src (s0 + j) ;; rset d (d0 + j) x) n dst) as [s' [E1 E2]].
  - rewrite Nat.add_0_r. cbn [firstn app]. now rewrite firstn_skipn.
  - intros i d Hi ->. destruct src as [|e0 src0]; [cbn in Hs; lia|].
    rewrite (rget_nth _ _ _ e0) by lia. cbn [rbind].
    set (x := nth (s0 + i) (e0 :: src0) e0). set (src := e0 :: src0) in *.
    assert (L1 : length (firstn d0 dst) = d0) by (rewrite firstn_length; lia).
    assert (L2 : length (firstn i (skipn s0 src)) = i) by (rewrite firstn_length, skipn_length; lia).
    assert (Hf : firstn (S i) (skipn s0 src) = firstn i (skipn s0 src) ++ [x]).
    { assert (Hn : nth_error (skipn s0 src) i = Some x).
      { unfold x. rewrite rs_nth_error_skipn. apply nth_error_nth'. lia. }
      clear - Hn. clearbody x. revert i Hn. induction (skipn s0 src); intros [|i] Hn; cbn in *; try discriminate; [congruence|]. f_equal. now apply IHl. }
    rewrite rset_ok by (rewrite !app_length, L1, L2, skipn_length; lia).
    eexists. split; [reflexivity|]. rewrite Hf.
    rewrite (app_assoc (firstn d0 dst)), (app_assoc (firstn d0 dst)), (app_assoc (firstn d0 dst)).
    set (A0 := firstn d0 dst ++ firstn i (skipn s0 src)).
    assert (LL : length A0 = d0 + i) by (unfold A0; rewrite app_length; lia). clearbody A0.
    rewrite firstn_app, LL, Nat.sub_diag. rewrite (firstn_all2 A0) by lia. cbn [firstn]. rewrite app_nil_r.
    rewrite skipn_app, LL. rewrite (skipn_all2 A0) by lia. replace (S (d0 + i) - (d0 + i)) with 1 by lia.
    cbn [app]. rewrite <- app_assoc. cbn [app]. do 2 f_equal.
    assert (Sk : forall k (l : list A), skipn 1 (skipn k l) = skipn (S k) l).
    { clear. induction k; intros l; [reflexivity|]. destruct l; [now destruct k|]. cbn [skipn]. apply (IHk l). }
    rewrite Sk. now replace (d0 + S i) with (S (d0 + i)) by lia.
  - rewrite E1. now rewrite E2.
Qed.
