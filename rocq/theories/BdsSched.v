(** The scheduling argument of the BDS traversal, as arithmetic on the numbers
    [r i] of leaves instance [i] has still to process ([0 <= r i <= 2^i]).

    Every round t restarts the instances i with 2^(i+1) | t and then performs
    m/2 single-leaf updates.  We show that an instance always finishes before it is
    restarted. *)
From Coq Require Import List Arith Lia Bool.
Import ListNotations.
Open Scope nat_scope.

Fixpoint sumn (n : nat) (f : nat -> nat) : nat :=
  match n with O => 0 | S k => sumn k f + f k end.

Lemma sumn_le : forall n f g, (forall j, j < n -> f j <= g j) -> sumn n f <= sumn n g.
Proof.
  induction n; intros f g H; cbn [sumn]; auto. specialize (IHn f g).
  assert (sumn n f <= sumn n g) by (apply IHn; intros; apply H; lia). specialize (H n). lia.
Qed.
Lemma sumn_add : forall n f g, sumn n (fun j => f j + g j) = sumn n f + sumn n g.
Proof. induction n; intros; cbn [sumn]; auto. rewrite IHn. lia. Qed.
Lemma sumn_ext : forall n f g, (forall j, j < n -> f j = g j) -> sumn n f = sumn n g.
Proof.
  induction n; intros f g H; cbn [sumn]; auto. rewrite (IHn f g) by (intros; apply H; lia). rewrite H by lia. auto.
Qed.
Lemma sumn_ge_term : forall n f j, j < n -> f j <= sumn n f.
Proof.
  induction n; intros; cbn [sumn]; [lia|]. destruct (Nat.eq_dec j n) as [->|]; [lia|].
  specialize (IHn f j). lia.
Qed.
Lemma sumn_zero : forall n f, (forall j, j < n -> f j = 0) -> sumn n f = 0.
Proof. induction n; intros; cbn [sumn]; auto. rewrite IHn, H; auto. Qed.
Lemma sumn_change : forall n f g p, p < n -> (forall j, j <> p -> f j = g j) ->
  sumn n f + g p = sumn n g + f p.
Proof.
  induction n; intros f g p Hp H; [lia|]. cbn [sumn]. destruct (Nat.eq_dec p n) as [->|].
  - rewrite (sumn_ext n f g); [lia|]. intros; apply H; lia.
  - assert (E : sumn n f + g p = sumn n g + f p) by (apply IHn; [lia|auto]). rewrite (H n) by auto. lia.
Qed.
Lemma sumn_const : forall n c, sumn n (fun _ => c) = n * c.
Proof. induction n; intros; cbn [sumn]; auto. rewrite IHn. lia. Qed.
(* sum over j <= i < n *)
Lemma sumn_restrict : forall n i f, i < n -> sumn n (fun j => if j <=? i then f j else 0) = sumn (S i) f.
Proof.
  induction n; intros i f Hi; [lia|]. cbn [sumn].
  destruct (Nat.eq_dec i n) as [->|].
  - rewrite Nat.leb_refl. cbn [sumn]. f_equal. apply sumn_ext. intros j Hj.
    now rewrite (proj2 (Nat.leb_le _ _)) by lia.
  - rewrite (proj2 (Nat.leb_gt n i)) by lia. rewrite Nat.add_0_r. apply IHn. lia.
Qed.

Lemma pow2_pos : forall n, 0 < 2 ^ n.
Proof. intros. assert (2 ^ n <> 0) by (apply Nat.pow_nonzero; lia). lia. Qed.
Lemma pow2_S : forall n, 2 ^ S n = 2 * 2 ^ n.
Proof. reflexivity. Qed.
Lemma pow2_split : forall i j, i <= j -> 2 ^ j = 2 ^ (j - i) * 2 ^ i.
Proof. intros. rewrite <- Nat.pow_add_r. f_equal. lia. Qed.

(* dividing by a power of two, successor *)
Lemma mod_S : forall t q, 0 < q -> S t mod q <> 0 -> S t mod q = S (t mod q).
Proof.
  intros t q Hq H. pose proof (Nat.mod_upper_bound t q). pose proof (Nat.div_mod t q).
  destruct (Nat.eq_dec (S (t mod q)) q) as [E|].
  - exfalso. apply H. symmetry. apply (Nat.mod_unique _ _ (S (t / q))); [lia|]. nia.
  - symmetry. apply (Nat.mod_unique _ _ (t / q)); lia.
Qed.
Lemma mod_S_0 : forall t q, 0 < q -> S t mod q = 0 -> t mod q = q - 1.
Proof.
  intros t q Hq H. apply Nat.mod_divides in H; [|lia]. destruct H as [c Hc].
  destruct c; [lia|]. symmetry. apply (Nat.mod_unique _ _ c); [lia|]. nia.
Qed.
Lemma div_S : forall e q, 0 < q -> S e / q = e / q + (if S e mod q =? 0 then 1 else 0).
Proof.
  intros e q Hq. destruct (S e mod q =? 0) eqn:E.
  - apply Nat.eqb_eq in E. pose proof (mod_S_0 e q Hq E). pose proof (Nat.div_mod e q).
    symmetry. apply (Nat.div_unique _ _ _ 0); [lia|]. nia.
  - apply Nat.eqb_neq in E. pose proof (mod_S e q Hq E). pose proof (Nat.div_mod e q).
    pose proof (Nat.mod_upper_bound (S e) q).
    symmetry. apply (Nat.div_unique _ _ _ (S (e mod q))); lia.
Qed.
Lemma mod_pow_mod : forall t i j, i <= j -> (t mod 2 ^ j) mod 2 ^ i = t mod 2 ^ i.
Proof.
  intros. rewrite (pow2_split i j H). pose proof (pow2_pos i). pose proof (pow2_pos (j - i)).
  rewrite Nat.mul_comm, Nat.mod_mul_r by lia. rewrite Nat.mul_comm, Nat.mod_add by lia. apply Nat.mod_mod. lia.
Qed.
Lemma mod_pow_0 : forall t i j, i <= j -> t mod 2 ^ j = 0 -> t mod 2 ^ i = 0.
Proof. intros. rewrite <- (mod_pow_mod t i j) by auto. rewrite H0. apply Nat.mod_0_l. pose proof (pow2_pos i). lia. Qed.
Lemma pow_mod_0 : forall i j, i <= j -> 2 ^ j mod 2 ^ i = 0.
Proof. intros. rewrite (pow2_split i j H). apply Nat.mod_mul. pose proof (pow2_pos i). lia. Qed.

Section Sched.
  Variables (m q h : nat).
  Hypothesis Hm : m = 2 * q.

  Definition fD (i : nat) (r : nat -> nat) (j : nat) := if j <=? i then r j else r j mod 2 ^ i.
  Definition fB (i : nat) (r : nat -> nat) (j : nat) := if j <=? i then 0 else r j mod 2 ^ i.
  Definition fA (i e : nat) (j : nat) := if j <=? i then (e / 2 ^ S j + 1) * 2 ^ j else 0.
  (** Updates that will be spent before level [i] is idle. *)
  Definition D i r := sumn m (fD i r).
  Definition B i r := sumn m (fB i r).
  (** Work that arrived for levels <= i up to [e] rounds after a restart of [i]. *)
  Definition A i e := sumn m (fA i e).
  Definition beta i := if i <? m - 1 then 2 ^ i - 1 else 0.

  Definition dec (r : nat -> nat) (p j : nat) := if j =? p then r j - 1 else r j.
  Definition restart (t : nat) (r : nat -> nat) (j : nat) :=
    if (j <? m) && (t mod 2 ^ S j =? 0) && (t + 3 * 2 ^ j <? 2 ^ h) then 2 ^ j else r j.

  (** [p] is chosen: nothing with a lower node, or as low a node and a smaller
      index, is waiting. *)
  Definition pick_ok (r : nat -> nat) (p : nat) : Prop :=
    p < m /\ 0 < r p /\
    forall i, i < p -> r p mod 2 ^ i = 0 ->
      (forall j, j <= i -> r j = 0) /\ (forall j, i < j -> j < m -> r j mod 2 ^ i = 0).

  (** After [u] updates of round [t]. *)
  Record sched (t u : nat) (r : nat -> nat) : Prop := {
    s_le : forall i, i < m -> r i <= 2 ^ i;
    s_B : forall i, i < m -> B i r <= 2 ^ i - 1;
    s_D : forall i, i < m -> r i = 0 \/
          D i r + (t mod 2 ^ S i) * q + u <= A i (t mod 2 ^ S i) + beta i }.

  Lemma sched_init : sched 0 q (fun _ => 0).
  Proof.
    constructor; intros; auto; try lia.
    unfold B. rewrite sumn_zero; [lia|]. intros j Hj. unfold fB. destruct (j <=? i); auto. apply Nat.mod_0_l.
    pose proof (pow2_pos i). lia.
  Qed.

  Lemma dec_mod : forall x k, 0 < x mod 2 ^ k -> (x - 1) mod 2 ^ k = x mod 2 ^ k - 1.
  Proof.
    intros x k H. pose proof (pow2_pos k). pose proof (Nat.div_mod x (2 ^ k)). pose proof (Nat.mod_upper_bound x (2 ^ k)).
    symmetry. apply (Nat.mod_unique _ _ (x / 2 ^ k)); lia.
  Qed.

  Lemma D_dec : forall r p i, pick_ok r p -> i < m -> 0 < D i r -> D i (dec r p) + 1 = D i r.
  Proof.
    intros r p i (Hp & Hr & Hpk) Hi HD. unfold D in *.
    assert (Hf : 0 < fD i r p /\ fD i (dec r p) p = fD i r p - 1).
    { unfold fD, dec. rewrite Nat.eqb_refl. destruct (p <=? i) eqn:E; [lia|]. apply Nat.leb_gt in E.
      destruct (Nat.eq_dec (r p mod 2 ^ i) 0) as [E0|].
      - exfalso. destruct (Hpk i E E0) as [H1 H2].
        rewrite sumn_zero in HD; [lia|]. intros j Hj. unfold fD. destruct (j <=? i) eqn:Ej.
        + apply Nat.leb_le in Ej. auto.
        + apply Nat.leb_gt in Ej. auto.
      - split; [lia|]. apply dec_mod. lia. }
    destruct Hf as [F1 F2].
    pose proof (sumn_change m (fD i (dec r p)) (fD i r) p Hp) as Hc.
    assert (Hx : forall j, j <> p -> fD i (dec r p) j = fD i r j).
    { intros j Hj. unfold fD, dec. now rewrite (proj2 (Nat.eqb_neq j p)) by auto. }
    specialize (Hc Hx). lia.
  Qed.

  Lemma B_dec : forall r p i, pick_ok r p -> i < m -> B i r <= 2 ^ i - 1 -> B i (dec r p) <= 2 ^ i - 1.
  Proof.
    intros r p i (Hp & Hr & Hpk) Hi HB. unfold B in *. pose proof (pow2_pos i).
    pose proof (sumn_change m (fB i (dec r p)) (fB i r) p Hp) as Hc.
    assert (Hx : forall j, j <> p -> fB i (dec r p) j = fB i r j).
    { intros j Hj. unfold fB, dec. now rewrite (proj2 (Nat.eqb_neq j p)) by auto. }
    specialize (Hc Hx).
    destruct (p <=? i) eqn:E.
    - assert (fB i (dec r p) p = 0 /\ fB i r p = 0) as [? ?] by (unfold fB; now rewrite E). lia.
    - pose proof E as E'. apply Nat.leb_gt in E'.
      destruct (Nat.eq_dec (r p mod 2 ^ i) 0) as [E0|].
      + destruct (Hpk i E' E0) as [H1 H2].
        assert (Z : sumn m (fB i r) = 0).
        { apply sumn_zero. intros j Hj. unfold fB. destruct (j <=? i) eqn:Ej; auto. apply Nat.leb_gt in Ej. auto. }
        assert (fB i (dec r p) p < 2 ^ i).
        { unfold fB. rewrite E. apply Nat.mod_upper_bound. lia. }
        assert (fB i r p = 0) by (unfold fB; now rewrite E, E0). lia.
      + assert (fB i (dec r p) p = fB i r p - 1 /\ 0 < fB i r p).
        { unfold fB, dec. rewrite E, Nat.eqb_refl. split; [apply dec_mod|]; lia. }
        lia.
  Qed.

  Lemma sched_update : forall t u r p, sched t u r -> pick_ok r p -> sched t (S u) (dec r p).
  Proof.
    intros t u r p [HL HB HD] Hpk. constructor; intros i Hi.
    - specialize (HL i Hi). unfold dec. destruct (i =? p); lia.
    - apply B_dec; auto.
    - destruct (Nat.eq_dec (dec r p i) 0) as [|Hne]; [now left|]. right.
      assert (Hri : 0 < r i) by (unfold dec in Hne; destruct (i =? p); lia).
      assert (HDp : 0 < D i r).
      { unfold D. apply Nat.lt_le_trans with (fD i r i); [unfold fD; now rewrite Nat.leb_refl|].
        now apply sumn_ge_term. }
      pose proof (D_dec r p i Hpk Hi HDp). destruct (HD i Hi) as [|H0]; lia.
  Qed.

  Lemma sched_idle : forall t u u' r, sched t u r -> (forall i, i < m -> r i = 0) -> sched t u' r.
  Proof. intros t u u' r [HL HB HD] H0. constructor; auto. Qed.

  Lemma A_last : forall i, i < m -> A i (2 ^ S i - 1) = (i + 1) * 2 ^ i.
  Proof.
    intros i Hi. unfold A.
    rewrite (sumn_ext m _ (fun j => if j <=? i then 2 ^ i else 0)).
    - rewrite (sumn_restrict m i (fun _ => 2 ^ i) Hi). rewrite sumn_const. lia.
    - intros j Hj. unfold fA. destruct (j <=? i) eqn:E; auto. apply Nat.leb_le in E.
      assert (Ed : (2 ^ S i - 1) / 2 ^ S j = 2 ^ (i - j) - 1).
      { rewrite (pow2_split (S j) (S i)) by lia. replace (S i - S j) with (i - j) by lia.
        pose proof (pow2_pos (S j)). pose proof (pow2_pos (i - j)).
        symmetry. apply (Nat.div_unique _ _ _ (2 ^ S j - 1)); [lia|]. nia. }
      rewrite Ed. pose proof (pow2_pos (i - j)). replace (2 ^ (i - j) - 1 + 1) with (2 ^ (i - j)) by lia.
      symmetry. now apply pow2_split.
  Qed.

  (** The deadline is met. *)
  Lemma sched_deadline : forall t r i, sched t q r -> i < m -> S t mod 2 ^ S i = 0 -> r i = 0.
  Proof.
    intros t r i [HL HB HD] Hi Ht. destruct (HD i Hi) as [|H0]; auto.
    rewrite (mod_S_0 t _ (pow2_pos (S i)) Ht) in H0. rewrite A_last in H0 by auto.
    assert (E : (2 ^ S i - 1) * q + q = m * 2 ^ i).
    { rewrite Hm, pow2_S. pose proof (pow2_pos i). nia. }
    assert (Hr : r i <= D i r).
    { unfold D. replace (r i) with (fD i r i) by (unfold fD; now rewrite Nat.leb_refl). now apply sumn_ge_term. }
    unfold beta in H0. pose proof (pow2_pos i). destruct (i <? m - 1) eqn:Ei.
    - apply Nat.ltb_lt in Ei. exfalso. nia.
    - apply Nat.ltb_ge in Ei. assert (i = m - 1) by lia. subst i.
      replace (m - 1 + 1) with m in H0 by lia. lia.
  Qed.

  Lemma sched_restart : forall t r, sched t q r -> sched (S t) 0 (restart (S t) r).
  Proof.
    intros t r HS. pose proof HS as [HL HB HD].
    assert (HBr : forall i, i < m -> B i (restart (S t) r) <= B i r).
    { intros i Hi. apply sumn_le. intros j Hj. unfold fB. destruct (j <=? i) eqn:E; auto. apply Nat.leb_gt in E.
      unfold restart. destruct ((j <? m) && (S t mod 2 ^ S j =? 0) && (S t + 3 * 2 ^ j <? 2 ^ h)); auto.
      rewrite pow_mod_0 by lia. lia. }
    constructor; intros i Hi.
    - unfold restart. destruct (_ && _ && _); auto.
    - specialize (HBr i Hi). specialize (HB i Hi). lia.
    - rewrite Nat.add_0_r. destruct (Nat.eq_dec (S t mod 2 ^ S i) 0) as [E0|E0].
      + right. rewrite E0. cbn [Nat.mul]. rewrite Nat.add_0_r.
        assert (Hz : forall j, j <= i -> r j = 0).
        { intros j Hj. apply (sched_deadline t r j HS); [lia|]. apply (mod_pow_0 _ _ (S i)); [lia|auto]. }
        assert (Hb : D i (restart (S t) r) <= A i 0 + B i r).
        { unfold D, A, B. rewrite <- sumn_add. apply sumn_le. intros j Hj. unfold fD, fA, fB, restart.
          destruct (j <=? i) eqn:Ej.
          - apply Nat.leb_le in Ej. rewrite Nat.div_0_l by (pose proof (pow2_pos (S j)); lia).
            destruct (_ && _ && _); [lia|]. rewrite Hz by auto. lia.
          - apply Nat.leb_gt in Ej. destruct (_ && _ && _); [rewrite pow_mod_0 by lia|]; lia. }
        assert (B i r <= beta i).
        { unfold beta. destruct (i <? m - 1) eqn:Ei; [apply HB; auto|]. apply Nat.ltb_ge in Ei.
          unfold B. rewrite sumn_zero; auto. intros j Hj. unfold fB. now rewrite (proj2 (Nat.leb_le _ _)) by lia. }
        lia.
      + destruct (Nat.eq_dec (r i) 0) as [Er|Er].
        { left. unfold restart. rewrite (proj2 (Nat.eqb_neq _ _) E0). rewrite andb_false_r. exact Er. }
        right. destruct (HD i Hi) as [|H0]; [lia|].
        rewrite (mod_S t _ (pow2_pos (S i)) E0). set (e := t mod 2 ^ S i) in *.
        assert (Hb : D i (restart (S t) r) + A i e <= D i r + A i (S e)).
        { unfold D, A. rewrite <- !sumn_add. apply sumn_le. intros j Hj. unfold fD, fA.
          destruct (j <=? i) eqn:Ej.
          - apply Nat.leb_le in Ej. rewrite (div_S e _ (pow2_pos (S j))).
            assert (Em : S e mod 2 ^ S j = S t mod 2 ^ S j).
            { unfold e. rewrite <- (mod_S t _ (pow2_pos (S i)) E0). apply mod_pow_mod. lia. }
            rewrite Em. unfold restart. destruct (S t mod 2 ^ S j =? 0).
            + destruct (_ && _ && _); nia.
            + rewrite andb_false_r. cbn [andb]. lia.
          - apply Nat.leb_gt in Ej. unfold restart.
            destruct (S t mod 2 ^ S j =? 0) eqn:E1.
            + exfalso. apply Nat.eqb_eq in E1. apply E0. apply (mod_pow_0 _ _ (S j)); [lia|auto].
            + rewrite andb_false_r. cbn [andb]. lia. }
        nia.
  Qed.
End Sched.
