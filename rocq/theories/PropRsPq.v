(** C72: the Dilithium and Kyber types of the Rust port, over any crate that keeps
    its contract. *)
From Coq Require Import List NArith Arith Lia Bool.
From Verif Require Import Base PqWrapper PropPq RsBase RsPq.
Import ListNotations.
Open Scope nat_scope.

Lemma rs_key_spec : forall k b, (length b = k -> rs_key_from_bytes k b = ROk b) /\ (length b <> k -> rs_key_from_bytes k b = RPanic).
Proof. intros k b. unfold rs_key_from_bytes. split; intros H; [now rewrite (proj2 (Nat.eqb_eq _ _) H)|now rewrite (proj2 (Nat.eqb_neq _ _) H)]. Qed.

(** Constructors: exactly the right sizes, anything else panics (never [Err]). *)
Theorem C72_rust_dilithium_new : forall A pk sk,
  (length pk = rsa_pkb A /\ length sk = rsa_skb A -> rs_dil_new A pk sk = ROk (mkRDil pk sk)) /\
  (~ (length pk = rsa_pkb A /\ length sk = rsa_skb A) -> rs_dil_new A pk sk = RPanic).
Proof.
  intros A pk sk. unfold rs_dil_new. destruct (rs_key_spec (rsa_pkb A) pk) as [P1 P2]. destruct (rs_key_spec (rsa_skb A) sk) as [S1 S2]. split.
  - intros [H1 H2]. rewrite P1, S1 by auto. reflexivity.
  - intros H. destruct (Nat.eq_dec (length pk) (rsa_pkb A)) as [E|E]; [|now rewrite P2]. rewrite P1 by auto. cbn [rbind]. rewrite S2 by tauto. reflexivity.
Qed.

(** sign / sign_open, also for an object rebuilt from the key bytes. *)
Theorem C72_rust_dilithium_round_trip : forall A entropy message, rsign_ok A ->
  let o := rs_dil_default A entropy in
  let signed := rs_dil_sign A o message in
  length (rdil_pk o) = rsa_pkb A /\ length (rdil_sk o) = rsa_skb A /\
  length signed = rsa_bytes A + length message /\
  rs_dil_sign_open A signed (rdil_pk o) = Some message /\
  exists o', rs_dil_new A (rdil_pk o) (rdil_sk o) = ROk o' /\ o' = o /\ rs_dil_sign A o' message = signed.
Proof.
  intros A entropy message HA. cbv zeta. unfold rs_dil_default, rs_dil_sign, rs_dil_sign_open.
  destruct (rso_keypair A HA entropy) as [LP LS]. pose proof (rso_correct A HA entropy message) as C.
  destruct (rsa_keypair A entropy) as [pk sk]. cbn [fst snd rdil_pk rdil_sk] in *.
  destruct (rso_sign A HA message sk LS) as [L1 _]. repeat split; auto.
  exists (mkRDil pk sk). split; [|auto]. now apply C72_rust_dilithium_new.
Qed.

(** extract_message and extract_signature cut a byte string behind its length minus
    the signature size; shorter inputs panic. *)
Theorem C72_rust_extract : forall A v,
  (length v < rsa_bytes A -> rs_dil_extract_message A v = RPanic /\ rs_dil_extract_signature A v = RPanic) /\
  (rsa_bytes A <= length v -> exists m s, rs_dil_extract_message A v = ROk m /\ rs_dil_extract_signature A v = ROk s /\
     v = m ++ s /\ length s = rsa_bytes A).
Proof.
  intros A v. unfold rs_dil_extract_message, rs_dil_extract_signature. split; intros H.
  - rewrite (proj2 (Nat.ltb_lt _ _) H). auto.
  - rewrite (proj2 (Nat.ltb_ge _ _) H). rewrite rslice_ok, rslice_tail by lia. eexists. eexists. split; [reflexivity|]. split; [reflexivity|].
    rewrite skipn_O, Nat.sub_0_r, firstn_skipn. split; [reflexivity|]. rewrite skipn_length. lia.
Qed.
(** As the crate puts the signature in front, what they return is not what they are
    named after: the "message" is the head of the signature (for messages not longer than
    it), and it is the message only if these bytes happen to agree.  The C++ library
    returns message and signature. *)
Theorem C72_rust_extract_is_swapped : forall A sk message, rsign_ok A -> length sk = rsa_skb A ->
  let signed := rs_dil_sign A (mkRDil [] sk) message in
  exists m s, rs_dil_extract_message A signed = ROk m /\ rs_dil_extract_signature A signed = ROk s /\
    length m = length message /\ length s = rsa_bytes A /\
    (length message <= rsa_bytes A -> m = firstn (length message) signed) /\
    (m = message <-> firstn (length message) signed = message) /\
    (m = message -> length message <= rsa_bytes A -> exists sig, signed = sig ++ message /\ firstn (length message) sig = message) /\
    forall B, sa_bytes B = rsa_bytes A -> dil_extract_message B signed = Ok message.
Proof.
  intros A sk message HA LS. cbv zeta. unfold rs_dil_sign. cbn [rdil_sk]. destruct (rso_sign A HA message sk LS) as [L1 L2].
  set (sm := rsa_sign A message sk) in *. clearbody sm.
  destruct (proj2 (C72_rust_extract A sm) ltac:(lia)) as (m & s & E1 & E2 & Ev & Ls).
  exists m, s. split; auto. split; auto.
  assert (Lm : length m = length message) by (apply (f_equal (@length N)) in Ev; rewrite app_length in Ev; lia).
  assert (Em : m = firstn (length message) sm). { rewrite Ev, <- Lm, firstn_app, Nat.sub_diag, firstn_O, app_nil_r. now rewrite firstn_all. }
  split; auto. split; auto. split; [auto|]. split; [now rewrite Em|]. split.
  - intros X Hl. exists (firstn (rsa_bytes A) sm). rewrite <- L2 at 1. split; [symmetry; apply firstn_skipn|].
    rewrite firstn_firstn. replace (Nat.min (length message) (rsa_bytes A)) with (length message) by lia. now rewrite <- Em.
  - intros B HB. unfold dil_extract_message. rewrite HB, (proj2 (Nat.leb_le _ _)) by lia. now rewrite L2.
Qed.

(** ** Kyber *)
Theorem C72_rust_kyber_new : forall A e pk sk,
  (length pk = rka_pkb A /\ length sk = rka_skb A ->
     exists o, rs_kyb_new A e pk sk = ROk o /\ rkyb_pk o = pk /\ rkyb_sk o = sk /\ (rkyb_ss o, rkyb_ct o) = rka_enc A e pk) /\
  (~ (length pk = rka_pkb A /\ length sk = rka_skb A) -> rs_kyb_new A e pk sk = RPanic).
Proof.
  intros A e pk sk. unfold rs_kyb_new. destruct (rs_key_spec (rka_pkb A) pk) as [P1 P2]. destruct (rs_key_spec (rka_skb A) sk) as [S1 S2]. split.
  - intros [H1 H2]. rewrite P1, S1 by auto. cbn [rbind]. destruct (rka_enc A e pk) as [ss ct]. eexists. split; [reflexivity|]. auto.
  - intros H. destruct (Nat.eq_dec (length pk) (rka_pkb A)) as [E|E]; [|now rewrite P2]. rewrite P1 by auto. cbn [rbind]. rewrite S2 by tauto. reflexivity.
Qed.

(** After any history: keys unchanged, the secret is that of the last call, the
    ciphertext that of the last encapsulation (the constructor's, if there was none). *)
Definition rk_last_ss (A : rkem_api) (o : rs_kyb) (l : list rkop) : list N :=
  match rev l with
  | [] => rkyb_ss o
  | RKEnc e p :: _ => fst (rka_enc A e p)
  | RKDec ct :: _ => rka_dec A ct (rkyb_sk o)
  end.
Definition rk_last_ct (A : rkem_api) (o : rs_kyb) (l : list rkop) : list N :=
  match filter (fun c => match c with RKEnc _ _ => true | _ => false end) (rev l) with
  | RKEnc e p :: _ => snd (rka_enc A e p)
  | _ => rkyb_ct o
  end.
Theorem C72_rust_kyber_history : forall A o l,
  let o' := rs_kyb_run A o l in
  rkyb_pk o' = rkyb_pk o /\ rkyb_sk o' = rkyb_sk o /\ rkyb_ss o' = rk_last_ss A o l /\ rkyb_ct o' = rk_last_ct A o l.
Proof.
  intros A o l. cbv zeta. induction l as [|c l IH] using rev_ind; [repeat split|].
  unfold rs_kyb_run in *. rewrite fold_left_app. cbn [fold_left]. destruct IH as (I1 & I2 & I3 & I4).
  unfold rk_last_ss, rk_last_ct in *. rewrite rev_app_distr. cbn [rev app filter].
  destruct c as [e p|ct]; cbn [rs_kyb_step rs_kyb_encode rs_kyb_decode].
  - unfold rs_kyb_encode. destruct (rka_enc A e p) as [ss ct]. cbn [rkyb_pk rkyb_sk rkyb_ss rkyb_ct fst snd]. auto.
  - unfold rs_kyb_decode. cbn [rkyb_pk rkyb_sk rkyb_ss rkyb_ct]. rewrite I2. auto.
Qed.

(** Key agreement, whatever Alice and Bob did before: it rests only on the crate being
    correct on that one ciphertext. *)
Theorem C72_rust_kyber_agreement : forall A alice bob la lb e, rkem_ok A ->
  let pk := rkyb_pk bob in
  rka_dec A (snd (rka_enc A e pk)) (rkyb_sk bob) = fst (rka_enc A e pk) ->
  let alice' := rs_kyb_run A alice (la ++ [RKEnc e (rkyb_pk (rs_kyb_run A bob lb))]) in
  let bob' := rs_kyb_run A bob (lb ++ [RKDec (rkyb_ct alice')]) in
  rkyb_ss alice' = rkyb_ss bob' /\ length (rkyb_ss bob') = rka_ssb A /\ length (rkyb_ct alice') = rka_ctb A /\
  rkyb_ct bob' = rkyb_ct (rs_kyb_run A bob lb).
Proof.
  intros A alice bob la lb e HA pk HC. cbv zeta.
  destruct (C72_rust_kyber_history A bob lb) as (B1 & B2 & _). rewrite B1. fold pk.
  destruct (C72_rust_kyber_history A alice (la ++ [RKEnc e pk])) as (_ & _ & A3 & A4). rewrite A3, A4.
  unfold rk_last_ss, rk_last_ct. rewrite rev_app_distr. cbn [rev app filter].
  assert (EB : rs_kyb_run A bob (lb ++ [RKDec (snd (rka_enc A e pk))]) = rs_kyb_decode A (rs_kyb_run A bob lb) (snd (rka_enc A e pk)))
    by (unfold rs_kyb_run; now rewrite fold_left_app).
  rewrite EB. unfold rs_kyb_decode. cbn [rkyb_ss rkyb_ct]. rewrite B2, HC. destruct (rko_enc A HA e pk). auto.
Qed.
(** A fresh object already holds an encapsulation to itself. *)
Theorem C72_rust_kyber_default : forall A e1 e2, rkem_ok A ->
  let o := rs_kyb_default A e1 e2 in
  length (rkyb_pk o) = rka_pkb A /\ length (rkyb_sk o) = rka_skb A /\
  (rkyb_ss o, rkyb_ct o) = rka_enc A e2 (rkyb_pk o) /\ rs_kyb_new A e2 (rkyb_pk o) (rkyb_sk o) = ROk o.
Proof.
  intros A e1 e2 HA. cbv zeta. unfold rs_kyb_default. destruct (rko_keypair A HA e1) as [L1 L2].
  destruct (rka_keypair A e1) as [pk sk]. cbn [fst snd] in *. destruct (rka_enc A e2 pk) as [ss ct] eqn:E. cbn [rkyb_pk rkyb_sk rkyb_ss rkyb_ct].
  repeat split; auto. unfold rs_kyb_new. rewrite (proj1 (rs_key_spec _ pk)), (proj1 (rs_key_spec _ sk)) by auto. cbn [rbind]. now rewrite E.
Qed.

(** ** Instances: toy crates that keep the contracts. *)
Definition toy_rsa : rsign_api :=
  mkRSA 1 1 2 (fun r => ([hd 0%N r], [hd 0%N r])) (fun m sk => hd 0%N sk :: 9%N :: m)
    (fun sm pk => match sm with k :: _ :: m => if (k =? hd 0 pk)%N then Some m else None | _ => None end).
Example toy_rsa_ok : rsign_ok toy_rsa.
Proof.
  constructor; cbn [toy_rsa rsa_pkb rsa_skb rsa_bytes rsa_keypair rsa_sign rsa_open fst snd length].
  - auto.
  - intros m sk H. split; reflexivity.
  - intros r m. cbn [hd]. now rewrite N.eqb_refl.
Qed.
Example C72_sat : rs_dil_extract_message toy_rsa (rs_dil_sign toy_rsa (mkRDil [5%N] [5%N]) [1%N; 2%N; 3%N]) = ROk [5%N; 9%N; 1%N] /\
  rs_dil_sign_open toy_rsa (rs_dil_sign toy_rsa (mkRDil [5%N] [5%N]) [1%N; 2%N; 3%N]) [5%N] = Some [1%N; 2%N; 3%N] /\
  rs_dil_new toy_rsa [1%N; 2%N] [5%N] = RPanic.
Proof. repeat split; reflexivity. Qed.
Definition toy_rka : rkem_api :=
  mkRKA 1 1 1 1 (fun r => ([hd 0%N r], [hd 0%N r])) (fun e pk => ([N.lxor (hd 0%N e) (hd 0%N pk)], [hd 0%N e]))
    (fun ct sk => [N.lxor (hd 0%N ct) (hd 0%N sk)]).
Example toy_rka_ok : rkem_ok toy_rka.
Proof. constructor; intros; split || idtac; reflexivity. Qed.
Example C72_kyber_sat : let bob := rs_kyb_default toy_rka [3%N] [4%N] in let alice := rs_kyb_default toy_rka [5%N] [6%N] in
  rka_dec toy_rka (snd (rka_enc toy_rka [9%N] (rkyb_pk bob))) (rkyb_sk bob) = fst (rka_enc toy_rka [9%N] (rkyb_pk bob)) /\
  rkyb_ss (rs_kyb_run toy_rka alice [RKEnc [9%N] (rkyb_pk bob)]) = [10%N].
Proof. split; reflexivity. Qed.
