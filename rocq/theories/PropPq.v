(** C58, C59: the Dilithium and Kyber classes over any primitive that keeps the
    NIST API contract. *)
From Coq Require Import List NArith Arith Lia Bool.
From Verif Require Import Base Bytes PropKeys SpecMisc Misc PropMisc PqWrapper.
Import ListNotations.
Open Scope nat_scope.

Lemma resize_length : forall n v, length (resize n v) = n.
Proof.
  intros. unfold resize. rewrite app_length, repeat_length, firstn_length. lia.
Qed.
Lemma read_exact : forall k v, length v = k -> read_c k v = Ok v.
Proof. intros k v <-. unfold read_c. now rewrite Nat.leb_refl, firstn_all. Qed.

(** ** C58: Dilithium *)
Theorem C58_sign_open_round_trip : forall A entropy message old, sign_api_ok A ->
  let o := dil_new A entropy in
  length (dil_pk o) = sa_pkb A /\ length (dil_sk o) = sa_skb A /\
  exists signed out, dil_sign A o message = Ok signed /\ length signed = sa_bytes A + length message /\
    dil_sign_open A old signed (dil_pk o) = Ok (true, out) /\
    (* whatever the output vector held before, it now has the size of the signed
       message and starts with the message *)
    length out = length signed /\ firstn (length message) out = message /\
    (* the signed message splits into signature and message *)
    exists sig, dil_extract_signature A signed = Ok sig /\ length sig = sa_bytes A /\
      dil_extract_message A signed = Ok message /\ signed = sig ++ message /\
      (* an object rebuilt from the two keys signs and verifies the same *)
      dil_sign A (dil_from_keys (dil_pk o) (dil_sk o)) message = Ok signed.
Proof.
  intros A entropy message old HA o. destruct (so_keypair A HA entropy) as [LP LS].
  assert (EO : o = mkDil (fst (sa_keypair A entropy)) (snd (sa_keypair A entropy))).
  { unfold o, dil_new. now destruct (sa_keypair A entropy). }
  rewrite EO. cbn [dil_pk dil_sk]. split; auto. split; auto.
  destruct (so_sign A HA (snd (sa_keypair A entropy)) message LS) as [L1 L2].
  set (sm := sa_sign A (snd (sa_keypair A entropy)) message) in *.
  destruct (so_correct A HA entropy message (resize (length sm) old)) as [C1 C2]; [now rewrite resize_length|]. fold sm in C1, C2.
  exists sm, (snd (sa_open A (resize (length sm) old) sm (fst (sa_keypair A entropy)))).
  unfold dil_sign, dil_sign_open, dil_from_keys. cbn [dil_sk]. rewrite !read_exact by auto. cbn [bind]. fold sm.
  split; [reflexivity|]. split; [exact L1|]. split. { f_equal. rewrite <- C1. apply surjective_pairing. }
  split. { now rewrite (so_open A HA), resize_length. } split; [exact C2|].
  exists (firstn (sa_bytes A) sm). unfold dil_extract_signature, dil_extract_message. rewrite (proj2 (Nat.leb_le _ _)) by lia.
  split; [reflexivity|]. split; [rewrite firstn_length; lia|]. split; [now rewrite L2|]. split; [|reflexivity].
  rewrite <- L2. symmetry. apply firstn_skipn.
Qed.

(** Memory safety: exactly the missing size checks. *)
Theorem C58_size_checks : forall A,
  (forall pk sk message, dil_sign A (dil_from_keys pk sk) message = UB <-> length sk < sa_skb A) /\
  (forall old signed pk, dil_sign_open A old signed pk = UB <-> length pk < sa_pkb A) /\
  (forall v, (dil_extract_message A v = UB <-> length v < sa_bytes A) /\ (dil_extract_signature A v = UB <-> length v < sa_bytes A)) /\
  (forall v m s, dil_extract_message A v = Ok m -> dil_extract_signature A v = Ok s -> v = s ++ m /\ length s = sa_bytes A) /\
  (* longer keys are silently cut *)
  (forall pk sk extra message, length sk = sa_skb A ->
     dil_sign A (dil_from_keys pk (sk ++ extra)) message = dil_sign A (dil_from_keys pk sk) message).
Proof.
  intros A.
  assert (R : forall k v, read_c k v = UB <-> length v < k).
  { intros k v. unfold read_c. destruct (k <=? length v) eqn:E; [apply Nat.leb_le in E | apply Nat.leb_gt in E]; split; intros; try discriminate; auto; lia. }
  assert (X : forall v, (dil_extract_message A v = UB <-> length v < sa_bytes A) /\ (dil_extract_signature A v = UB <-> length v < sa_bytes A)).
  { intros v. unfold dil_extract_message, dil_extract_signature.
    destruct (sa_bytes A <=? length v) eqn:E; [apply Nat.leb_le in E | apply Nat.leb_gt in E]; split; split; intros; try discriminate; auto; lia. }
  split; [|split; [|split; [exact X|split]]].
  - intros pk sk message. unfold dil_sign, dil_from_keys. cbn [dil_sk]. rewrite <- R. destruct (read_c (sa_skb A) sk); cbn [bind]; split; intros; try discriminate; auto.
  - intros old signed pk. unfold dil_sign_open. rewrite <- R. destruct (read_c (sa_pkb A) pk); cbn [bind]; split; intros; try discriminate; auto.
  - intros v m s. unfold dil_extract_message, dil_extract_signature. destruct (sa_bytes A <=? length v) eqn:E; [|discriminate].
    intros E1 E2. apply Ok_inj in E1. apply Ok_inj in E2. subst. apply Nat.leb_le in E. split; [symmetry; apply firstn_skipn|]. rewrite firstn_length. lia.
  - intros pk sk extra message HL. unfold dil_sign, dil_from_keys. cbn [dil_sk]. rewrite (read_exact _ sk) by auto.
    unfold read_c. rewrite app_length, (proj2 (Nat.leb_le _ _)) by lia. rewrite firstn_app_exact by auto. reflexivity.
Qed.

(** From JavaScript: [sign_open] returns the output buffer whether or not the
    signature was valid, and [extract_message] never has a defined result. *)
Theorem C58_js_sign_open_hides_failure : forall A old signed pk, sign_api_ok A ->
  all_bytes signed -> all_bytes pk -> length pk = sa_pkb A ->
  (2 * N.of_nat (length signed) < 2 ^ 31)%N -> (2 * N.of_nat (length pk) < 2 ^ 31)%N ->
  all_bytes (snd (sa_open A (resize (length signed) old) signed pk)) ->
  exists text, jsd_sign_open A old (hex_text signed) (hex_text pk) = Ok text /\ length text = 2 * length signed /\
    (* the same text would be returned by a primitive with the opposite verdict *)
    forall A', sa_pkb A' = sa_pkb A -> (forall b s p, sa_open A' b s p = (negb (fst (sa_open A b s p)), snd (sa_open A b s p))) ->
      jsd_sign_open A' old (hex_text signed) (hex_text pk) = Ok text.
Proof.
  intros A old signed pk HA Bs Bp LP Ls Lp Bo.
  destruct (C01_hex_round_trip signed Bs Ls) as (_ & _ & _ & D1). destruct (C01_hex_round_trip pk Bp Lp) as (_ & _ & _ & D2).
  set (out := snd (sa_open A (resize (length signed) old) signed pk)) in *.
  assert (LO : length out = length signed) by (unfold out; now rewrite (so_open A HA), resize_length).
  destruct (C01_hex_round_trip out Bo) as (T1 & T2 & _ & _); [rewrite LO; exact Ls|].
  exists (hex_text out). split; [|split].
  - unfold jsd_sign_open. rewrite D1, D2. cbn [bind]. unfold dil_sign_open. rewrite read_exact by auto. cbn [bind].
    destruct (sa_open A (resize (length signed) old) signed pk) as [b v] eqn:E. cbn [snd] in out. exact T1.
  - now rewrite T2, LO.
  - intros A' HP HO. unfold jsd_sign_open. rewrite D1, D2. cbn [bind]. unfold dil_sign_open. rewrite read_exact by lia. cbn [bind].
    rewrite HO. cbn [bind]. exact T1.
Qed.
Theorem C58_js_extract_message_undefined : forall A v, all_bytes v -> (2 * N.of_nat (length v) < 2 ^ 31)%N ->
  jsd_extract_message A (hex_text v) = UB.
Proof.
  intros A v B L. destruct (C01_hex_round_trip v B L) as (_ & _ & _ & D). unfold jsd_extract_message. now rewrite D.
Qed.

(** ** C59: Kyber *)
Theorem C59_constructor_checks : forall A pk sk,
  (kyb_from_keys A pk sk = Exn InvalidArgument <-> (length pk <> ka_pkb A \/ length sk <> ka_skb A)) /\
  kyb_from_keys A pk sk <> UB /\
  (forall o, kyb_from_keys A pk sk = Ok o -> kyb_pk o = pk /\ kyb_sk o = sk /\ kyb_key o = [] /\ kyb_ct o = []).
Proof.
  intros A pk sk. unfold kyb_from_keys. destruct (length pk =? ka_pkb A) eqn:E1; cbn [negb].
  2:{ apply Nat.eqb_neq in E1. repeat split; try discriminate; auto. }
  apply Nat.eqb_eq in E1. destruct (length sk =? ka_skb A) eqn:E2; cbn [negb].
  2:{ apply Nat.eqb_neq in E2. repeat split; try discriminate; auto. }
  apply Nat.eqb_eq in E2. split; [split; [discriminate|tauto]|]. split; [discriminate|]. intros o E. apply Ok_inj in E. subst o. auto.
Qed.

(** Alice encapsulates to Bob's public key, Bob decapsulates Alice's ciphertext:
    both hold the same key whenever the primitive itself is correct on that
    ciphertext, and neither call touches the long-term keys. *)
Theorem C59_key_agreement : forall A rb e alice, kem_api_ok A ->
  let bob := kyb_new A rb in
  ka_dec A (snd (fst (ka_enc A e (kyb_pk bob)))) (kyb_sk bob) = (true, snd (ka_enc A e (kyb_pk bob))) ->
  exists alice' bob' r, kyb_encode A e alice (kyb_pk bob) = Ok (alice', r) /\ r = fst (fst (ka_enc A e (kyb_pk bob))) /\
    kyb_decode A bob (kyb_ct alice') = Ok (bob', true) /\
    kyb_key bob' = kyb_key alice' /\ length (kyb_key bob') = ka_ssb A /\ length (kyb_ct alice') = ka_ctb A /\
    kyb_pk alice' = kyb_pk alice /\ kyb_sk alice' = kyb_sk alice /\
    kyb_pk bob' = kyb_pk bob /\ kyb_sk bob' = kyb_sk bob.
Proof.
  intros A rb e alice HA bob HC. destruct (ko_keypair A HA rb) as [LP LS].
  assert (EB : bob = mkKyb (fst (ka_keypair A rb)) (snd (ka_keypair A rb)) [] []).
  { unfold bob, kyb_new. now destruct (ka_keypair A rb). }
  rewrite EB in *. cbn [kyb_pk kyb_sk] in *. destruct (ko_enc A HA e (fst (ka_keypair A rb))) as [LC LK].
  unfold kyb_encode. rewrite read_exact by auto. cbn [bind].
  destruct (ka_enc A e (fst (ka_keypair A rb))) as [[r ct] key]. cbn [fst snd] in *.
  eexists. eexists. exists r. split; [reflexivity|]. split; [reflexivity|]. cbn [kyb_ct kyb_key kyb_pk kyb_sk].
  unfold kyb_decode. rewrite (read_exact _ ct) by auto. cbn [bind kyb_sk kyb_pk kyb_ct]. rewrite read_exact by auto. cbn [bind]. rewrite HC.
  split; [reflexivity|]. cbn [kyb_key kyb_pk kyb_sk]. auto 10.
Qed.

(** Histories: with inputs of the right size no sequence of calls is undefined,
    the long-term keys never change, the session key is the result of the last
    call and the ciphertext that of the last encapsulation. *)
Definition kop_sized (A : kem_api) (c : kop) : Prop :=
  match c with KEnc _ p => ka_pkb A <= length p | KDec ct => ka_ctb A <= length ct end.
Definition last_key (A : kem_api) (sk : list N) (l : list kop) : list N :=
  match rev l with
  | [] => []
  | KEnc e p :: _ => snd (ka_enc A e (firstn (ka_pkb A) p))
  | KDec ct :: _ => snd (ka_dec A (firstn (ka_ctb A) ct) sk)
  end.
Definition last_ct (A : kem_api) (l : list kop) : list N :=
  match filter (fun c => match c with KEnc _ _ => true | _ => false end) (rev l) with
  | KEnc e p :: _ => snd (fst (ka_enc A e (firstn (ka_pkb A) p)))
  | _ => []
  end.

(** The Boolean each call returns: what the primitive reported. *)
Definition verdict (A : kem_api) (sk : list N) (c : kop) : bool :=
  match c with
  | KEnc e p => fst (fst (ka_enc A e (firstn (ka_pkb A) p)))
  | KDec ct => fst (ka_dec A (firstn (ka_ctb A) ct) sk)
  end.

Lemma kyb_run_app : forall A a b o, kyb_run A o (a ++ b) =
  bind (kyb_run A o a) (fun q => bind (kyb_run A (fst q) b) (fun q' => Ok (fst q', snd q ++ snd q'))).
Proof.
  induction a as [|c a IH]; intros b o; cbn [app kyb_run].
  - cbn [bind fst snd app]. destruct (kyb_run A o b) as [[o' bs]|e|]; reflexivity.
  - destruct (match c with KEnc e p => kyb_encode A e o p | KDec ct => kyb_decode A o ct end) as [[o1 b1]|e|]; cbn [bind]; auto.
    rewrite IH. destruct (kyb_run A o1 a) as [[o2 bs]|e|]; cbn [bind fst snd]; auto.
    destruct (kyb_run A o2 b) as [[o3 bs']|e|]; reflexivity.
Qed.

Theorem C59_histories : forall A pk sk l, length pk = ka_pkb A -> length sk = ka_skb A -> Forall (kop_sized A) l ->
  exists o o' bs, kyb_from_keys A pk sk = Ok o /\ kyb_run A o l = Ok (o', bs) /\ bs = map (verdict A sk) l /\
    kyb_pk o' = pk /\ kyb_sk o' = sk /\ kyb_key o' = last_key A sk l /\ kyb_ct o' = last_ct A l.
Proof.
  intros A pk sk l LP LS HF. exists (mkKyb pk sk [] []).
  assert (E0 : kyb_from_keys A pk sk = Ok (mkKyb pk sk [] [])).
  { unfold kyb_from_keys. rewrite (proj2 (Nat.eqb_eq _ _) LP), (proj2 (Nat.eqb_eq _ _) LS). reflexivity. }
  rewrite E0. clear E0.
  induction l as [|c l IH] using rev_ind.
  - eexists. exists []. repeat split.
  - apply Forall_app in HF. destruct HF as [HF Hc]. inversion Hc as [|? ? Hs _]; subst.
    destruct (IH HF) as (o' & bs & _ & Er & Lb & P1 & P2 & P3 & P4).
    rewrite kyb_run_app, Er. cbn [bind fst snd kyb_run]. unfold last_key, last_ct. rewrite rev_app_distr. cbn [rev app filter].
    destruct c as [e p|ct]; cbn [kop_sized] in Hs.
    + unfold kyb_encode, read_c. rewrite (proj2 (Nat.leb_le _ _) Hs). cbn [bind].
      destruct (ka_enc A e (firstn (ka_pkb A) p)) as [[r c] k] eqn:Ee. cbn [bind fst snd].
      eexists. eexists. split; [reflexivity|]. split; [reflexivity|]. rewrite map_app, Lb. cbn [map verdict kyb_pk kyb_sk kyb_key kyb_ct fst snd]. rewrite Ee. auto.
    + unfold kyb_decode, read_c. rewrite (proj2 (Nat.leb_le _ _) Hs). cbn [bind]. rewrite P2, LS, Nat.leb_refl. rewrite (firstn_all2 (n := ka_skb A) sk) by lia. cbn [bind].
      destruct (ka_dec A (firstn (ka_ctb A) ct) sk) as [r k] eqn:Ee. cbn [bind fst snd].
      eexists. eexists. split; [reflexivity|]. split; [reflexivity|]. rewrite map_app, Lb. cbn [map verdict kyb_pk kyb_sk kyb_key kyb_ct fst snd]. rewrite Ee. auto.
Qed.

(** The sizes of peers' inputs are not checked: exactly the short ones are undefined. *)
Theorem C59_size_checks : forall A e o pk ct, length (kyb_sk o) = ka_skb A ->
  (kyb_encode A e o pk = UB <-> length pk < ka_pkb A) /\ (kyb_decode A o ct = UB <-> length ct < ka_ctb A).
Proof.
  intros A e o pk ct LS. unfold kyb_encode, kyb_decode. split.
  - unfold read_c. destruct (ka_pkb A <=? length pk) eqn:E; [apply Nat.leb_le in E | apply Nat.leb_gt in E]; cbn [bind].
    + destruct (ka_enc A e (firstn (ka_pkb A) pk)) as [[r c] k]. split; [discriminate|lia].
    + split; auto.
  - rewrite (read_exact _ (kyb_sk o)) by auto. unfold read_c. destruct (ka_ctb A <=? length ct) eqn:E; [apply Nat.leb_le in E | apply Nat.leb_gt in E]; cbn [bind].
    + destruct (ka_dec A (firstn (ka_ctb A) ct) (kyb_sk o)) as [r k]. split; [discriminate|lia].
    + split; auto.
Qed.

(** From JavaScript: keys, messages, public keys and ciphertexts travel as hex
    text; the wrapped calls do what the C++ ones do on the decoded bytes. *)
Theorem C58_js_keys_and_sign : forall A pk sk m, sign_api_ok A -> all_bytes pk -> all_bytes sk -> all_bytes m ->
  (2 * N.of_nat (length pk) < 2 ^ 31)%N -> (2 * N.of_nat (length sk) < 2 ^ 31)%N ->
  (2 * N.of_nat (sa_bytes A + length m) < 2 ^ 31)%N -> length sk = sa_skb A -> all_bytes (sa_sign A sk m) ->
  exists o, jsd_fromKeys (hex_text pk) (hex_text sk) = Ok o /\ dil_pk o = pk /\ dil_sk o = sk /\
    jsd_sign A o (hex_text m) = Ok (hex_text (sa_sign A sk m)).
Proof.
  intros A pk sk m HA Bp Bs Bm Lp Ls Lm LS Bo.
  destruct (C01_hex_round_trip pk Bp Lp) as (_ & _ & _ & D1). destruct (C01_hex_round_trip sk Bs Ls) as (_ & _ & _ & D2).
  destruct (C01_hex_round_trip m Bm ltac:(lia)) as (_ & _ & _ & D3).
  destruct (so_sign A HA sk m LS) as [LO _].
  destruct (C01_hex_round_trip (sa_sign A sk m) Bo) as (T & _); [now rewrite LO|].
  exists (mkDil pk sk). unfold jsd_fromKeys, jsd_sign. rewrite D1, D2, D3. cbn [bind]. split; [reflexivity|]. split; [reflexivity|]. split; [reflexivity|].
  unfold dil_sign. cbn [dil_sk]. rewrite read_exact by auto. exact T.
Qed.
Theorem C59_js_calls : forall A pk sk v, all_bytes pk -> all_bytes sk -> all_bytes v ->
  (2 * N.of_nat (length pk) < 2 ^ 31)%N -> (2 * N.of_nat (length sk) < 2 ^ 31)%N -> (2 * N.of_nat (length v) < 2 ^ 31)%N ->
  ((length pk <> ka_pkb A \/ length sk <> ka_skb A) -> jsk_fromKeys A (hex_text pk) (hex_text sk) = Exn InvalidArgument) /\
  (length pk = ka_pkb A -> length sk = ka_skb A ->
     exists o, jsk_fromKeys A (hex_text pk) (hex_text sk) = Ok o /\ kyb_pk o = pk /\ kyb_sk o = sk) /\
  forall e o, jsk_encode A e o (hex_text v) = kyb_encode A e o v /\ jsk_decode A o (hex_text v) = kyb_decode A o v.
Proof.
  intros A pk sk v Bp Bs Bv Lp Ls Lv.
  destruct (C01_hex_round_trip pk Bp Lp) as (_ & _ & _ & D1). destruct (C01_hex_round_trip sk Bs Ls) as (_ & _ & _ & D2).
  destruct (C01_hex_round_trip v Bv Lv) as (_ & _ & _ & D3).
  unfold jsk_fromKeys, jsk_encode, jsk_decode. rewrite D1, D2, D3. cbn [bind].
  destruct (C59_constructor_checks A pk sk) as (X1 & _ & _). split; [apply X1|]. split; [|auto].
  intros E1 E2. unfold kyb_from_keys. rewrite E1, E2, !Nat.eqb_refl. cbn [negb]. eexists. split; [reflexivity|]. auto.
Qed.

(** The contracts can be met: a toy instance of each API (no security). *)
Definition toy_sign : sign_api := mkSA 4 2 3
  (fun r => (firstn 2 (r ++ [0; 0]%N), firstn 3 (r ++ [0; 0; 0]%N)))
  (fun sk m => [1; 2; 3; 4]%N ++ m)
  (fun buf sm pk => (4 <=? length sm, firstn (length buf) (skipn 4 sm ++ buf))).
Example toy_sign_ok : sign_api_ok toy_sign.
Proof.
  constructor; cbn [toy_sign sa_keypair sa_sign sa_open sa_pkb sa_skb sa_bytes fst snd].
  - intros r. rewrite !firstn_length, !app_length. cbn [length]. lia.
  - intros sk m _. split; reflexivity.
  - intros buf sm pk. rewrite firstn_length, app_length. lia.
  - intros r m buf HL. rewrite app_length. split; [reflexivity|]. change (skipn 4 ([1; 2; 3; 4]%N ++ m)) with m.
    rewrite firstn_firstn, Nat.min_l by lia. now rewrite firstn_app_exact.
Qed.
Definition toy_kem : kem_api := mkKA 2 2 2 1
  (fun r => (firstn 2 (r ++ [0; 0]%N), firstn 2 (r ++ [0; 0]%N)))
  (fun r pk => (true, [7; 7]%N, [5]%N)) (fun ct sk => (true, [5]%N)).
Example toy_kem_ok : kem_api_ok toy_kem /\ forall rb e, let bob := kyb_new toy_kem rb in
  ka_dec toy_kem (snd (fst (ka_enc toy_kem e (kyb_pk bob)))) (kyb_sk bob) = (true, snd (ka_enc toy_kem e (kyb_pk bob))).
Proof.
  split; [|intros; reflexivity]. constructor; cbn [toy_kem ka_keypair ka_enc ka_dec ka_pkb ka_skb ka_ctb ka_ssb fst snd]; auto.
  intros r. rewrite !firstn_length, !app_length. cbn [length]. lia.
Qed.
