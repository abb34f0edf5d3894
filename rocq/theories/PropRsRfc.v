(** C99: the Rust port against RFC 8391, and what a public key commits to in front of it. *)
(** Concrete cases for the hypotheses: the Examples at the end. *)
From Coq Require Import List NArith Arith Lia Bool.
From Verif Require Import Base Bytes HashAddress Descriptor SpecXmss SpecApi SpecForge SpecReuse SpecCommit SpecRfc XmssObj
  RsBase RsHash RsWots RsObj SpecRust BasicProofs FastProofs VerifyProofs RsObjProofs RsVerifyProofs PropObj PropVerify PropForge PropRfc PropCommit
  PropRust PropRust2 PropRust3 CasesXmss.
From Verif Require Export SpecTerms3.
Import ListNotations.
Open Scope nat_scope.



(** The port accepts exactly what Algorithm 14 accepts for the message it sees, among keys
    whose address format nibble is 0. *)
Theorem C99_rust_verify_is_rfc : forall w wp hf msg sig pk, winternitz (w_of w) = Some wp -> all_bytes pk -> all_bytes sig ->
  hash_of_id (nth 0 pk 0 mod 16)%N = Some hf -> signable hf msg ->
  let '(lg_w, len_1, len_2) := wp in
  let len := len_1 + len_2 in
  (rs_verify msg sig pk (Some w) = ROk tt <->
   length pk = 67 /\ (nth 1 pk 0 / 16 = 0)%N /\ 4 <= pk_height pk /\ length sig = 4 + 32 + 32 * len + 32 * pk_height pk /\
   XMSS_verify (raw hf) lg_w len_1 len_2 (pk_height pk) (N.to_nat (sig_index sig)) (sig_R sig)
      (cells len (skipn 36 sig)) (cells (pk_height pk) (skipn (36 + 32 * len) sig)) (seen_by hf pk sig msg) (pk_root pk) (pk_seed pk) = true).
Proof.
  intros w wp hf msg sig pk Hw HB HBs Hh HS.
  pose proof (C98_verify_is_rfc (w_of w) wp hf (seen_by hf pk sig msg) sig pk Hw HB Hh) as V.
  pose proof (C64_rust_verify w wp msg sig pk Hw HB HBs) as RV.
  pose proof (fun Hf => C64_rust_verify_vs_cpp w wp hf msg sig pk Hw HB HBs Hh Hf HS) as RC.
  destruct wp as [[lw l1] l2]. cbv zeta in V. unfold pk_height. change (sig_R sig) with (firstn 32 (skipn 4 sig)).
  change (2 * N.to_nat (nth 1 pk 0 mod 16)%N) with (2 * N.to_nat (nth 1 pk 0 mod 16)%N) in V.
  set (h := 2 * N.to_nat (nth 1 pk 0 mod 16)%N) in *. set (X := XMSS_verify _ _ _ _ _ _ _ _ _ _ _ _) in *.
  destruct (N.eq_dec (nth 1 pk 0 / 16)%N 0%N) as [Ef|Ef].
  - rewrite (RC Ef). change (verify (seen_message hf (firstn 32 (skipn 4 sig)) (firstn 32 (skipn 3 pk)) (from_be (firstn 4 sig)) msg) sig pk (w_of w))
      with (verify (seen_by hf pk sig msg) sig pk (w_of w)). rewrite V. split.
    + intros E. apply Ok_inj in E. apply andb_prop in E. destruct E as (E & E4). apply andb_prop in E. destruct E as (E & E3).
      apply andb_prop in E. destruct E as (E1 & E2). apply Nat.eqb_eq in E1. apply Nat.leb_le in E2. apply Nat.eqb_eq in E3. auto.
    + intros (E1 & _ & E2 & E3 & E4). rewrite E4. rewrite (proj2 (Nat.eqb_eq _ _) E1), (proj2 (Nat.leb_le _ _) E2), (proj2 (Nat.eqb_eq _ _) E3). reflexivity.
  - split; [|tauto]. intros E. exfalso. rewrite RV in E. clear V X RC. unfold rust_ref_verify in E. cbv zeta in E. rewrite Hh in E.
    destruct (negb (length pk =? 67)); [discriminate|]. destruct (_ <? length sig); [discriminate|].
    rewrite (proj2 (N.eqb_neq _ _) Ef) in E. cbn [negb] in E. discriminate.
Qed.

(** An accepted message is one the port can hash. *)
Lemma rust_accept_signable : forall w wp hf msg sig pk, winternitz (w_of w) = Some wp -> all_bytes pk -> all_bytes sig ->
  hash_of_id (nth 0 pk 0 mod 16)%N = Some hf -> rs_verify msg sig pk (Some w) = ROk tt -> signable hf msg /\ (nth 1 pk 0 / 16 = 0)%N.
Proof.
  intros w wp hf msg sig pk Hw HB HBs Hh E. rewrite (C64_rust_verify w wp) in E by auto. unfold rust_ref_verify in E. cbv zeta in E. rewrite Hh in E.
  destruct (negb (length pk =? 67)); [discriminate|]. destruct (_ <? length sig); [discriminate|].
  destruct (negb (nth 1 pk 0 / 16 =? 0)%N) eqn:Ef; [discriminate|]. apply negb_false_iff in Ef. apply N.eqb_eq in Ef.
  destruct (negb _); [discriminate|]. destruct (signable_dec hf msg); [|discriminate]. auto.
Qed.
(** What the port accepts, the C++ library accepts for the message the port sees. *)
Lemma rust_accepts : forall w wp hf msg sig pk, winternitz (w_of w) = Some wp -> all_bytes pk -> all_bytes sig ->
  hash_of_id (nth 0 pk 0 mod 16)%N = Some hf -> rs_verify msg sig pk (Some w) = ROk tt ->
  accepts hf (w_of w) wp pk (seen_by hf pk sig msg) sig.
Proof.
  intros w wp hf msg sig pk Hw HB HBs Hh E. destruct (rust_accept_signable w wp hf msg sig pk Hw HB HBs Hh E) as (S & Ef).
  repeat (split; [assumption|]). exact (proj1 (C64_rust_verify_vs_cpp w wp hf msg sig pk Hw HB HBs Hh Ef S) E).
Qed.

(** The root of every key of the port is that of Algorithm 9, and every signature in any
    history of sign and set_index calls is that of Algorithm 12 for the message seen. *)
Theorem C99_rust_signatures_are_rfc : forall hf w wp height seed, supported (rs_hash_u8 hf) hf (w_of w) wp height seed ->
  let '(lg_w, len_1, len_2) := wp in
  let wots_sk := lib_wots_sk (raw hf) (len_1 + len_2) (key_seed seed) in
  exists o pk, rs_fast_new seed (N.of_nat height) (Some hf) (Some w) = ROk o /\ rs_get_pk (rfa_base o) = ROk pk /\
    treeHash (raw hf) lg_w len_1 len_2 wots_sk (pk_seed pk) 0 height ADRS0 = Some (pk_root pk) /\
    forall cs o' obs, rs_run o cs = ROk (o', obs) -> forall n m s, nth_error cs n = Some (OpSign m) -> nth_error obs n = Some (RObsSig s) ->
      XMSS_sign (raw hf) lg_w len_1 len_2 wots_sk (pk_seed pk) height (key_prf seed) (pk_root pk) (N.to_nat (sig_index s)) (seen_by hf pk s m) = Some s /\
      (fully_seen hf m -> seen_by hf pk s m = m).
Proof.
  intros hf w wp height seed HS.
  destruct (C63_rust_history hf w wp height seed HS) as (o & E & HR).
  pose proof (rust_pk_cpp hf w wp height seed HS) as PC. destruct (pk_parts _ _ 0 (rkey_cfg _ _ _ _ _ HS)) as (P1 & P2 & _).
  rewrite <- PC in P1, P2.
  cbn [c_hf c_height c_seed rust_cfg] in P1, P2.
  destruct (rfc_params (w_of w) wp ltac:(apply HS)) as (Q1 & Q2 & Q3).
  assert (K0 : rs_get_pk (rfa_base o) = ROk (rust_pk hf wp height seed)).
  { pose proof (HR []) as R0. cbn [rust_ref_run rs_run] in R0. destruct R0 as (o' & R0 & K). apply ROk_inj in R0. apply pair_equal_spec in R0. destruct R0 as [<- _]. apply K. }
  assert (G : forall cs o' obs, rs_run o cs = ROk (o', obs) -> forall n m s, nth_error cs n = Some (OpSign m) -> nth_error obs n = Some (RObsSig s) ->
     exists i, i < 2 ^ height /\ s = rust_sig hf wp height seed i m).
  { intros cs o' obs R n m s Hc Ho. pose proof (HR cs) as R1.
    destruct (rust_ref_run hf height (rust_sig hf wp height seed) 0 cs) as [[i obs']|] eqn:ER; [|congruence].
    destruct R1 as (o1 & R1 & K). rewrite R in R1. apply ROk_inj in R1. apply pair_equal_spec in R1. destruct R1 as [<- <-].
    destruct (rust_ref_nth _ _ _ _ _ _ _ (N.le_0_l _) ER) as (_ & G). destruct (G n s Ho) as (m' & k & C & _ & -> & _ & R2 & _).
    rewrite Hc in C. injection C as <-. exists (N.to_nat k). split; [|reflexivity]. rewrite <- pow_N_nat. lia. }
  clear HR. set (pk := rust_pk hf wp height seed) in *.
  change (firstn 32 (skipn 3 pk)) with (pk_root pk) in P1. change (firstn 32 (skipn 35 pk)) with (pk_seed pk) in P2.
  destruct wp as [[lw l1] l2]. cbn [fst snd] in *. cbv zeta.
  pose proof (lib_wots_sk_eq hf (l1 + l2) (key_seed seed)) as HK.
  exists o, pk. split; [exact E|]. split; [exact K0|]. rewrite P1, P2.
  split; [exact (treeHash_eq hf lw l1 l2 Q2 Q3 _ (key_seed seed) (key_pub seed) HK height 0)|].
  intros cs o' obs R n m s Hc Ho. split; [|intros F; apply (proj2 (fully_seen_spec hf m F))].
  destruct (G cs o' obs R n m s Hc Ho) as (i & Hi & Es). clear G.
  destruct (rust_sig_fields hf w (lw, l1, l2) height seed HS i m Hi) as (F1 & F2). rewrite <- Es in F1, F2.
  unfold seen_by. change (sig_R s) with (firstn 32 (skipn 4 s)). rewrite F2. unfold sig_index. rewrite F1, Nat2N.id. rewrite P1.
  rewrite (XMSS_sign_eq hf lw l1 l2 Q1 Q2 Q3 _ (key_seed seed) (key_pub seed) HK). rewrite Es. reflexivity.
Qed.

(** A message that is longer than what fits into the first block and goes on with a nonzero
    byte is not the message the port sees. *)
Lemma long_not_seen : forall hf k R root idx m, seen_bytes hf = Some k -> k < length m -> nth k m 0%N <> 0%N -> seen_message hf R root idx m <> m.
Proof.
  intros hf k R root idx m Hk HL HN E. unfold seen_message in E. rewrite Hk in E.
  destruct (length m <? k) eqn:El; [apply Nat.ltb_lt in El; lia|]. apply HN. rewrite <- E.
  assert (L : length (firstn k m) = k) by (apply firstn_length_le; lia). rewrite app_nth2 by lia. rewrite L, Nat.sub_diag.
  destruct (length m - k) eqn:Ed; [lia|]. reflexivity.
Qed.

(** What the port accepts for such a message, a standard verifier (here: the C++ library, C98)
    rejects, unless there is a hash collision, computed from the signature, or a chain value
    that returns to itself. *)
Theorem C99_standard_verifiers_reject : forall w wp hf k msg sig pk, winternitz (w_of w) = Some wp -> all_bytes pk -> all_bytes sig ->
  hash_of_id (nth 0 pk 0 mod 16)%N = Some hf -> seen_bytes hf = Some k -> k < length msg -> nth k msg 0%N <> 0%N ->
  rs_verify msg sig pk (Some w) = ROk tt ->
  let i := N.to_nat (sig_index sig) in let seen := seen_by hf pk sig msg in
  verify msg sig pk (w_of w) = Ok false \/
  collision hf (msg_input (sig_R sig) (pk_root pk) i seen, msg_input (sig_R sig) (pk_root pk) i msg) \/
  (exists xy, tie hf wp wp pk seen sig msg sig = Some xy /\ collision hf xy) \/
  (exists c d d', c < snd (fst wp) + snd wp /\ d < d' <= 2 ^ fst (fst wp) - 1 /\
     let x := nth c (sig_wots wp sig) [] in x = chain hf (pk_seed pk) i c d (d' - d) x).
Proof.
  intros w wp hf k msg sig pk Hw HB HBs Hh Hk HL HN E i seen.
  destruct (ref_verify hf wp msg sig pk) eqn:V0; pose proof (verify_spec (w_of w) wp hf msg sig pk Hw HB Hh) as V; rewrite V0 in V; [right|now left].
  apply (C97_signature_binds_message hf (w_of w) wp (w_of w) wp pk (seen_by hf pk sig msg) msg sig).
  - now apply rust_accepts.
  - repeat (split; [assumption|]). exact V.
  - now apply (long_not_seen hf k).
Qed.

(** Any public key in front of the port: two accepted signatures agree or collide (C97), with
    the messages the port sees. *)
Theorem C99_rust_signatures_agree_or_collide : forall hf w1 wp1 w2 wp2 pk m1 s1 m2 s2,
  winternitz (w_of w1) = Some wp1 -> winternitz (w_of w2) = Some wp2 -> all_bytes pk -> all_bytes s1 -> all_bytes s2 ->
  hash_of_id (nth 0 pk 0 mod 16)%N = Some hf ->
  rs_verify m1 s1 pk (Some w1) = ROk tt -> rs_verify m2 s2 pk (Some w2) = ROk tt ->
  let m1' := seen_by hf pk s1 m1 in let m2' := seen_by hf pk s2 m2 in
  (exists xy, tie hf wp1 wp2 pk m1' s1 m2' s2 = Some xy /\ collision hf xy) \/
  (N.to_nat (sig_index s1) / 2 ^ pk_height pk = N.to_nat (sig_index s2) / 2 ^ pk_height pk /\
   (forall k x v v', v_node hf wp1 pk m1' s1 k x = Some v -> v_node hf wp2 pk m2' s2 k x = Some v' -> v = v') /\
   (sig_index s1 = sig_index s2 ->
      w1 = w2 /\ v_ots_pk hf wp1 pk m1' s1 = v_ots_pk hf wp2 pk m2' s2 /\ same_chains hf wp1 pk m1' s1 m2' s2)).
Proof.
  intros hf w1 wp1 w2 wp2 pk m1 s1 m2 s2 W1 W2 B B1 B2 Hh E1 E2 m1' m2'.
  destruct (C97_signatures_agree_or_collide hf (w_of w1) wp1 (w_of w2) wp2 pk m1' s1 m2' s2) as [H|(H1 & H2 & H3)].
  - now apply rust_accepts. - now apply rust_accepts.
  - now left.
  - right. split; [exact H1|]. split; [exact H2|]. intros EI. destruct (H3 EI) as (X & Y). split; [|exact Y]. destruct w1, w2; try reflexivity; discriminate X.
Qed.

(** At most one accepted signature per message, index and randomiser; and one signature is
    accepted for two messages only if the port sees the same message, or as in C97. *)
Theorem C99_rust_one_signature : forall hf w1 wp1 w2 wp2 pk msg s1 s2,
  winternitz (w_of w1) = Some wp1 -> winternitz (w_of w2) = Some wp2 -> all_bytes pk -> all_bytes s1 -> all_bytes s2 ->
  hash_of_id (nth 0 pk 0 mod 16)%N = Some hf ->
  rs_verify msg s1 pk (Some w1) = ROk tt -> rs_verify msg s2 pk (Some w2) = ROk tt ->
  sig_index s1 = sig_index s2 -> sig_R s1 = sig_R s2 ->
  (exists xy, tie hf wp1 wp2 pk (seen_by hf pk s1 msg) s1 (seen_by hf pk s1 msg) s2 = Some xy /\ collision hf xy) \/ (w1 = w2 /\ s1 = s2).
Proof.
  intros hf w1 wp1 w2 wp2 pk msg s1 s2 W1 W2 B B1 B2 Hh E1 E2 EI ER.
  destruct (C97_one_signature hf (w_of w1) wp1 (w_of w2) wp2 pk (seen_by hf pk s1 msg) s1 s2) as [H|(X & Y)]; auto.
  - now apply rust_accepts.
  - replace (seen_by hf pk s1 msg) with (seen_by hf pk s2 msg) by (unfold seen_by; now rewrite EI, ER). now apply rust_accepts.
  - right. split; [|exact Y]. destruct w1, w2; try reflexivity; discriminate X.
Qed.
Theorem C99_rust_binds_seen_message : forall hf w1 wp1 w2 wp2 pk m1 m2 sig,
  winternitz (w_of w1) = Some wp1 -> winternitz (w_of w2) = Some wp2 -> all_bytes pk -> all_bytes sig ->
  hash_of_id (nth 0 pk 0 mod 16)%N = Some hf ->
  rs_verify m1 sig pk (Some w1) = ROk tt -> rs_verify m2 sig pk (Some w2) = ROk tt ->
  let i := N.to_nat (sig_index sig) in let s1 := seen_by hf pk sig m1 in let s2 := seen_by hf pk sig m2 in
  s1 = s2 \/
  collision hf (msg_input (sig_R sig) (pk_root pk) i s1, msg_input (sig_R sig) (pk_root pk) i s2) \/
  (exists xy, tie hf wp1 wp2 pk s1 sig s2 sig = Some xy /\ collision hf xy) \/
  (exists c d d', c < snd (fst wp1) + snd wp1 /\ d < d' <= 2 ^ fst (fst wp1) - 1 /\
     let x := nth c (sig_wots wp1 sig) [] in x = chain hf (pk_seed pk) i c d (d' - d) x).
Proof.
  intros hf w1 wp1 w2 wp2 pk m1 m2 sig W1 W2 B B1 Hh E1 E2 i s1 s2.
  destruct (list_eq_dec N.eq_dec s1 s2) as [E|NE]; [now left|right].
  apply (C97_signature_binds_message hf (w_of w1) wp1 (w_of w2) wp2 pk s1 s2 sig); auto; now apply rust_accepts.
Qed.

(** ** Concrete cases *)
Example C99_rust_signatures_are_rfc_case := C99_rust_signatures_are_rfc _ _ _ _ _ supR.
(** A key of the port (SHAKE128, height 10) and signatures of it that the port accepts: two of a
    message of 60 bytes at different indices.  It goes on behind the 40 bytes of the first block
    with a nonzero byte. *)
Example C99_case : exists pk s0 s7, all_bytes pk /\ all_bytes s0 /\ all_bytes s7 /\ hash_of_id (nth 0 pk 0 mod 16)%N = Some SHAKE_128 /\
  seen_bytes SHAKE_128 = Some 40 /\ nth 40 (repeat 1%N 60) 0%N <> 0%N /\ signable SHAKE_128 (repeat 1%N 60) /\
  rs_verify (repeat 1%N 60) s0 pk (Some W16) = ROk tt /\ rs_verify (repeat 1%N 60) s7 pk (Some W16) = ROk tt /\
  sig_index s0 = 0%N /\ sig_index s7 = 7%N.
Proof.
  exists (rust_pk SHAKE_128 w16 10 seed_c), (rust_sig SHAKE_128 w16 10 seed_c 0 (repeat 1%N 60)), (rust_sig SHAKE_128 w16 10 seed_c 7 (repeat 1%N 60)).
  assert (H7 : 7 < 2 ^ 10) by (change (2 ^ 10) with 1024; lia). assert (H0 : 0 < 2 ^ 10) by (change (2 ^ 10) with 1024; lia).
  assert (SB : forall i m, all_bytes (rust_sig SHAKE_128 w16 10 seed_c i m)).
  { intros i m. apply ref_sig_bytes. }
  split. { rewrite (rust_pk_cpp SHAKE_128 W16 w16 10 seed_c supR). apply (c_pk_bytes _ _ (rkey_cfg _ _ _ _ _ supR)). }
  split; [apply SB|]. split; [apply SB|]. split; [reflexivity|]. split; [reflexivity|]. split; [discriminate|].
  split; [unfold signable; rewrite repeat_length; lia|].
  assert (SG : signable SHAKE_128 (repeat 1%N 60)) by (unfold signable; rewrite repeat_length; lia).
  split; [exact (rust_sig_verifies _ _ _ _ _ supR 0 _ H0 SG)|]. split; [exact (rust_sig_verifies _ _ _ _ _ supR 7 _ H7 SG)|].
  split; [exact (proj1 (rust_sig_fields _ _ _ _ _ supR 0 _ H0))|exact (proj1 (rust_sig_fields _ _ _ _ _ supR 7 _ H7))].
Qed.
