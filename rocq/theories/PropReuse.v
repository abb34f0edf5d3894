(** C94: what reuse of a one-time key costs. *)
From Coq Require Import List NArith Arith Lia Bool.
From Verif Require Import Base Bytes Keccak HashAddress Descriptor SpecXmss SpecApi SpecForge SpecReuse XmssObj KeccakLemmas XmssRefine
  WotsProofs TreeProofs BasicProofs BdsProofs FastProofs VerifyProofs PropObj PropForge PropForge2
  RsBase RsWots RsObj SpecRust RsSimAlgs RsSimFast RsObjProofs PropRust PropRust2 CasesXmss.
From Verif Require Export SpecTerms2.
Import ListNotations.
Open Scope nat_scope.

Lemma idx_small : forall hash hf w wp seed h (idx : N), supported hash hf w wp h seed -> (idx < 2 ^ N.of_nat h)%N -> (N.of_nat (N.to_nat idx) < 2 ^ 32)%N.
Proof.
  intros hash hf w wp seed h idx (_ & _ & Hh & _) Hi. rewrite N2Nat.id. eapply N.lt_le_trans; [exact Hi|]. apply N.pow_le_mono_r; lia.
Qed.

Lemma md_props : forall w wp m, winternitz w = Some wp -> length m = 32 ->
  length (msg_digits (fst (fst wp)) (snd (fst wp)) (snd wp) m) = snd (fst wp) + snd wp /\
  Forall (fun d => (d <= w - 1)%N) (msg_digits (fst (fst wp)) (snd (fst wp)) (snd wp) m).
Proof.
  intros w wp m Hw Hm. destruct (wparams_ok w wp Hw) as (_ & HP & E1 & E2 & E3 & E4 & E5 & E6 & E7).
  destruct (digits_of_ok (wparams w) m HP Hm) as (_ & L & F). rewrite <- (digits_of_msg w wp m Hw Hm). split; [congruence || (rewrite L; auto)|].
  eapply Forall_impl; [|exact F]. intros d Hd. cbv beta in *. congruence.
Qed.

(** A signature of the Rust port is the one of the reference machine. *)
Lemma rust_signed : forall rw hf wp h seed o pk cs o' os n msg sig, supported (rs_hash_u8 hf) hf (w_of rw) wp h seed ->
  rs_fast_new seed (N.of_nat h) (Some hf) (Some rw) = ROk o -> rs_get_pk (rfa_base o) = ROk pk -> rs_run o cs = ROk (o', os) ->
  nth_error cs n = Some (OpSign msg) -> nth_error os n = Some (RObsSig sig) ->
  pk = rust_pk hf wp h seed /\ (sig_index sig < 2 ^ N.of_nat h)%N /\ sig = rust_sig hf wp h seed (N.to_nat (sig_index sig)) msg.
Proof.
  intros rw hf wp h seed o pk cs o' os n msg sig HS E EP Er Hc Ho. destruct (C63_rust_history hf rw wp h seed HS) as (o1 & E1 & HR).
  assert (o1 = o) by (apply ROk_inj; congruence). subst o1. split.
  { pose proof (HR []) as R0. cbn [rust_ref_run rs_run] in R0. destruct R0 as (o1 & R0 & K). apply ROk_inj, pair_equal_spec in R0.
    destruct R0 as [<- _]. apply ROk_inj. rewrite <- EP. apply K. }
  pose proof (HR cs) as R1. destruct (rust_ref_run hf h (rust_sig hf wp h seed) 0 cs) as [[i obs]|] eqn:ER; [|congruence].
  destruct R1 as (o1 & R1 & K). rewrite Er in R1. apply ROk_inj, pair_equal_spec in R1. destruct R1 as [<- <-].
  destruct (rust_ref_nth _ _ _ _ _ _ _ (N.le_0_l _) ER) as (_ & G). destruct (G n sig Ho) as (m & k & C & _ & Es & _ & Hk & _).
  rewrite Hc in C. injection C as <-.
  assert (L : N.to_nat k < 2 ^ h) by (rewrite <- pow_N_nat; lia).
  destruct (rust_sig_fields hf rw wp h seed HS (N.to_nat k) msg L) as (F & _). rewrite <- Es in F.
  assert (EI : sig_index sig = k) by (unfold sig_index; rewrite F; apply N2Nat.id). rewrite EI. split; [lia|exact Es].
Qed.

Section R.
  Variables (hash : N) (hf : hashfn) (w : N) (wp : nat * nat * nat) (seed : list N).
  Local Notation len := (snd (fst wp) + snd wp).

  (** Every signature handed out is the owner's, and its parts are known. *)
  Lemma signed_owner : forall idx h pk msg sig, signed hash hf w wp seed idx h (pk, msg, sig) ->
    supported hash hf w wp h seed /\ (idx < 2 ^ N.of_nat h)%N /\ pk_root pk = ref_root hf wp h seed /\ pk_seed pk = key_pub seed /\
    sig = owner_sig hf wp h seed (N.to_nat idx) (randomizer hf (key_prf seed) (N.to_nat idx)) msg.
  Proof.
    intros idx h pk msg sig H. inversion H as [junk h' fmt x cs y os n m s Hw HS E Er Hc Ho Hx|junk junk' h' fmt x y m s HS Hh E Hi Es|rw h' o pk' cs o' os n m s Hh Hw HS E EP Er Hc Ho Hx]; subst.
    - assert (wp = w16) as -> . { destruct HS as (_ & Hw2 & _). change (winternitz 16) with (Some w16) in Hw2. congruence. }
      pose proof (cfg_of _ _ _ _ _ _ fmt HS) as HC. destruct (pk_parts _ _ 0 HC) as (P1 & P2 & _).
      destruct (XmssFast_new_spec junk seed h hash hf fmt HS) as (x' & E' & Eb & _). assert (x' = x) by congruence. subst x'. rewrite Eb.
      destruct (fast_history junk seed h hash hf fmt HS) as (x' & E'' & HR). assert (x' = x) by congruence. subst x'.
      destruct (HR cs) as (y' & Er' & _). rewrite Er in Er'.
      assert (os = snd (ref_run h (ref_sig hf w16 h seed) 0 cs)) as -> by congruence.
      rewrite (ref_run_nth _ _ cs 0%N n _ Hc) in Ho.
      set (i := fst (ref_run h (ref_sig hf w16 h seed) 0 (firstn n cs))) in *.
      cbn [ref_step] in Ho. destruct (i <? 2 ^ N.of_nat h)%N eqn:El; cbn [snd] in Ho; [|congruence]. apply N.ltb_lt in El.
      assert (Es : sig = ref_sig hf w16 h seed (N.to_nat i) msg) by congruence. rewrite ref_sig_owner in Es.
      destruct (owner_parts hf 16 w16 h seed (N.to_nat i) (randomizer hf (key_prf seed) (N.to_nat i)) msg eq_refl (keyed_length _ _ _ _)) as (Q1 & _).
      { eapply idx_small; eauto. }
      rewrite <- Es, N2Nat.id in Q1. rewrite Q1. repeat (split; [assumption|]). exact Es.
    - pose proof (cfg_of _ _ _ _ _ _ fmt HS) as HC. destruct (pk_parts _ _ 0 HC) as (P1 & P2 & _).
      set (c := mkCfg hf hash w fmt h seed) in *.
      pose proof (XmssBasic_new_spec c wp HC junk) as E'. assert (x = c_obj c wp 0) by (apply Ok_inj; rewrite <- E; exact E'). subst x.
      split; [exact HS|]. split; [exact Hi|]. split; [exact P1|]. split; [exact P2|].
      assert (Eo : fst (base_setIndex (c_obj c wp 0) idx) = c_obj c wp idx).
      { unfold base_setIndex. cbn [fst]. unfold with_sk, c_obj. cbn [xb_params xb_hash xb_fmt xb_height xb_sk xb_seed]. reflexivity. }
      rewrite Eo, (XmssBasic_sign_spec c wp HC) in Es by (cbn [c_height c]; auto; lia).
      apply Ok_inj in Es. apply pair_equal_spec in Es. destruct Es as (_ & <-). rewrite <- ref_sig_owner. reflexivity.
    - pose proof (cfg_of _ _ _ _ _ _ 0%N HS) as HC. destruct (pk_parts _ _ 0 HC) as (P1 & P2 & _).
      destruct (rust_signed rw _ _ _ _ _ _ _ _ _ _ _ _ HS E EP Er Hc Ho) as (-> & Hi & Es).
      split; [exact HS|]. split; [exact Hi|]. rewrite (rust_pk_cpp hf rw wp h seed HS). split; [exact P1|]. split; [exact P2|].
      rewrite <- ref_sig_owner. assert (P3 : pk_root (c_pk (rust_cfg hf rw h seed) wp 0) = ref_root hf wp h seed) by exact P1. rewrite P3.
      assert (L : (N.to_nat (sig_index sig)) < 2 ^ h) by (rewrite <- pow_N_nat; lia).
      destruct (rust_sig_fields hf rw wp h seed HS (N.to_nat (sig_index sig)) m L) as (F1 & F2). rewrite <- Es in F1, F2.
      unfold sig_R. rewrite F2. rewrite Es at 1. unfold rust_sig. now rewrite N2Nat.id.
  Qed.

  (** What one signature shows. *)
  Lemma shown_genuine : forall idx h pk msg sig, signed hash hf w wp seed idx h (pk, msg, sig) -> winternitz w = Some wp ->
    let '(d, vs) := shown hf (wp, (pk, msg, sig)) in
    length vs = len /\
    forall c, c < len -> nth c vs [] = chain hf (key_pub seed) (N.to_nat idx) c 0 (N.to_nat (nth c d 0%N)) (chain_start hf (key_seed seed) (N.to_nat idx) c).
  Proof.
    intros idx h pk msg sig H Hw. destruct (signed_owner _ _ _ _ _ H) as (HS & Hi & Er & Ep & Es). unfold shown.
    destruct (owner_parts hf w wp h seed (N.to_nat idx) (randomizer hf (key_prf seed) (N.to_nat idx)) msg Hw (keyed_length _ _ _ _)) as (Q1 & Q2 & Q3 & _).
    { eapply idx_small; eauto. }
    rewrite <- Es in Q1, Q2, Q3. rewrite Q3, Q2, Q1, N2Nat.id. unfold positions. rewrite Er. split; [apply ots_sig_length|]. intros c Hc.
    unfold ots_sig. rewrite nth_map_seq by exact Hc. reflexivity.
  Qed.
End R.



Lemma reach_genuine : forall hash hf seed idx c a l,
  (forall s, In s l -> from_seed hash hf seed idx s) ->
  (exists s, In s l /\ c < length (snd (shown hf s)) /\ (nth c (fst (shown hf s)) 0 <= a)%N) ->
  reach hf (key_pub seed) (N.to_nat idx) c a (map (shown hf) l) = chain hf (key_pub seed) (N.to_nat idx) c 0 (N.to_nat a) (chain_start hf (key_seed seed) (N.to_nat idx) c).
Proof.
  intros hash hf seed idx c a l HL. induction l as [|s l IH]; intros (s' & Hin & Hc & Hle); [destruct Hin|].
  cbn [map reach]. destruct (shown hf s) as [d vs] eqn:Es. destruct ((c <? length vs) && (nth c d 0 <=? a)%N) eqn:E.
  - apply andb_prop in E. destruct E as (E1 & E2). apply Nat.ltb_lt in E1. apply N.leb_le in E2.
    destruct (HL s (or_introl eq_refl)) as (w & h & Hw & Hs). destruct s as [wp [[pk msg] sig]]. cbn [fst snd] in *.
    pose proof (shown_genuine _ _ _ _ _ _ _ _ _ _ Hs Hw) as G. rewrite Es in G. destruct G as (GL & G). rewrite (G c) by lia.
    pose proof (chain_add hf (key_pub seed) (N.to_nat idx) c 0 (N.to_nat (nth c d 0%N)) (N.to_nat (a - nth c d 0%N)) (chain_start hf (key_seed seed) (N.to_nat idx) c)) as CA.
    cbn [Nat.add] in CA. rewrite <- CA. f_equal. lia.
  - apply IH.
    + intros q Hq. apply HL. now right.
    + destruct Hin as [<-|Hin]; [|exists s'; auto]. rewrite Es in Hle, Hc. cbn [fst snd] in Hle, Hc. apply andb_false_iff in E.
      destruct E as [E|E]; [apply Nat.ltb_ge in E; lia|apply N.leb_gt in E; lia].
Qed.


(** What is put together is what the owner would have made. *)
Lemma assemble_owner : forall hash hf w wp seed idx h pk0 msg0 sig0 l,
  winternitz w = Some wp -> signed hash hf w wp seed idx h (pk0, msg0, sig0) -> (forall s, In s l -> from_seed hash hf seed idx s) ->
  forall R msg, covered_by hf (positions hf wp pk0 R (N.to_nat idx) msg) l ->
    assemble hf wp h pk0 sig0 l R msg = owner_sig hf wp h seed (N.to_nat idx) R msg.
Proof.
  intros hash hf w wp seed idx h pk0 msg0 sig0 l Hw H0 HL R msg HC.
  destruct (signed_owner _ _ _ _ _ _ _ _ _ _ H0) as (HS & Hi & Er & Ep & Es).
  destruct (owner_parts hf w wp h seed (N.to_nat idx) (randomizer hf (key_prf seed) (N.to_nat idx)) msg0 Hw (keyed_length _ _ _ _)) as (Q1 & _ & _ & Q4 & _).
  { eapply idx_small; eauto. }
  rewrite <- Es, N2Nat.id in Q1. rewrite <- Es in Q4.
  unfold assemble, owner_sig. cbv zeta. rewrite Q1, Q4, Ep, N2Nat.id. do 2 f_equal. f_equal. f_equal.
  unfold ots_sig. apply map_ext_in. intros c Hc. apply in_seq in Hc.
  rewrite (reach_genuine hash hf seed idx c _ l HL).
  2:{ apply HC. unfold positions. pose proof (proj1 (md_props w wp (digest hf R (pk_root pk0) (N.to_nat idx) msg) Hw (keyed_length _ _ _ _))). lia. }
  unfold positions. rewrite Er. reflexivity.
Qed.

(** The public key is that of the tree, whoever made it. *)
Lemma signed_pk : forall hash hf w wp seed idx h pk0 msg0 sig0, signed hash hf w wp seed idx h (pk0, msg0, sig0) ->
  exists junk fmt x, XmssBasic_new junk seed (N.of_nat h) hash fmt w = Ok x /\ getPK x = pk0.
Proof.
  intros hash hf w wp seed idx h pk0 msg0 sig0 H0.
  inversion H0 as [junk h' fmt x cs y os n m s Hw2 HS2 E Er2 Hc Ho Hx|junk junk' h' fmt x y m s HS2 Hh E Hi2 Es2|rw h' o pk' cs o' os n m s Hh Hw2 HS2 E EP Er2 Hc Ho Hx]; subst.
  - assert (wp = w16) as -> . { destruct HS2 as (_ & Hw2 & _). change (winternitz 16) with (Some w16) in Hw2. congruence. }
    destruct (C48_accepted_genuine_or_collision junk seed h hash hf fmt 16 w16 HS2) as (x' & E' & HE & _). destruct (HE eq_refl junk) as (y' & Ey & EPK).
    exists junk, fmt, x'. split; [exact E'|]. rewrite <- EPK. congruence.
  - exists junk, fmt, x. auto.
  - destruct (rust_signed rw _ _ _ _ _ _ _ _ _ _ _ _ HS2 E EP Er2 Hc Ho) as (-> & _).
    exists [], 0%N. eexists. split; [exact (XmssBasic_new_spec _ _ (cfg_of _ _ _ _ _ _ 0%N HS2) [])|]. symmetry. exact (rust_pk_cpp hf rw wp h seed HS2).
Qed.

(** Let objects with one seed and one hash function (two objects made from the seed, a copy, a
    second run of the process, an XmssBasic moved back, an object of the Rust port, and also
    objects of different heights and Winternitz parameters) have handed out any list of
    signatures with the same index, and one of them for the tree of height [h] and
    parameter [w].  Then whoever has them can sign for that tree every
    message whose positions are covered, with any randomiser, and verify accepts. *)
Theorem C94_reused_index_forges : forall hash hf w wp seed idx h pk0 msg0 sig0 l,
  winternitz w = Some wp -> signed hash hf w wp seed idx h (pk0, msg0, sig0) -> (forall s, In s l -> from_seed hash hf seed idx s) ->
  forall R msg, length R = 32 -> covered_by hf (positions hf wp pk0 R (N.to_nat idx) msg) l ->
    let sig := assemble hf wp h pk0 sig0 l R msg in
    verify msg sig pk0 w = Ok true /\ sig_index sig = idx.
Proof.
  intros hash hf w wp seed idx h pk0 msg0 sig0 l Hw H0 HL R msg LR HC sig.
  destruct (signed_owner _ _ _ _ _ _ _ _ _ _ H0) as (HS & Hi & Er & Ep & Es).
  assert (EO : sig = owner_sig hf wp h seed (N.to_nat idx) R msg) by (eapply assemble_owner; eauto).
  assert (Hn : N.to_nat idx < 2 ^ h) by (rewrite <- pow_N_nat; lia).
  rewrite EO. split.
  - destruct (signed_pk _ _ _ _ _ _ _ _ _ _ H0) as (junk & fmt & x & Ex & <-). destruct (C48_owner_sig_accepted junk seed h hash hf fmt w wp HS) as (x' & Ex' & HA).
    assert (x' = x) by congruence. subst x'. apply HA; auto.
  - destruct (owner_parts hf w wp h seed (N.to_nat idx) R msg Hw LR) as (Q & _); [eapply idx_small; eauto|]. now rewrite Q, N2Nat.id.
Qed.

Lemma owner_sig_bytes : forall hf wp h seed i R msg, all_bytes R -> all_bytes (owner_sig hf wp h seed i R msg).
Proof.
  intros hf wp h seed i R msg HR. pose proof (ref_sig_bytes hf wp h seed i msg) as H. unfold ref_sig, signature in H. unfold owner_sig.
  rewrite !all_bytes_app in *. destruct H as (A & _ & _ & B). split; [exact A|]. split; [exact HR|]. split; [|exact B].
  apply concat_bytes. apply Forall_forall. intros x Hx. unfold ots_sig in Hx. apply in_map_iff in Hx. destruct Hx as (c & <- & _).
  apply chain_bytes. apply keyed_bytes.
Qed.

(** The Rust port accepts such signatures as well, for the message it sees. *)
Theorem C94_port_accepts_forgeries : forall hash hf rw wp seed idx h pk0 msg0 sig0 l,
  winternitz (w_of rw) = Some wp -> signed hash hf (w_of rw) wp seed idx h (pk0, msg0, sig0) -> (forall s, In s l -> from_seed hash hf seed idx s) ->
  (nth 1 pk0 0 / 16 = 0)%N ->
  forall R msg, length R = 32 -> all_bytes R -> signable hf msg ->
    let seen := seen_message hf R (pk_root pk0) idx msg in
    covered_by hf (positions hf wp pk0 R (N.to_nat idx) seen) l ->
    rs_verify msg (assemble hf wp h pk0 sig0 l R seen) pk0 (Some rw) = ROk tt.
Proof.
  intros hash hf rw wp seed idx h pk0 msg0 sig0 l Hw H0 HL Hf R msg LR HR Hs seen HC.
  destruct (C94_reused_index_forges _ _ _ _ _ _ _ _ _ _ l Hw H0 HL R seen LR HC) as (V & EI). cbv zeta in V, EI.
  destruct (signed_owner _ _ _ _ _ _ _ _ _ _ H0) as (HS & Hi & _).
  pose proof (assemble_owner _ _ _ _ _ _ _ _ _ _ l Hw H0 HL R seen HC) as EO.
  destruct (signed_pk _ _ _ _ _ _ _ _ _ _ H0) as (junk & fmt & x & Ex & EPK).
  pose proof (cfg_of _ _ _ _ _ _ fmt HS) as HCf. pose proof (XmssBasic_new_spec _ _ HCf junk) as Ex'. cbn [c_seed c_height c_hash c_fmt c_w] in Ex'.
  rewrite Ex in Ex'. apply Ok_inj in Ex'. subst x.
  set (sig := assemble hf wp h pk0 sig0 l R seen) in *.
  assert (Hh : hash_of_id (nth 0 pk0 0 mod 16)%N = Some hf).
  { rewrite <- EPK. destruct (pk_parts _ _ 0 HCf) as (_ & _ & _ & P4). change (getPK (c_obj (mkCfg hf hash (w_of rw) fmt h seed) wp 0)) with (c_pk (mkCfg hf hash (w_of rw) fmt h seed) wp 0).
    rewrite P4. cbn [c_hash]. rewrite N.mod_small by (pose proof (hash_id_small _ _ (proj1 HS)); lia). exact (proj1 HS). }
  assert (B1 : all_bytes pk0) by (rewrite <- EPK; apply (c_pk_bytes _ _ HCf)).
  assert (B2 : all_bytes sig) by (rewrite EO; now apply owner_sig_bytes).
  refine (proj2 (C64_rust_verify_vs_cpp rw wp hf msg sig pk0 Hw B1 B2 Hh Hf Hs) _).
  destruct (owner_parts hf (w_of rw) wp h seed (N.to_nat idx) R seen Hw LR) as (_ & Q2 & _); [eapply idx_small; eauto|].
  rewrite <- EO in Q2. unfold sig_R in Q2. unfold sig_index in EI. rewrite Q2, EI. exact V.
Qed.

(** Trees of different heights over one seed have the same one-time keys: from two signatures
    with the same index, one for each tree, anyone computes the same one-time public key. *)
Theorem C94_heights_share_one_time_keys : forall hash hf w wp seed idx h h' pk msg sig pk' msg' sig', winternitz w = Some wp ->
  signed hash hf w wp seed idx h (pk, msg, sig) -> signed hash hf w wp seed idx h' (pk', msg', sig') ->
  let ots pk msg sig := pk_of_sig hf (2 ^ fst (fst wp)) (pk_seed pk) (N.to_nat (sig_index sig))
        (positions hf wp pk (sig_R sig) (N.to_nat (sig_index sig)) msg) (sig_wots wp sig) in
  ots pk msg sig = ots pk' msg' sig' /\ length (ots pk msg sig) = snd (fst wp) + snd wp /\ pk_seed pk = pk_seed pk'.
Proof.
  intros hash hf w wp seed idx h h' pk msg sig pk' msg' sig' Hw H1 H2 ots.
  assert (G : forall h pk msg sig, signed hash hf w wp seed idx h (pk, msg, sig) -> pk_seed pk = key_pub seed /\
     ots pk msg sig = ots_pk hf (2 ^ fst (fst wp)) (snd (fst wp) + snd wp) (key_seed seed) (key_pub seed) (N.to_nat idx)).
  { clear. intros h pk msg sig H. assert (Hw : winternitz w = Some wp) by (destruct (signed_owner _ _ _ _ _ _ _ _ _ _ H) as ((_ & Hw & _) & _); exact Hw).
    pose proof (shown_genuine _ _ _ _ _ _ _ _ _ _ H Hw) as G. unfold shown in G. destruct G as (GL & G).
    destruct (signed_owner _ _ _ _ _ _ _ _ _ _ H) as (HS & Hi & Er & Ep & Es). split; [exact Ep|].
    destruct (owner_parts hf w wp h seed (N.to_nat idx) (randomizer hf (key_prf seed) (N.to_nat idx)) msg Hw (keyed_length _ _ _ _)) as (Q1 & _).
    { eapply idx_small; eauto. }
    rewrite <- Es, N2Nat.id in Q1. unfold ots, pk_of_sig, ots_pk. rewrite GL, Ep. rewrite Q1 in *. apply map_ext_in. intros c Hc. apply in_seq in Hc. cbv zeta.
    rewrite (G c) by lia. destruct (md_props w wp _ Hw (keyed_length hf 2 (sig_R sig ++ pk_root pk ++ to_byte 32 (N.of_nat (N.to_nat idx))) msg)) as (L & F).
    assert (B : (nth c (positions hf wp pk (sig_R sig) (N.to_nat idx) msg) 0 <= w - 1)%N).
    { rewrite Forall_forall in F. apply F, nth_In. unfold positions, digest in *. lia. }
    set (d := N.to_nat (nth c (positions hf wp pk (sig_R sig) (N.to_nat idx) msg) 0%N)) in *. assert (Hd : d <= 2 ^ fst (fst wp) - 1).
    { destruct (wparams_ok w wp Hw) as (_ & _ & _ & E2 & _). rewrite <- E2.
      unfold d. clear -B. lia. }
    pose proof (chain_add hf (key_pub seed) (N.to_nat idx) c 0 d (2 ^ fst (fst wp) - 1 - d) (chain_start hf (key_seed seed) (N.to_nat idx) c)) as CA.
    cbn [Nat.add] in CA. rewrite <- CA. f_equal. lia. }
  destruct (G _ _ _ _ H1) as (P1 & O1). destruct (G _ _ _ _ H2) as (P2 & O2). split; [congruence|]. split; [|congruence].
  rewrite O1. unfold ots_pk. now rewrite map_length, seq_length.
Qed.

(** A signature with a smaller Winternitz parameter gives away most of the key with the larger
    one: if an object with parameter [w'] < [w] over the same seed has published any signature
    with this index, then every message each of whose positions is at least w' - 1, or at least
    the one the genuine signature [sig0] shows for that chain, can be signed for the tree with
    [w]. *)
Theorem C94_smaller_w_gives_the_key_away : forall hash hf w wp w' wp' seed idx h h' pk0 msg0 sig0 s',
  winternitz w = Some wp -> winternitz w' = Some wp' -> (w' < w)%N ->
  signed hash hf w wp seed idx h (pk0, msg0, sig0) -> signed hash hf w' wp' seed idx h' s' ->
  forall R msg, length R = 32 ->
    (forall c, let a := nth c (positions hf wp pk0 R (N.to_nat idx) msg) 0%N in
       (w' - 1 <= a)%N \/ (nth c (positions hf wp pk0 (sig_R sig0) (N.to_nat idx) msg0) 0 <= a)%N) ->
    verify msg (assemble hf wp h pk0 sig0 [(wp', s'); (wp, (pk0, msg0, sig0))] R msg) pk0 w = Ok true.
Proof.
  intros hash hf w wp w' wp' seed idx h h' pk0 msg0 sig0 [[pk' msg'] sig'] Hw Hw' Hlt H0 H1 R msg LR HF.
  apply (C94_reused_index_forges hash hf w wp seed idx h pk0 msg0 sig0 [(wp', (pk', msg', sig')); (wp, (pk0, msg0, sig0))] Hw H0).
  - intros s [<-|[<-|[]]]; [exists w', h'; auto|exists w, h; auto].
  - exact LR.
  - intros c Hc. destruct (HF c) as [A|A]; cycle 1.
    { exists (wp, (pk0, msg0, sig0)). split; [right; now left|].
      destruct (md_props w wp (digest hf R (pk_root pk0) (N.to_nat idx) msg) Hw (keyed_length _ _ _ _)) as (L & _).
      pose proof (shown_genuine _ _ _ _ _ _ _ _ _ _ H0 Hw) as G. unfold shown in *. cbn [fst snd]. destruct G as (GL & _). rewrite GL.
      split; [unfold positions in Hc; lia|].
      destruct (signed_owner _ _ _ _ _ _ _ _ _ _ H0) as (HS & Hi & _ & _ & Es).
      destruct (owner_parts hf w wp h seed (N.to_nat idx) (randomizer hf (key_prf seed) (N.to_nat idx)) msg0 Hw (keyed_length _ _ _ _)) as (Q1 & _).
      { eapply idx_small; eauto. }
      rewrite <- Es, N2Nat.id in Q1. rewrite Q1. exact A. }
    exists (wp', (pk', msg', sig')). split; [now left|].
    destruct (md_props w wp (digest hf R (pk_root pk0) (N.to_nat idx) msg) Hw (keyed_length _ _ _ _)) as (L & _).
    pose proof (shown_genuine _ _ _ _ _ _ _ _ _ _ H1 Hw') as G. unfold shown in *. cbn [fst snd]. destruct G as (GL & _). rewrite GL.
    assert (Hl : snd (fst wp) + snd wp <= snd (fst wp') + snd wp').
    { apply winternitz_cases in Hw. apply winternitz_cases in Hw'. clear -Hw Hw' Hlt.
      destruct Hw as [(-> & ->)|[(-> & ->)|[(-> & ->)|(-> & ->)]]]; destruct Hw' as [(-> & ->)|[(-> & ->)|[(-> & ->)|(-> & ->)]]]; cbn [fst snd]; lia. }
    split; [unfold positions in Hc; lia|].
    destruct (md_props w' wp' (digest hf (sig_R sig') (pk_root pk') (N.to_nat (sig_index sig')) msg') Hw' (keyed_length _ _ _ _)) as (L' & F').
    assert (B : (nth c (positions hf wp' pk' (sig_R sig') (N.to_nat (sig_index sig')) msg') 0 <= w' - 1)%N).
    { rewrite Forall_forall in F'. apply F', nth_In. unfold positions in *. lia. }
    cbv zeta in A. lia.
Qed.

(** The hypotheses are met.  Two XmssFast objects from one seed, of heights 10 and 12, each sign
    a message with their first key; together with the path of the first, the signatures let
    anybody sign, among others, the first message again. *)
Lemma sup12 : supported 2 SHAKE_256 16 w16 12 seed_c.
Proof. destruct sup16 as (A & B & _ & _ & E). split; [exact A|]. split; [exact B|]. split; [lia|]. split; [reflexivity|exact E]. Qed.
Lemma fast_signs : forall h m, supported 2 SHAKE_256 16 w16 h seed_c -> exists pk sig, signed 2 SHAKE_256 16 w16 seed_c 0 h (pk, m, sig) /\ length (sig_R sig) = 32.
Proof.
  intros h m HS. destruct (fast_history [] seed_c h 2 SHAKE_256 0 HS) as (x & E & HR). destruct (HR [OpSign m]) as (y & Er & _).
  assert (Hpos : (0 <? 2 ^ N.of_nat h)%N = true) by (apply N.ltb_lt, N.neq_0_lt_0, N.pow_nonzero; discriminate).
  cbn [ref_run ref_step] in Er. rewrite Hpos in Er. cbn [snd] in Er.
  destruct (owner_parts SHAKE_256 16 w16 h seed_c 0 (randomizer SHAKE_256 (key_prf seed_c) 0) m eq_refl (keyed_length _ _ _ _)) as (Q1 & Q2 & _); [reflexivity|].
  rewrite <- ref_sig_owner in Q1, Q2.
  exists (getPK (xf_base x)), (ref_sig SHAKE_256 w16 h seed_c 0 m). split; [|rewrite Q2; apply keyed_length].
  eapply signed_fast with (n := 0); eauto; reflexivity.
Qed.
Example C94_case : forall m m', exists pk sig pk' sig', signed 2 SHAKE_256 16 w16 seed_c 0 10 (pk, m, sig) /\
  signed 2 SHAKE_256 16 w16 seed_c 0 12 (pk', m', sig') /\ length (sig_R sig) = 32 /\
  covered_by SHAKE_256 (positions SHAKE_256 w16 pk (sig_R sig) 0 m) [(w16, (pk', m', sig')); (w16, (pk, m, sig))].
Proof.
  intros m m'. destruct (fast_signs 10 m sup16) as (pk & sig & H & L). destruct (fast_signs 12 m' sup12) as (pk' & sig' & H' & _).
  exists pk, sig, pk', sig'. split; [exact H|]. split; [exact H'|]. split; [exact L|].
  intros c Hc. exists (w16, (pk, m, sig)). split; [right; now left|].
  destruct (signed_owner _ _ _ _ _ _ _ _ _ _ H) as (_ & _ & Er & _ & Es).
  destruct (owner_parts SHAKE_256 16 w16 10 seed_c 0 (randomizer SHAKE_256 (key_prf seed_c) 0) m eq_refl (keyed_length _ _ _ _)) as (Q1 & _); [reflexivity|].
  change (N.to_nat 0) with 0 in Es. rewrite <- Es in Q1. change (N.of_nat 0) with 0%N in Q1. 
  pose proof (shown_genuine _ _ _ _ _ _ _ _ _ _ H eq_refl) as G. unfold shown in *. cbn [fst snd]. destruct G as (GL & _). rewrite Q1 in *.
  split; [|apply N.le_refl]. rewrite GL.
  destruct (md_props 16 w16 (digest SHAKE_256 (sig_R sig) (pk_root pk) 0 m) eq_refl (keyed_length _ _ _ _)) as (L' & _). unfold positions in Hc. lia.
Qed.
(** There are digests for which the condition on the positions holds and which the genuine
    signature alone does not cover: w = 16 after w = 2, w = 16 after w = 4, w = 256 after
    w = 4.  The last two need the genuine signature for the checksum. *)
Definition low_enough (w' : N) (d0 d : list N) : bool :=
  forallb (fun p => (w' - 1 <=? snd p)%N || (fst p <=? snd p)%N) (combine d0 d) && negb (forallb (fun p => (fst p <=? snd p)%N) (combine d0 d)).
Example C94_positions_case :
  low_enough 2 (msg_digits 4 64 3 (repeat 238%N 32)) (msg_digits 4 64 3 (repeat 170%N 31 ++ [175%N])) = true /\
  low_enough 4 (msg_digits 4 64 3 (repeat 238%N 32)) (msg_digits 4 64 3 (repeat 136%N 32)) = true /\
  low_enough 4 (msg_digits 8 32 2 (repeat 238%N 32)) (msg_digits 8 32 2 (repeat 136%N 32)) = true.
Proof. vm_compute. repeat split. Qed.
(** An XmssBasic with w = 4 over the same seed signs with its first key as well. *)
Example C94_smaller_w_case : forall m m', exists pk sig s', winternitz 4 = Some (2, 128, 5) /\
  signed 2 SHAKE_256 16 w16 seed_c 0 10 (pk, m, sig) /\ signed 2 SHAKE_256 4 (2, 128, 5) seed_c 0 10 s' /\ snd (fst s') = m'.
Proof.
  intros m m'. destruct (fast_signs 10 m sup16) as (pk & sig & H & _). exists pk, sig.
  assert (HS : supported 2 SHAKE_256 4 (2, 128, 5) 10 seed_c).
  { destruct sup16 as (A & _ & C & D & E). split; [exact A|]. split; [reflexivity|]. auto. }
  destruct (C17_basic_signatures_verify [] seed_c 10 2 SHAKE_256 0 4 (2, 128, 5) HS) as (x & E & HB); [lia|].
  destruct (HB [] 0%N m') as (y & s & Es & _); [reflexivity|].
  exists (getPK x, m', s). split; [reflexivity|]. split; [exact H|]. split; [|reflexivity].
  eapply signed_basic; eauto; try lia; reflexivity.
Qed.
(** An XmssFast of the C++ library and an XMSSFast of the Rust port over one seed: the port signs
    with its first key as well, under the same public key, whose address format nibble is 0. *)
Example C94_port_case : forall m m', signable SHAKE_128 m' -> exists pk sig s', signed 1 SHAKE_128 (w_of W16) w16 seed_c 0 10 (pk, m, sig) /\
  signed 1 SHAKE_128 (w_of W16) w16 seed_c 0 10 (pk, seen_message SHAKE_128 (sig_R s') (pk_root pk) 0 m', s') /\ (nth 1 pk 0 / 16 = 0)%N.
Proof.
  intros m m' Hm.
  destruct (C63_rust_history SHAKE_128 W16 w16 10 seed_c supR) as (o & E & HR).
  destruct (HR []) as (o0 & R0 & K0). cbn [rs_run] in R0. apply ROk_inj, pair_equal_spec in R0. destruct R0 as [<- _].
  pose proof (HR [OpSign m']) as R. cbn [rust_ref_run rust_ref_step] in R. destruct (signable_dec SHAKE_128 m') as [_|C]; [|contradiction].
  change (0 <? 2 ^ N.of_nat 10)%N with true in R. cbn iota in R. destruct R as (o' & R & _). change (N.to_nat 0) with 0 in R.
  destruct (rust_sig_fields SHAKE_128 W16 w16 10 seed_c supR 0 m') as (F1 & _); [cbn; lia|].
  set (s' := rust_sig SHAKE_128 w16 10 seed_c 0 m') in *. clearbody s'.
  destruct (fast_history [] seed_c 10 1 SHAKE_128 0 supR) as (x & Ex & HF). destruct (HF [OpSign m]) as (y & Er & _).
  destruct (XmssFast_new_spec [] seed_c 10 1 SHAKE_128 0 supR) as (x' & Ex' & Eb & _). assert (x' = x) by congruence. subst x'.
  cbn [ref_run ref_step] in Er. change (0 <? 2 ^ N.of_nat 10)%N with true in Er. cbn [snd] in Er.
  destruct (owner_parts SHAKE_128 16 w16 10 seed_c 0 (randomizer SHAKE_128 (key_prf seed_c) 0) m eq_refl (keyed_length _ _ _ _)) as (Q1 & _ & _); [reflexivity|].
  rewrite <- ref_sig_owner in Q1.
  exists (getPK (xf_base x)), (ref_sig SHAKE_128 w16 10 seed_c 0 m), s'.
  pose proof (rust_pk_cpp SHAKE_128 W16 w16 10 seed_c supR) as PC.
  assert (EP : getPK (xf_base x) = rust_pk SHAKE_128 w16 10 seed_c) by (rewrite Eb, PC; reflexivity).
  split; [|split].
  - eapply signed_fast with (n := 0); eauto; try reflexivity. exact supR.
  - rewrite EP. destruct K0 as (_ & _ & K0 & _). assert (EI : sig_index s' = 0%N) by (unfold sig_index; rewrite F1; reflexivity).
    change (rs_get_pk (rfa_base o) = ROk (rust_pk SHAKE_128 w16 10 seed_c)) in K0.
    generalize dependent (rust_pk SHAKE_128 w16 10 seed_c). intros pk K1 _ _.
    exact (signed_rust 1 SHAKE_128 (w_of W16) w16 seed_c 0 W16 10 o pk [OpSign m'] o' [RObsSig s'] 0 m' s' eq_refl eq_refl supR E K1 R eq_refl eq_refl EI).
  - rewrite EP, PC. rewrite (getPK_shape _ _ (cfg_of _ _ _ _ _ _ 0%N supR)). reflexivity.
Qed.
