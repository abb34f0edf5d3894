(** Verification: C26, C27, C28. *)
From Coq Require Import List NArith Arith Lia Bool.
From Verif Require Import Base Bytes Keccak HashAddress Wots XmssCommon AlgsXmss Descriptor
  SpecXmss SpecApi XmssObj XmssRefine WotsProofs TreeProofs BasicProofs FastProofs DescrProofs VerifyProofs PropObj PropKeys.
From Verif Require Export SpecTerms.
Import ListNotations.
Open Scope nat_scope.



Lemma sizes_match_dec : forall wp sig pk, {sizes_match wp sig pk} + {~ sizes_match wp sig pk}.
Proof.
  intros. unfold sizes_match. destruct (Nat.eq_dec (length pk) 67) as [E|E]; [|right; tauto].
  destruct (le_dec 4 (2 * N.to_nat (nth 1 pk 0 mod 16)%N)) as [E1|E1]; [|right; tauto].
  destruct (Nat.eq_dec (length sig) (4 + 32 + 32 * (snd (fst wp) + snd wp) + 32 * (2 * N.to_nat (nth 1 pk 0 mod 16)%N))); [left|right]; tauto.
Qed.

Lemma ref_verify_sizes : forall hf wp msg sig pk, ~ sizes_match wp sig pk -> ref_verify hf wp msg sig pk = false.
Proof.
  intros hf [[lw l1] l2] msg sig pk Hn. unfold ref_verify.
  match goal with |- ?a && ?b && ?c && ?d = false => destruct (a && b && c) eqn:E; auto end.
  apply andb_true_iff in E. destruct E as [E E3]. apply andb_true_iff in E. destruct E as [E1 E2].
  apply Nat.eqb_eq in E1. apply Nat.leb_le in E2. apply Nat.eqb_eq in E3. exfalso. apply Hn. unfold sizes_match. cbn [fst snd].
  repeat split; auto.
Qed.

(** Rejection without looking at the hash id. *)
Lemma verify_reject : forall w wp msg sig pk, winternitz w = Some wp -> all_bytes pk -> ~ sizes_match wp sig pk ->
  verify msg sig pk w = Ok false.
Proof.
  intros w wp msg sig pk Hw Hpk Hn.
  pose proof (base_size_bound w wp Hw) as HB.
  unfold verify, verify_body.
  destruct (length pk =? 67) eqn:EL; cbn [negb]; [|reflexivity].
  apply Nat.eqb_eq in EL. rewrite (sig_base_size w _ Hw). cbn [bind].
  destruct (N.of_nat (base_size wp) + 254 * 32 <? N.of_nat (length sig))%N eqn:ES; [reflexivity|]. apply N.ltb_ge in ES.
  unfold descr_fromExtendedPK. rewrite EL. cbn [Nat.eqb negb]. unfold descr_getSize.
  rewrite firstn_3 by lia. rewrite fromBytes_arith by (now apply all_bytes_nth). cbn [bind d_sig d_hash d_height].
  change (negb (0 =? 0)%N) with false. cbn iota.
  rewrite (height_from_size w _ _ Hw). unfold sizes_match in Hn. cbv zeta in Hn.
  set (hh := (nth 1 pk 0 mod 16)%N) in *. change (4 + 32 + 32 * (snd (fst wp) + snd wp)) with (base_size wp) in Hn.
  set (B := base_size wp) in *.
  destruct ((length sig <? B) || negb ((length sig - B) mod 32 =? 0)) eqn:E0; [reflexivity|].
  cbn [bind]. apply orb_false_iff in E0. destruct E0 as [E0 E0']. apply Nat.ltb_ge in E0.
  apply negb_false_iff, Nat.eqb_eq in E0'.
  set (k := (length sig - B) / 32).
  assert (Ek : length sig = B + 32 * k). { pose proof (Nat.div_mod (length sig - B) 32). unfold k. lia. }
  unfold u8. rewrite N.mod_small by lia.
  destruct ((N.of_nat k =? 0)%N || negb (2 * hh =? N.of_nat k)%N) eqn:E8; [reflexivity|].
  apply orb_false_iff in E8. destruct E8 as [E8 E9]. apply N.eqb_neq in E8. apply negb_false_iff, N.eqb_eq in E9.
  rewrite <- E9, bad_height_even. destruct (hh <=? 1)%N eqn:E10; [reflexivity|]. apply N.leb_gt in E10.
  exfalso. apply Hn. split; [exact EL|]. split; lia.
Qed.

(** ** C26 *)
Theorem C26_verify_total : forall w wp msg sig pk, winternitz w = Some wp -> all_bytes pk ->
  ((nth 0 pk 0 mod 16 < 3)%N \/ ~ sizes_match wp sig pk) ->
  exists b, verify msg sig pk w = Ok b /\ (b = true -> sizes_match wp sig pk).
Proof.
  intros w wp msg sig pk Hw Hpk HH.
  destruct (sizes_match_dec wp sig pk) as [Hs|Hs].
  - destruct HH as [HH|HH]; [|tauto].
    assert (exists hf, hash_of_id (nth 0 pk 0 mod 16)%N = Some hf) as (hf & Ehf).
    { set (x := (nth 0 pk 0 mod 16)%N) in *. clearbody x. destruct x as [|[[|[]|]|[]|]]; cbn; eauto; lia. }
    eexists. split; [apply (verify_spec w wp hf); auto|]. auto.
  - exists false. split; [now apply (verify_reject w wp)|discriminate].
Qed.

(** The answer is the specified one. *)
Theorem C26_verify_is_reference : forall w wp hf msg sig pk, winternitz w = Some wp -> all_bytes pk ->
  hash_of_id (nth 0 pk 0 mod 16)%N = Some hf -> verify msg sig pk w = Ok (ref_verify hf wp msg sig pk).
Proof. exact verify_spec. Qed.

(** ** C27: undefined behaviour happens, and exactly there. *)
Theorem C27_verify_undefined : forall w wp msg sig pk, winternitz w = Some wp -> all_bytes pk ->
  (verify msg sig pk w = UB <-> (3 <= nth 0 pk 0 mod 16)%N /\ sizes_match wp sig pk).
Proof.
  intros w wp msg sig pk Hw Hpk. split.
  - intros HU. destruct (N.lt_ge_cases (nth 0 pk 0 mod 16)%N 3) as [Hl|Hg].
    + destruct (C26_verify_total w wp msg sig pk Hw Hpk (or_introl Hl)) as (b & E & _). congruence.
    + split; auto. destruct (sizes_match_dec wp sig pk) as [Hs|Hs]; auto.
      rewrite (verify_reject w wp msg sig pk Hw Hpk Hs) in HU. discriminate.
  - intros (Hg & H1 & H2 & H3). apply (verify_bad_hash w wp); auto.
    set (x := (nth 0 pk 0 mod 16)%N) in *. clearbody x. destruct x as [|[[|[]|]|[]|]]; cbn; auto; lia.
Qed.
Example C27_reachable : exists sig pk, all_bytes pk /\ verify [1%N] sig pk 16 = UB.
Proof.
  exists (repeat 0%N (4 + 32 + 32 * 67 + 32 * 10)), (3%N :: 5%N :: repeat 0%N 65).
  assert (HB : all_bytes (3%N :: 5%N :: repeat 0%N 65)).
  { repeat constructor. }
  split; [exact HB|]. apply (C27_verify_undefined 16 w16); auto. unfold sizes_match. split; [cbn; lia|].
  split; [reflexivity|]. split; [cbn; lia|]. rewrite repeat_length. reflexivity.
Qed.
Example C26_sizes_reachable : sizes_match w16 (repeat 0%N (4 + 32 + 32 * 67 + 32 * 10)) (0%N :: 5%N :: repeat 0%N 65).
Proof. split; [reflexivity|]. split; [cbn; lia|]. rewrite repeat_length. reflexivity. Qed.

(** ** C28: ignored bits of the public key. *)
Theorem C28_verify_ignores : forall w wp msg sig b0 b0' b1 b1' b2 b2' rest, winternitz w = Some wp ->
  all_bytes (b0 :: b1 :: b2 :: rest) -> all_bytes (b0' :: b1' :: b2' :: rest) ->
  (b0 mod 16 = b0' mod 16)%N -> (b1 mod 16 = b1' mod 16)%N ->
  verify msg sig (b0 :: b1 :: b2 :: rest) w = verify msg sig (b0' :: b1' :: b2' :: rest) w.
Proof.
  intros w wp msg sig b0 b0' b1 b1' b2 b2' rest Hw HB HB' E0 E1.
  assert (Hs : sizes_match wp sig (b0 :: b1 :: b2 :: rest) <-> sizes_match wp sig (b0' :: b1' :: b2' :: rest)).
  { unfold sizes_match. cbn [nth length]. rewrite E1. tauto. }
  destruct (hash_of_id (b0 mod 16)) as [hf|] eqn:Eh.
  - rewrite !(verify_spec w wp hf) by (auto; cbn [nth]; try rewrite <- E0; auto).
    f_equal. destruct wp as [[lw l1] l2]. unfold ref_verify. cbn [nth skipn length]. rewrite E1. reflexivity.
  - assert (Hg : (3 <= b0 mod 16)%N).
    { set (x := (b0 mod 16)%N) in *. clearbody x. destruct x as [|[[|[]|]|[]|]]; cbn in Eh; try discriminate; lia. }
    destruct (sizes_match_dec wp sig (b0 :: b1 :: b2 :: rest)) as [H1|H1].
    + transitivity (@UB bool); [|symmetry]; apply (C27_verify_undefined w wp); auto; cbn [nth].
      split; [now rewrite <- E0|]. tauto.
    + rewrite !(verify_reject w wp) by (auto; tauto). reflexivity.
Qed.
Example C28_instance : all_bytes [2; 5; 0]%N /\ all_bytes [242; 245; 77]%N /\ (2 mod 16 = 242 mod 16 /\ 5 mod 16 = 245 mod 16)%N.
Proof. repeat split; repeat constructor. Qed.
