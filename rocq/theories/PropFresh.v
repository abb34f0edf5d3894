(** C104: within one computation no hash key and no mask is used twice. *)
From Coq Require Import List NArith Arith Lia Bool FinFun Permutation.
From Verif Require Import Base Bytes HashAddress Wots XmssCommon AlgsXmss AlgsXmssFast Descriptor XmssObj Trace VerifyTrace SpecXmss SpecApi SpecDomain SpecTweak SpecPlace SpecFresh XmssRefine WotsProofs TreeProofs BasicProofs FastProofs PropObj PropVerify PropDomain PropTweak PropForge2 TraceVerify CasesXmss.
Import ListNotations.
Open Scope nat_scope.

Definition place_adrs (p : place) : list (list N) :=
  match p with Step _ _ _ => [place_adr p 0; place_adr p 1] | _ => [place_adr p 0; place_adr p 1; place_adr p 2] end.

Lemma with_mask_place : forall p m n, with_mask (place_adr p m) n = place_adr p n.
Proof.
  intros p m n. unfold with_mask.
  assert (G : forall t x y z a b, firstn 28 (adr t x y z a) ++ to_byte 4 b = adr t x y z b).
  { intros. unfold adr. cbn [map concat]. rewrite app_nil_r, !app_assoc. rewrite firstn_app. rewrite !app_length, !to_byte_length.
    cbn [Nat.add Nat.sub]. rewrite firstn_all2 by (rewrite !app_length, !to_byte_length; cbn; lia). cbn [firstn].
    rewrite !app_nil_r, <- !app_assoc. reflexivity. }
  destruct p; apply G.
Qed.

Lemma in_place_adrs : forall p x, In x (place_adrs p) -> exists m, (m < 2 ^ 32)%N /\ x = place_adr p m.
Proof.
  intros [] x Hi; cbn [place_adrs In] in Hi; destruct Hi as [<-|[<-|Hi]]; try (eexists; split; [|reflexivity]; reflexivity);
    try (destruct Hi as [<-|[]]; eexists; split; [|reflexivity]; reflexivity); destruct Hi.
Qed.

Lemma place_adrs_NoDup : forall ps, (forall p, In p ps -> place_ok p) -> NoDup ps -> NoDup (flat_map place_adrs ps).
Proof.
  intros ps Ok ND. apply NoDup_flat_map; auto.
  - intros p Hp. apply Ok in Hp.
    assert (D : forall m n, (m < 2 ^ 32)%N -> (n < 2 ^ 32)%N -> m <> n -> place_adr p m <> place_adr p n).
    { intros m n Hm Hn Hne E. apply C34_places_separated in E; tauto. }
    destruct p; repeat constructor; cbn [In]; intuition (eapply D; [| | |eassumption]; [reflexivity|reflexivity|discriminate]).
  - intros p q x Hp Hq Hx Hy. apply Ok in Hp. apply Ok in Hq.
    apply in_place_adrs in Hx. apply in_place_adrs in Hy. destruct Hx as (m & Hm & ->). destruct Hy as (n & Hn & E).
    apply C34_places_separated in E; tauto.
Qed.

(** A call at a place. *)
Definition at_place (e : hcall) (p : place) : Prop :=
  match p, e with
  | Step _ _ _, EvF a _ => a = place_adr p 0
  | LNode _ _ _, EvH a _ | TNode _ _, EvH a _ => a = place_adr p 0
  | _, _ => False
  end.
Lemma at_place_adrs : forall es ps, Forall2 at_place es ps -> flat_map prf_adrs es = flat_map place_adrs ps.
Proof.
  induction 1 as [|e p es ps H _ IH]; [reflexivity|]. cbn [flat_map]. rewrite IH. f_equal.
  destruct p, e; cbn [at_place] in H; try contradiction; subst; cbn [prf_adrs place_adrs]; now rewrite !with_mask_place.
Qed.

Lemma Forall2_map_both : forall (A B C : Type) (R : B -> C -> Prop) (f : A -> B) (g : A -> C) l,
  (forall a, In a l -> R (f a) (g a)) -> Forall2 R (map f l) (map g l).
Proof. induction l; intros H; cbn [map]; constructor; auto with datatypes. Qed.
Lemma Forall2_flat_both : forall (A B C : Type) (R : B -> C -> Prop) (f : A -> list B) (g : A -> list C) l,
  (forall a, In a l -> Forall2 R (f a) (g a)) -> Forall2 R (flat_map f l) (flat_map g l).
Proof. induction l; intros H; cbn [flat_map]; [constructor|]. apply Forall2_app; auto with datatypes. Qed.

(** The places of the calls of a verification. *)
Definition chain_places (w o n : nat) (ds : list N) : list place :=
  flat_map (fun c => map (fun k => Step o c (N.to_nat (nth c ds 0%N) + k)) (seq 0 (w - 1 - N.to_nat (nth c ds 0%N)))) (seq 0 n).
Fixpoint path_places (j i n : nat) {struct n} : list place :=
  match n with O => [] | S n' => TNode j (i / 2) :: path_places (S j) (i / 2) n' end.
Definition sig_places (w o n h : nat) (ds : list N) : list place :=
  chain_places w o n ds ++ lplaces n o 0 n ++ path_places 0 o h.

Lemma ltree_at : forall hf ps fuel o j l, Forall2 at_place (ltree_calls hf ps fuel o j l) (lplaces fuel o j (length l)).
Proof.
  intros hf ps. fix IH 1. intros [|fuel] o j l; cbn [ltree_calls lplaces].
  - destruct (length l <=? 1); constructor.
  - destruct (length l <=? 1); [constructor|]. apply Forall2_app.
    + apply Forall2_map_both. intros. reflexivity.
    + rewrite <- (l_level_length hf ps o j l 0). apply IH.
Qed.
Lemma path_at : forall hf ps path j i cur, Forall2 at_place (path_calls hf ps j i cur path) (path_places j i (length path)).
Proof.
  intros hf ps. induction path as [|a t IH]; intros j i cur; cbn [path_calls path_places length]; [constructor|].
  constructor; [reflexivity|apply IH].
Qed.
Lemma sig_at : forall hf ps w o ds sig path,
  Forall2 at_place (sig_calls hf ps w o ds sig path) (sig_places w o (length sig) (length path) ds).
Proof.
  intros. unfold sig_calls, sig_places. cbv zeta. apply Forall2_app; [|apply Forall2_app].
  - unfold chain_calls, chain_places. apply Forall2_flat_both. intros c _. cbv zeta. apply Forall2_map_both. intros. reflexivity.
  - assert (L : length (pk_of_sig hf w ps o ds sig) = length sig) by (unfold pk_of_sig; now rewrite map_length, seq_length).
    rewrite <- L. apply ltree_at.
  - apply path_at.
Qed.

Lemma path_places_in : forall n j i p, In p (path_places j i n) -> exists j' i', p = TNode j' i' /\ j <= j' < j + n /\ i' <= i.
Proof.
  induction n; intros j i p H; cbn [path_places] in H; [destruct H|]. destruct H as [<-|H].
  - exists j, (i / 2). split; auto. split; [lia|]. apply Nat.div_le_upper_bound; lia.
  - apply IHn in H. destruct H as (j' & i' & -> & Hj & Hi). exists j', i'. split; auto. split; [lia|].
    etransitivity; [exact Hi|]. apply Nat.div_le_upper_bound; lia.
Qed.
Lemma sig_places_NoDup : forall w o n h ds, NoDup (sig_places w o n h ds).
Proof.
  intros. unfold sig_places. apply NoDup_app; [|apply NoDup_app|].
  - unfold chain_places. apply NoDup_flat_map; [apply seq_NoDup| |].
    + intros c _. apply NoDup_map_inj; [intros a b E; injection E; lia|apply seq_NoDup].
    + intros a b x _ _ Ha Hb. apply in_map_iff in Ha. apply in_map_iff in Hb. destruct Ha as (? & <- & _). destruct Hb as (? & E & _). congruence.
  - apply lplaces_NoDup.
  - generalize 0. intros j. revert j o. induction h; intros j o; cbn [path_places]; constructor; auto.
    intros H. apply path_places_in in H. destruct H as (j' & i' & E & Hj & _). injection E as -> _. lia.
  - intros x Hx Hy. apply lplaces_in in Hx. apply path_places_in in Hy. destruct Hx as (? & ? & -> & _). destruct Hy as (? & ? & E & _). discriminate.
  - intros x Hx Hy. unfold chain_places in Hx. apply in_flat_map in Hx. destruct Hx as (c & _ & Hx). apply in_map_iff in Hx. destruct Hx as (? & <- & _).
    apply in_app_iff in Hy. destruct Hy as [Hy|Hy]; [apply lplaces_in in Hy|apply path_places_in in Hy]; destruct Hy as (? & ? & E & _); discriminate.
Qed.
Lemma sig_places_ok : forall w o n h ds, (N.of_nat o < 2 ^ 32)%N -> w <= 2 ^ 16 -> n <= 2 ^ 16 -> h <= 32 ->
  forall p, In p (sig_places w o n h ds) -> place_ok p.
Proof.
  intros w o n h ds Ho Hw Hn Hh p Hp.
  assert (P16 : (N.of_nat (2 ^ 16) = 2 ^ 16)%N) by (rewrite Nat2N.inj_pow; reflexivity).
  assert (B : forall x, x < 2 ^ 16 -> (N.of_nat x < 2 ^ 32)%N).
  { intros x Hx. assert (N.of_nat x < N.of_nat (2 ^ 16))%N by lia. rewrite P16 in H. assert (2 ^ 16 < 2 ^ 32)%N by reflexivity. lia. }
  unfold sig_places in Hp. apply in_app_iff in Hp. destruct Hp as [Hp|Hp]; [|apply in_app_iff in Hp; destruct Hp as [Hp|Hp]].
  - unfold chain_places in Hp. apply in_flat_map in Hp. destruct Hp as (c & Hc & Hp). apply in_seq in Hc. apply in_map_iff in Hp.
    destruct Hp as (k & <- & Hk). apply in_seq in Hk. cbn [place_ok]. repeat split; [exact Ho|apply B; lia|apply B; lia].
  - apply lplaces_in in Hp. destruct Hp as (j & i & -> & Hj & Hi). cbn [place_ok]. repeat split; [exact Ho|apply B; lia|apply B; lia].
  - apply path_places_in in Hp. destruct Hp as (j & i & -> & Hj & Hi). cbn [place_ok]. split; [|lia].
    apply B. cbn [Nat.add] in Hj. assert (32 < 2 ^ 16) by (apply Nat.ltb_lt; vm_compute; reflexivity). lia.
Qed.

Lemma tweaks_perm_adrs : forall hf wp seed es pls, Permutation es (map (key_call hf wp seed) pls) ->
  Permutation (flat_map prf_adrs es) (flat_map place_adrs pls).
Proof.
  intros hf wp seed es pls HP. eapply Permutation_trans; [apply Permutation_flat_map, HP|].
  rewrite (at_place_adrs (map (key_call hf wp seed) pls) pls); [apply Permutation_refl|].
  clear HP. induction pls as [|p t IH]; cbn [map]; constructor; [|exact IH]. destruct p; reflexivity.
Qed.

(** The key and the masks of a call are the PRF of exactly those inputs: two public seeds
    whose PRF values agree on them give the call the same value. *)
Theorem C104_value_uses_these_inputs : forall hf ps1 ps2 e, e = EvF (call_adr e) (call_data e) \/ e = EvH (call_adr e) (call_data e) ->
  map (PRF hf ps1) (prf_adrs e) = map (PRF hf ps2) (prf_adrs e) -> call_value hf ps1 e = call_value hf ps2 e.
Proof.
  intros hf ps1 ps2 e [E|E] H; rewrite E in *; cbn [call_value prf_adrs map call_adr call_data] in *.
  - apply (f_equal (fun l => (nth 0 l [], nth 1 l []))) in H. apply pair_equal_spec in H. cbn [nth] in H. destruct H as (-> & ->). reflexivity.
  - apply (f_equal (fun l => (nth 0 l [], (nth 1 l [], nth 2 l [])))) in H. apply pair_equal_spec in H. cbn [nth] in H. destruct H as (-> & H).
    apply pair_equal_spec in H. destruct H as (-> & ->). reflexivity.
Qed.

(** Key generation, by either object: no PRF input occurs twice. *)
Theorem C104_key_generation_inputs_distinct : forall junk seed height hash hf fmt w wp, supported hash hf w wp height seed ->
  (exists o log, XmssBasic_new_t junk seed (N.of_nat height) hash fmt w = Ok (o, log) /\ NoDup (flat_map prf_adrs (tweaks log))) /\
  (w = 16%N -> exists o log, XmssFast_new_t junk seed (N.of_nat height) hash fmt = Ok (o, log) /\ NoDup (flat_map prf_adrs (tweaks log))).
Proof.
  intros junk seed height hash hf fmt w wp HS.
  assert (HK : NoDup (flat_map place_adrs (key_places wp height))).
  { apply place_adrs_NoDup; [apply (key_places_ok w); apply HS|apply tree_places_NoDup]. }
  split.
  - destruct (C89_basic_calls_are_tree_calls junk seed height hash hf fmt w wp HS) as (o & l & E & HP & _). exists o, l. split; [exact E|].
    eapply Permutation_NoDup; [apply Permutation_sym; eapply tweaks_perm_adrs; exact HP|exact HK].
  - intros ->. assert (Ew : wp = w16) by (destruct HS as (_ & Hw & _); change (Some w16 = Some wp) in Hw; congruence). subst wp.
    destruct (C89_fast_calls_are_tree_calls junk seed height hash hf fmt HS) as (o & l & E & HP & _). exists o, l. split; [exact E|].
    eapply Permutation_NoDup; [apply Permutation_sym; eapply tweaks_perm_adrs; exact HP|exact HK].
Qed.

Lemma cells_len : forall k l, length (cells k l) = k.
Proof. induction k; intros; cbn [cells length]; auto. Qed.

Lemma index_small : forall sig, all_bytes sig -> (N.of_nat (N.to_nat (from_be (firstn 4 sig))) < 2 ^ 32)%N.
Proof.
  intros sig HB. rewrite N2Nat.id. change (2 ^ 32)%N with (256 ^ N.of_nat 4)%N.
  eapply N.lt_le_trans; [apply from_be_bound|].
  - unfold all_bytes in *. rewrite Forall_forall in *. intros x Hx. apply HB. rewrite <- (firstn_skipn 4 sig). apply in_or_app. now left.
  - apply N.pow_le_mono_r; [lia|]. pose proof (firstn_le_length 4 sig). lia.
Qed.

(** Any verification, of any signature bytes and whatever index they claim, accepted or not. *)
Theorem C104_verification_inputs_distinct : forall w wp hf msg sig pk, winternitz w = Some wp -> all_bytes pk -> length pk = 67 ->
  hash_of_id (nth 0 pk 0 mod 16)%N = Some hf ->
  let h := 2 * N.to_nat (nth 1 pk 0 mod 16)%N in
  4 <= h -> all_bytes sig -> length sig = 36 + 32 * (snd (fst wp) + snd wp) + 32 * h ->
  exists b l, verify_t msg sig pk w = Ok (b, l) /\ NoDup (flat_map prf_adrs (tweaks l)).
Proof.
  intros w wp hf msg sig pk Hw Hpk EL Hhf h Hh HBs Hs.
  destruct (C90_verification_calls w wp hf msg sig pk Hw Hpk EL Hhf Hh Hs) as (b & l & E & _ & Et).
  exists b, l. split; [exact E|]. rewrite Et. rewrite (at_place_adrs _ _ (sig_at _ _ _ _ _ _ _)).
  apply place_adrs_NoDup; [|apply sig_places_NoDup]. rewrite !cells_len.
  assert (Hhh : (nth 1 pk 0 mod 16 < 16)%N) by (apply N.mod_upper_bound; lia).
  apply sig_places_ok; [now apply index_small| | |lia];
    apply winternitz_cases in Hw; destruct Hw as [(_ & ->)|[(_ & ->)|[(_ & ->)|(_ & ->)]]]; apply Nat.leb_le; vm_compute; reflexivity.
Qed.

Example C104_case : supported 2 SHAKE_256 16 w16 10 seed_c /\ length (key_places w16 4) = 16 * (67 * 15 + 66) + 15 /\
  (let pk := [2; 5; 0]%N ++ repeat 7%N 64 in
   all_bytes pk /\ length pk = 67 /\ hash_of_id (nth 0 pk 0 mod 16)%N = Some SHAKE_256 /\ all_bytes (repeat 9%N 2500) /\
   length (repeat 9%N 2500) = 36 + 32 * (snd (fst w16) + snd w16) + 32 * (2 * N.to_nat (nth 1 pk 0 mod 16)%N)).
Proof.
  split; [exact sup16|]. split; [vm_compute; reflexivity|]. cbv zeta. split; [repeat constructor|]. split; [reflexivity|]. split; [reflexivity|].
  split; [|rewrite repeat_length; reflexivity]. unfold all_bytes. apply Forall_forall. intros x Hx. apply repeat_spec in Hx. subst. reflexivity.
Qed.
