(** C34: domain separation of the hash inputs. *)
From Coq Require Import List NArith Arith Lia Bool FinFun.
From Verif Require Import Base Bytes Keccak Sha256 HashAddress Wots XmssCommon AlgsXmss SpecXmss SpecApi SpecForge SpecDomain XmssRefine PropKeys PropForge.
From Verif Require Export SpecTerms SpecTerms2.
Import ListNotations.
Open Scope nat_scope.



Lemma app_inj_len : forall (A : Type) (a b c d : list A), length a = length c -> a ++ b = c ++ d -> a = c /\ b = d.
Proof.
  induction a; intros b [|x c] d L E; cbn in *; try discriminate; auto.
  injection E as -> E. destruct (IHa b c d) as [-> ->]; auto.
Qed.

(** Every call hashes a byte string that determines the kind of call, its key and
    its input. *)
Theorem C34_hash_inputs_separated : forall hf, exists enc : call -> list N,
  (forall c, library hf c = raw hf (enc c)) /\
  (forall c d, call_ok c -> call_ok d -> enc c = enc d -> c = d).
Proof.
  intros hf.
  exists (fun c => match c with
     | CallF k x => to_byte 32 0 ++ k ++ x
     | CallH k x => to_byte 32 1 ++ k ++ x
     | CallMsg k x => to_byte 32 2 ++ k ++ x
     | CallPRF k x => to_byte 32 3 ++ k ++ x end).
  split; [destruct c; reflexivity|].
  assert (T : forall a b x y, to_byte 32 a ++ x = to_byte 32 b ++ y -> to_byte 32 a = to_byte 32 b /\ x = y).
  { intros a b x y. apply app_inj_len. now rewrite !to_byte_length. }
  intros [k x|k x|k x|k x] [k' x'|k' x'|k' x'|k' x'] Hc Hd E; apply T in E; destruct E as [E1 E2];
    try (exfalso; vm_compute in E1; congruence); cbn [call_ok] in Hc, Hd;
    apply app_inj_len in E2; try lia; destruct E2; congruence.
Qed.


(** Encoded addresses determine the address. *)
Theorem C34_addresses_injective : forall a b, words32 a -> words32 b -> addr_to_byte a = addr_to_byte b -> a = b.
Proof.
  intros [] [] (A0 & A1 & A2 & A3 & A4 & A5 & A6 & A7) (B0 & B1 & B2 & B3 & B4 & B5 & B6 & B7) E.
  unfold addr_to_byte in E. cbn in A0, A1, A2, A3, A4, A5, A6, A7, B0, B1, B2, B3, B4, B5, B6, B7.
  cbn [HashAddress.a0 HashAddress.a1 HashAddress.a2 HashAddress.a3 HashAddress.a4 HashAddress.a5 HashAddress.a6 HashAddress.a7] in E.
  do 7 (apply app_inj_len in E; [|now rewrite !to_byte_length];
    let H := fresh in destruct E as [H E]; apply (to_byte_inj 4) in H; [|assumption|assumption]).
  apply (to_byte_inj 4) in E; [|assumption|assumption]. congruence.
Qed.

Lemma adr_inj : forall t x y z m t' x' y' z' m',
  (t < 2 ^ 32 -> x < 2 ^ 32 -> y < 2 ^ 32 -> z < 2 ^ 32 -> m < 2 ^ 32 ->
  t' < 2 ^ 32 -> x' < 2 ^ 32 -> y' < 2 ^ 32 -> z' < 2 ^ 32 -> m' < 2 ^ 32 -> 
  adr t x y z m = adr t' x' y' z' m' -> t = t' /\ x = x' /\ y = y' /\ z = z' /\ m = m')%N.
Proof.
  intros. assert (G : mkAdrs 0 0 0 t x y z m = mkAdrs 0 0 0 t' x' y' z' m').
  { apply C34_addresses_injective; [repeat split; auto|repeat split; auto|].
    rewrite !addr_to_byte_adr by (repeat split). assumption. }
  injection G. auto.
Qed.

(** Different places, or different roles at one place, have different addresses. *)
Theorem C34_places_separated : forall p q m n, place_ok p -> place_ok q -> (m < 2 ^ 32)%N -> (n < 2 ^ 32)%N ->
  place_adr p m = place_adr q n -> p = q /\ m = n.
Proof.
  intros [o c i|o j i|j i] [o' c' i'|o' j' i'|j' i'] m n Hp Hq Hm Hn E; cbn [place_adr place_ok] in *; apply adr_inj in E; try tauto;
    try reflexivity; destruct E as (E0 & E1 & E2 & E3 & E4); try discriminate; split; auto; f_equal; lia.
Qed.

(** The library's keyed hashes at a place are the ones of the specification: the
    address words are set as the code sets them, and key and masks are the PRF of
    the place's addresses. *)
Definition code_adr (p : place) : adrs :=
  match p with
  | Step o c i => setHashADRS (setChainADRS (setOTSADRS (setType zero_adrs 0) (N.of_nat o)) (N.of_nat c)) (N.of_nat i)
  | LNode o j i => setTreeIndex (setTreeHeight (setLtreeADRS (setType zero_adrs 1) (N.of_nat o)) (N.of_nat j)) (N.of_nat i)
  | TNode j i => setTreeIndex (setTreeHeight (setType zero_adrs 2) (N.of_nat j)) (N.of_nat i)
  end.
Theorem C34_library_uses_place_addresses : forall hf ps p, place_ok p ->
  match p with
  | Step _ _ _ => forall x, fst (hash_f hf x ps (code_adr p)) =
      library hf (CallF (library hf (CallPRF ps (place_adr p 0))) (xor_bytes x (library hf (CallPRF ps (place_adr p 1)))))
  | _ => forall l r, fst (hash_h hf (l ++ r) ps (code_adr p)) =
      library hf (CallH (library hf (CallPRF ps (place_adr p 0)))
         (xor_bytes (l ++ r) (library hf (CallPRF ps (place_adr p 1)) ++ library hf (CallPRF ps (place_adr p 2)))))
  end.
Proof.
  intros hf ps [o c i|o j i|j i] H; cbn [place_ok] in H.
  - intros x. rewrite (hash_f_spec hf x ps _ o c i); [cbn [fst library]; rewrite !core_hash_keyed, !prf_PRF; reflexivity|].
    repeat split; cbn; rewrite ?u32_u32; reflexivity.
  - intros l r. rewrite (hash_h_spec hf l r ps _ 1 o j i); [cbn [fst library]; rewrite !core_hash_keyed, !prf_PRF; reflexivity|].
    repeat split; cbn; rewrite ?u32_u32; reflexivity.
  - intros l r. rewrite (hash_h_spec hf l r ps _ 2 0 j i); [cbn [fst library]; rewrite !core_hash_keyed, !prf_PRF; reflexivity|].
    repeat split; cbn; rewrite ?u32_u32; reflexivity.
Qed.

(** No place is visited twice when a tree is computed, so no address is used for
    two different nodes. *)
Lemma NoDup_app : forall (A : Type) (a b : list A), NoDup a -> NoDup b -> (forall x, In x a -> In x b -> False) -> NoDup (a ++ b).
Proof.
  induction a; intros b Ha Hb H; auto. inversion Ha; subst. cbn [app]. constructor.
  - rewrite in_app_iff. intros [?|?]; auto. eapply H; [left|]; eauto.
  - apply IHa; auto. intros x Hx. apply H. now right.
Qed.
Lemma NoDup_flat_map : forall (A B : Type) (f : A -> list B) l, NoDup l -> (forall a, In a l -> NoDup (f a)) ->
  (forall a b x, In a l -> In b l -> In x (f a) -> In x (f b) -> a = b) -> NoDup (flat_map f l).
Proof.
  induction l; intros Hl Hf Hd; [constructor|]. inversion Hl; subst. cbn [flat_map]. apply NoDup_app.
  - apply Hf. now left.
  - apply IHl; auto with datatypes. intros. eapply Hd; eauto with datatypes.
  - intros x Hx Hy. apply in_flat_map in Hy. destruct Hy as (b & Hb & Hxb).
    assert (a = b) by (eapply Hd; eauto with datatypes). now subst.
Qed.
Lemma NoDup_map_inj : forall (A B : Type) (f : A -> B) l, (forall a b, f a = f b -> a = b) -> NoDup l -> NoDup (map f l).
Proof. intros A B f l H N. apply FinFun.Injective_map_NoDup; auto. Qed.

Lemma lplaces_in : forall fuel o j n p, In p (lplaces fuel o j n) -> exists j' i, p = LNode o j' i /\ j <= j' < j + fuel /\ i < n.
Proof.
  induction fuel; intros o j n p H; cbn [lplaces] in H; destruct (n <=? 1) eqn:E; try (destruct H; fail).
  apply Nat.leb_gt in E. apply in_app_iff in H. destruct H as [H|H].
  - apply in_map_iff in H. destruct H as (i & <- & Hi). apply in_seq in Hi. exists j, i. split; auto. split; [lia|].
    pose proof (Nat.div_lt n 2 ltac:(lia) ltac:(lia)). lia.
  - apply IHfuel in H. destruct H as (j' & i & -> & Hj & Hi). exists j', i. split; auto. split; [lia|].
    pose proof (Nat.div_mod (n + 1) 2 ltac:(lia)). pose proof (Nat.mod_upper_bound (n + 1) 2 ltac:(lia)). lia.
Qed.
Lemma lplaces_NoDup : forall fuel o j n, NoDup (lplaces fuel o j n).
Proof.
  induction fuel; intros o j n; cbn [lplaces]; destruct (n <=? 1); try constructor.
  apply NoDup_app; auto.
  - apply NoDup_map_inj; [congruence|apply seq_NoDup].
  - intros x Hx Hy. apply in_map_iff in Hx. destruct Hx as (i & <- & _).
    apply lplaces_in in Hy. destruct Hy as (j' & i' & E & Hj & _). injection E as -> _. lia.
Qed.

Lemma tree_places_ok : forall w len h, h < 32 -> w <= 2 ^ 16 -> len <= 2 ^ 16 -> forall p, In p (tree_places w len h) -> place_ok p.
Proof.
  intros w len h Hh Hw Hlen.
  assert (P16 : (N.of_nat (2 ^ 16) = 2 ^ 16)%N) by (rewrite Nat2N.inj_pow; reflexivity).
  assert (Ph : forall k, k <= h -> (N.of_nat (2 ^ k) < 2 ^ 32)%N).
  { intros k Hk. rewrite Nat2N.inj_pow. change (N.of_nat 2) with 2%N. apply N.pow_lt_mono_r; lia. }
  intros p Hp. unfold tree_places in Hp. apply in_app_iff in Hp. destruct Hp as [Hp|Hp]; apply in_flat_map in Hp.
    - destruct Hp as (o & Ho & Hp). apply in_seq in Ho. specialize (Ph h (le_n _)).
      unfold leaf_places in Hp. apply in_app_iff in Hp. destruct Hp as [Hp|Hp].
      + apply in_flat_map in Hp. destruct Hp as (c & Hc & Hp). apply in_seq in Hc. apply in_map_iff in Hp.
        destruct Hp as (i & <- & Hi). apply in_seq in Hi. cbn [place_ok].
        assert ((N.of_nat c < N.of_nat (2 ^ 16) /\ N.of_nat i < N.of_nat (2 ^ 16))%N) by (split; lia). lia.
      + apply lplaces_in in Hp. destruct Hp as (j & i & -> & Hj & Hi). cbn [place_ok].
        assert ((N.of_nat j < N.of_nat (2 ^ 16) /\ N.of_nat i < N.of_nat (2 ^ 16))%N) by (split; lia). lia.
    - destruct Hp as (j & Hj & Hp). apply in_seq in Hj. apply in_map_iff in Hp. destruct Hp as (i & <- & Hi).
      apply in_seq in Hi. cbn [place_ok]. specialize (Ph (h - 1 - j) ltac:(lia)). lia.
Qed.
Lemma tree_places_NoDup : forall w len h, NoDup (tree_places w len h).
Proof.
  intros w len h. unfold tree_places. apply NoDup_app.
    + apply NoDup_flat_map; [apply seq_NoDup| |].
      * intros o _. unfold leaf_places. apply NoDup_app.
        -- apply NoDup_flat_map; [apply seq_NoDup| |].
           ++ intros c _. apply NoDup_map_inj; [congruence|apply seq_NoDup].
           ++ intros a b x _ _ Ha Hb. apply in_map_iff in Ha. apply in_map_iff in Hb.
              destruct Ha as (? & <- & _). destruct Hb as (? & E & _). congruence.
        -- apply lplaces_NoDup.
        -- intros x Hx Hy. apply in_flat_map in Hx. destruct Hx as (c & _ & Hx). apply in_map_iff in Hx. destruct Hx as (i & <- & _).
           apply lplaces_in in Hy. destruct Hy as (? & ? & E & _). discriminate.
      * assert (G : forall o x, In x (leaf_places w len o) -> match x with Step a _ _ | LNode a _ _ => a = o | TNode _ _ => False end).
        { intros o x Hx. unfold leaf_places in Hx. apply in_app_iff in Hx. destruct Hx as [Hx|Hx].
          - apply in_flat_map in Hx. destruct Hx as (c & _ & Hx). apply in_map_iff in Hx. destruct Hx as (i & <- & _). reflexivity.
          - apply lplaces_in in Hx. destruct Hx as (? & ? & -> & _). reflexivity. }
        intros a b x _ _ Ha Hb. apply G in Ha. apply G in Hb. destruct x; [congruence|congruence|tauto].
    + apply NoDup_flat_map; [apply seq_NoDup| |].
      * intros j _. apply NoDup_map_inj; [congruence|apply seq_NoDup].
      * intros a b x _ _ Ha Hb. apply in_map_iff in Ha. apply in_map_iff in Hb.
        destruct Ha as (? & <- & _). destruct Hb as (? & E & _). congruence.
    + intros x Hx Hy. apply in_flat_map in Hy. destruct Hy as (j & _ & Hy). apply in_map_iff in Hy. destruct Hy as (i & <- & _).
      apply in_flat_map in Hx. destruct Hx as (o & _ & Hx). unfold leaf_places in Hx. apply in_app_iff in Hx. destruct Hx as [Hx|Hx].
      * apply in_flat_map in Hx. destruct Hx as (c & _ & Hx). apply in_map_iff in Hx. destruct Hx as (? & E & _). discriminate.
      * apply lplaces_in in Hx. destruct Hx as (? & ? & E & _). discriminate.
Qed.

Theorem C34_tree_addresses_unique : forall w len h, h < 32 -> w <= 2 ^ 16 -> len <= 2 ^ 16 ->
  NoDup (flat_map (fun p => match p with Step _ _ _ => [place_adr p 0; place_adr p 1]
                            | _ => [place_adr p 0; place_adr p 1; place_adr p 2] end) (tree_places w len h)).
Proof.
  intros w len h Hh Hw Hlen. pose proof (tree_places_ok w len h Hh Hw Hlen) as Ok. apply NoDup_flat_map.
  - apply tree_places_NoDup.
  - intros p Hp. apply Ok in Hp.
    assert (D : forall m n, (m < 2 ^ 32)%N -> (n < 2 ^ 32)%N -> m <> n -> place_adr p m <> place_adr p n).
    { intros m n Hm Hn Hne E. apply C34_places_separated in E; tauto. }
    destruct p; repeat constructor; cbn [In]; intuition (eapply D; [| | |eassumption]; [reflexivity|reflexivity|discriminate]).
  - intros p q x Hp Hq Hx Hy. apply Ok in Hp. apply Ok in Hq.
    assert (G : forall p, In x (match p with Step _ _ _ => [place_adr p 0; place_adr p 1]
                            | _ => [place_adr p 0; place_adr p 1; place_adr p 2] end) -> exists m, (m < 2 ^ 32)%N /\ x = place_adr p m).
    { intros [] Hi; cbn [In] in Hi; destruct Hi as [<-|[<-|Hi]]; try (eexists; split; [|reflexivity]; reflexivity);
        try (destruct Hi as [<-|[]]; eexists; split; [|reflexivity]; reflexivity); destruct Hi. }
    apply G in Hx. apply G in Hy. destruct Hx as (m & Hm & ->). destruct Hy as (n & Hn & E).
    apply C34_places_separated in E; tauto.
Qed.

(** The hypotheses are met by every parameter set the library accepts (w = 16,
    len = 67) and the lists are not empty. *)
Example C34_case : length (tree_places 16 67 1) = 2 * (67 * 15 + 66) + 1 /\ In (TNode 0 0) (tree_places 16 67 1).
Proof. split; [vm_compute; reflexivity|]. unfold tree_places. apply in_app_iff. right. cbn. auto. Qed.
