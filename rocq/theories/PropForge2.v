(** C90: what an accepted signature that the owner did not make has to hit. *)
From Coq Require Import List NArith Arith Lia Bool Permutation.
From Verif Require Import Base Bytes Keccak KeccakLemmas Sha256 HashAddress Wots XmssCommon AlgsXmss AlgsXmssFast Descriptor
  SpecXmss SpecApi SpecDomain SpecForge SpecTweak SpecPlace XmssObj XmssRefine WotsProofs TreeProofs BasicProofs FastProofs
  VerifyProofs PropObj PropKeys PropWots PropVerify PropDomain Trace TraceErase TraceProofs VerifyTrace TraceVerify PropForge PropTweak CasesXmss.
From Verif Require Export SpecTerms SpecTerms2.
Import ListNotations.
Open Scope nat_scope.

(** ** Values of calls *)
Lemma adr_length : forall t a b c m, length (adr t a b c m) = 32.
Proof. intros. unfold adr. cbn [map concat]. rewrite !app_length, !to_byte_length. reflexivity. Qed.
Lemma with_mask_adr : forall t a b c m m', with_mask (adr t a b c m) m' = adr t a b c m'.
Proof.
  intros. unfold with_mask, adr. cbn [map concat]. rewrite !app_nil_r, !app_assoc. rewrite (firstn_app_exact _ 28).
  - reflexivity. - rewrite !app_length, !to_byte_length. reflexivity.
Qed.
Lemma value_F : forall hf ps o c i x, call_value hf ps (EvF (place_adr (Step o c i) 0) x) = raw hf (F_input hf ps o c i x).
Proof. intros. cbn [call_value place_adr]. rewrite !with_mask_adr. reflexivity. Qed.
Lemma value_L : forall hf ps o j i l r, call_value hf ps (EvH (place_adr (LNode o j i) 0) (l ++ r)) = raw hf (H_input hf ps 1 o j i l r).
Proof. intros. cbn [call_value place_adr]. rewrite !with_mask_adr. reflexivity. Qed.
Lemma value_T : forall hf ps j i l r, call_value hf ps (EvH (place_adr (TNode j i) 0) (l ++ r)) = raw hf (H_input hf ps 2 0 j i l r).
Proof. intros. cbn [call_value place_adr]. rewrite !with_mask_adr. reflexivity. Qed.

(** ** Where the extracted pair comes from *)
Lemma chain_loc : forall hf ps o c st n x y xy, chain_collision hf ps o c st n x y = Some xy ->
  exists k, k < n /\ xy = (F_input hf ps o c (st + k) (chain hf ps o c st k x), F_input hf ps o c (st + k) (chain hf ps o c st k y)).
Proof.
  induction n as [|n IH]; intros x y xy E; cbn [chain_collision] in E; [discriminate|].
  destruct (bytes_eqb _ _).
  - destruct (IH x y xy E) as (k & Hk & Ek). exists k. split; [lia|exact Ek].
  - exists n. split; [lia|]. congruence.
Qed.

Lemma level_loc : forall hf ps o j l l' i xy, length l = length l' -> level_collision hf ps o j i l l' = Some xy ->
  exists k, k < length l / 2 /\ xy = (H_input hf ps 1 o j (i + k) (nth (2 * k) l []) (nth (2 * k + 1) l []),
                                   H_input hf ps 1 o j (i + k) (nth (2 * k) l' []) (nth (2 * k + 1) l' [])).
Proof.
  intros hf ps o j. fix IH 1. intros [|a [|b t]] l' i xy HL E; try discriminate.
  destruct l' as [|a' [|b' t']]; try discriminate. cbn [level_collision] in E.
  assert (D : length (a :: b :: t) / 2 = S (length t / 2)).
  { cbn [length]. replace (S (S (length t))) with (length t + 1 * 2) by lia. rewrite Nat.div_add by lia. lia. }
  destruct (_ && _).
  - exists 0. rewrite D. split; [lia|]. rewrite Nat.add_0_r. cbn [Nat.mul Nat.add nth]. congruence.
  - cbn [length] in HL. destruct (IH t t' (S i) xy ltac:(lia) E) as (k & Hk & Ek). exists (S k). rewrite D. split; [lia|].
    rewrite Ek. replace (2 * S k) with (S (S (2 * k))) by lia. replace (S (S (2 * k)) + 1) with (S (S (2 * k + 1))) by lia.
    cbn [nth]. replace (i + S k) with (S i + k) by lia. reflexivity.
Qed.

Lemma ltree_loc : forall hf w len ss ps o fuel j l xy, length l = length (l_row hf w len ss ps o j) ->
  ltree_collision hf ps fuel o j l (l_row hf w len ss ps o j) = Some xy ->
  exists j' i' l', In (LNode o j' i') (lplaces fuel o j (length l)) /\
    In (EvH (place_adr (LNode o j' i') 0) (nth (2 * i') l' [] ++ nth (2 * i' + 1) l' [])) (ltree_calls hf ps fuel o j l) /\
    length l' = length (l_row hf w len ss ps o j') /\
    (cells32 l -> cells32 l') /\ i' < length l' / 2 /\
    xy = (H_input hf ps 1 o j' i' (nth (2 * i') l' []) (nth (2 * i' + 1) l' []),
          H_input hf ps 1 o j' i' (nth (2 * i') (l_row hf w len ss ps o j') []) (nth (2 * i' + 1) (l_row hf w len ss ps o j') [])).
Proof.
  intros hf w len ss ps o. induction fuel as [|f IH]; intros j l xy HL E; cbn [ltree_collision] in E; [discriminate|].
  destruct (level_collision hf ps o j 0 l (l_row hf w len ss ps o j)) as [xy'|] eqn:E1; cbn [orelse] in E.
  - injection E as ->. destruct (level_loc hf ps o j l _ 0 xy HL E1) as (k & Hk & ->). cbn [Nat.add].
    exists j, k, l. assert (2 <= length l). { pose proof (Nat.div_mod (length l) 2). lia. }
    split; [|split; [|repeat split; auto]].
    + cbn [lplaces]. rewrite (proj2 (Nat.leb_gt _ _)) by lia. apply in_app_iff. left. apply in_map. apply in_seq. lia.
    + cbn [ltree_calls]. rewrite (proj2 (Nat.leb_gt _ _)) by lia. apply in_app_iff. left.
      apply (in_map (fun k => EvH (place_adr (LNode o j k) 0) (nth (2 * k) l [] ++ nth (2 * k + 1) l []))). apply in_seq. lia.
  - destruct (length l <=? 1) eqn:E2.
    { exfalso. apply Nat.leb_le in E2. assert (HN : forall f j l l', length l <= 1 -> ltree_collision hf ps f o j l l' = None).
      { clear. induction f as [|f IH]; intros j [|a [|b t]] l' HL; cbn [length] in HL; try lia; cbn [ltree_collision level_collision orelse l_level]; auto;
          apply IH; cbn [length]; lia. }
      change (l_level hf ps o j 0 (l_row hf w len ss ps o j)) with (l_row hf w len ss ps o (S j)) in E.
      rewrite HN in E; [discriminate|]. rewrite l_level_length. pose proof (Nat.div_mod (length l + 1) 2). lia. }
    change (l_level hf ps o j 0 (l_row hf w len ss ps o j)) with (l_row hf w len ss ps o (S j)) in E.
    destruct (IH (S j) (l_level hf ps o j 0 l) xy) as (j' & i' & l' & Hin & Hcl & HL' & HC & Hi & ->); auto.
    { cbn [l_row]. now rewrite !l_level_length, HL. }
    exists j', i', l'. split; [|split; [|split; [exact HL'|split; [|split; [exact Hi|reflexivity]]]]].
    + cbn [lplaces]. rewrite E2. apply in_app_iff. right. rewrite l_level_length in Hin. exact Hin.
    + cbn [ltree_calls]. rewrite E2. apply in_app_iff. now right.
    + intros HF. apply HC. now apply l_level_cells.
Qed.

Lemma path_loc : forall hf ps nd path j i cur xy, length cur = 32 -> cells32 path ->
  path_collision hf ps nd j i cur path = Some xy ->
  exists k l r, k < length path /\ length l = 32 /\ length r = 32 /\
    let i' := i / 2 ^ S k in
    In (EvH (place_adr (TNode (j + k) i') 0) (l ++ r)) (path_calls hf ps j i cur path) /\
    xy = (H_input hf ps 2 0 (j + k) i' l r, H_input hf ps 2 0 (j + k) i' (nd (j + k) (2 * i')) (nd (j + k) (2 * i' + 1))).
Proof.
  intros hf ps nd. induction path as [|a t IH]; intros j i cur xy Lc HF E; cbn [path_collision] in E; [discriminate|].
  inversion HF as [|? ? La HF']; subst.
  set (l := if Nat.odd i then a else cur) in *. set (r := if Nat.odd i then cur else a) in *.
  assert (Ll : length l = 32) by (unfold l; destruct (Nat.odd i); auto).
  assert (Lr : length r = 32) by (unfold r; destruct (Nat.odd i); auto).
  destruct (_ && _).
  - exists 0, l, r. cbn [length]. split; [lia|]. split; auto. split; auto. cbv zeta. rewrite Nat.add_0_r. change (2 ^ 1) with 2.
    split; [left; reflexivity|congruence].
  - destruct (IH (S j) (i / 2) _ xy (rand_hash_length _ _ _ _ _ _ _ _) HF' E) as (k & l1 & r1 & Hk & L1 & L2 & Hin & ->).
    exists (S k), l1, r1. cbn [length]. split; [lia|]. split; auto. split; auto. cbv zeta.
    assert (Ed : i / 2 / 2 ^ S k = i / 2 ^ S (S k)) by (rewrite Nat.div_div; [reflexivity|lia|apply Nat.pow_nonzero; lia]).
    rewrite Ed in Hin |- *. replace (S j + k) with (j + S k) in * by lia. split; [right; exact Hin|reflexivity].
Qed.

Lemma first_some_loc : forall A (f : nat -> option A) l x, first_some (map f l) = Some x -> exists c, In c l /\ f c = Some x.
Proof.
  induction l as [|c l IH]; intros x E; cbn [map first_some] in E; [discriminate|].
  destruct (f c) as [y|] eqn:Ef; cbn [orelse] in E.
  - exists c. split; [now left|]. congruence.
  - destruct (IH x E) as (c' & Hc & Hf). exists c'. split; [now right|exact Hf].
Qed.

(** ** The places *)
Lemma in_Step : forall w len h o c i, o < 2 ^ h -> c < len -> i < w - 1 -> In (Step o c i) (tree_places w len h).
Proof.
  intros w len h o c i Ho Hc Hi. unfold tree_places, leaf_places. apply in_app_iff. left. apply in_flat_map.
  exists o. split; [apply in_seq; lia|]. apply in_app_iff. left. apply in_flat_map. exists c. split; [apply in_seq; lia|].
  apply in_map. apply in_seq. lia.
Qed.
Lemma in_LNode : forall w len h o j i, o < 2 ^ h -> In (LNode o j i) (lplaces len o 0 len) -> In (LNode o j i) (tree_places w len h).
Proof.
  intros w len h o j i Ho Hin. unfold tree_places, leaf_places. apply in_app_iff. left. apply in_flat_map.
  exists o. split; [apply in_seq; lia|]. apply in_app_iff. now right.
Qed.
Lemma in_TNode : forall w len h j i, j < h -> i < 2 ^ (h - 1 - j) -> In (TNode j i) (tree_places w len h).
Proof.
  intros w len h j i Hj Hi. unfold tree_places. apply in_app_iff. right. apply in_flat_map.
  exists j. split; [apply in_seq; lia|]. apply in_map. apply in_seq. lia.
Qed.
Lemma TNode_in : forall w len h j i, In (TNode j i) (tree_places w len h) -> i < 2 ^ (h - 1 - j).
Proof.
  intros w len h j i Hin. unfold tree_places in Hin. apply in_app_iff in Hin. destruct Hin as [Hin|Hin]; apply in_flat_map in Hin; destruct Hin as (o & Ho & Hin).
  - exfalso. unfold leaf_places in Hin. apply in_app_iff in Hin. destruct Hin as [Hin|Hin].
    + apply in_flat_map in Hin. destruct Hin as (c & _ & Hin). apply in_map_iff in Hin. destruct Hin as (x & Ex & _). discriminate.
    + assert (HN : forall f o j' n, ~ In (TNode j i) (lplaces f o j' n)).
      { clear. induction f as [|f IH]; intros o j' n Hin; cbn [lplaces] in Hin; destruct (n <=? 1); try contradiction.
        apply in_app_iff in Hin. destruct Hin as [Hin|Hin]; [|now apply (IH _ _ _ Hin)].
        apply in_map_iff in Hin. destruct Hin as (x & Ex & _). discriminate. }
      now apply (HN _ _ _ _ Hin).
  - apply in_map_iff in Hin. destruct Hin as (x & Ex & Hx). injection Ex as -> ->. apply in_seq in Hx. lia.
Qed.
Lemma l_row_cells : forall hf w len ss ps o j, cells32 (l_row hf w len ss ps o j).
Proof. induction j as [|j IH]; cbn [l_row]; [apply ots_pk_cells|now apply l_level_cells]. Qed.

Lemma app_eq_32 : forall l r l' r' : list N, length l = 32 -> length l' = 32 -> l ++ r = l' ++ r' -> l = l' /\ r = r'.
Proof.
  intros l r l' r' L1 L2 E. split.
  - apply (f_equal (firstn 32)) in E. now rewrite !(firstn_app_exact _ 32) in E by auto.
  - apply (f_equal (skipn 32)) in E. now rewrite !(skipn_app_exact _ 32) in E by auto.
Qed.

Lemma path_calls_app : forall hf ps p1 a j i cur,
  path_calls hf ps j i cur (p1 ++ [a]) =
  path_calls hf ps j i cur p1 ++
  (let k := j + length p1 in let top := i / 2 ^ length p1 in let cur' := climb hf ps j i cur p1 in
   [EvH (place_adr (TNode k (top / 2)) 0) ((if Nat.odd top then a else cur') ++ (if Nat.odd top then cur' else a))]).
Proof.
  induction p1 as [|x p1 IH]; intros a j i cur.
  - cbn [app path_calls climb length]. rewrite Nat.add_0_r. change (2 ^ 0) with 1. rewrite Nat.div_1_r. reflexivity.
  - cbn [app path_calls climb length]. rewrite IH. cbv zeta. replace (S j + length p1) with (j + S (length p1)) by lia.
    assert (Ed : i / 2 / 2 ^ length p1 = i / 2 ^ S (length p1)) by (rewrite Nat.div_div; [reflexivity|lia|apply Nat.pow_nonzero; lia]).
    rewrite Ed. destruct (Nat.odd i); reflexivity.
Qed.
Lemma climb_length : forall hf ps p j i cur, length cur = 32 -> length (climb hf ps j i cur p) = 32.
Proof.
  induction p as [|a t IH]; intros j i cur L; cbn [climb]; [exact L|]. apply IH. destruct (Nat.odd i); apply rand_hash_length.
Qed.

Section Loc.
  Variables (hf : hashfn) (w : N) (wp : nat * nat * nat) (h : nat) (seed : list N).
  Hypothesis Hw : winternitz w = Some wp.
  Local Notation W := (2 ^ fst (fst wp)).
  Local Notation len := (snd (fst wp) + snd wp).
  Local Notation ps := (key_pub seed).
  Local Notation calls msg sig := (sig_calls hf ps W (N.to_nat (sig_index sig)) (sig_digits hf wp h seed msg sig) (sig_wots wp sig) (sig_path wp h sig)).

  Lemma len_pos : 1 <= len.
  Proof. apply winternitz_cases in Hw. destruct Hw as [(_ & ->)|[(_ & ->)|[(_ & ->)|(_ & ->)]]]; cbn [fst snd]; lia. Qed.

  (** Each collision found in the signature of an index of the tree is a second preimage for
      a call of the tree, made by the verifier. *)
  Lemma extract_call : forall msg sig xy, 36 + 32 * len + 32 * h <= length sig -> N.to_nat (sig_index sig) < 2 ^ h ->
    extract hf wp h seed msg sig = Some xy -> collision hf xy ->
    exists pl e, In pl (key_places wp h) /\ In e (calls msg sig) /\ second_preimage hf ps (key_call hf wp seed pl) e.
  Proof.
    intros msg sig xy HL Hi E (Hne & Heq). pose proof len_pos as Hlen. unfold extract in E. rewrite (proj2 (Nat.leb_gt _ _)) in E by exact Hi.
    set (i := N.to_nat (sig_index sig)) in *. set (ds := sig_digits hf wp h seed msg sig) in *.
    assert (Cw : cells32 (sig_wots wp sig)) by (apply cells_cells32; rewrite skipn_length; lia).
    assert (Cp : cells32 (sig_path wp h sig)) by (apply cells_cells32; rewrite skipn_length; lia).
    assert (Lw : length (sig_wots wp sig) = len) by apply cells_length. assert (Lp : length (sig_path wp h sig) = h) by apply cells_length.
    unfold sig_calls. cbv zeta. set (pkr := pk_of_sig hf W ps i ds (sig_wots wp sig)) in *.
    assert (Lpk : length pkr = len) by (unfold pkr; now rewrite pk_of_sig_length).
    assert (Cpk : cells32 pkr).
    { unfold pkr, pk_of_sig. apply Forall_forall. intros v Hv. apply in_map_iff in Hv. destruct Hv as (c & <- & Hc).
      apply in_seq in Hc. apply chain_length. apply nth_cells32; auto. lia. }
    assert (Lc : length (compress hf ps i pkr) = 32).
    { apply compress_length; auto. intros E0. rewrite E0 in Lpk. cbn in Lpk. lia. }
    assert (Ln : forall x y, length (node hf W len (key_seed seed) ps x y) = 32) by (intros; apply node_length; auto).
    destruct (path_collision hf ps (node hf W len (key_seed seed) ps) 0 i (compress hf ps i pkr) (sig_path wp h sig)) as [xy'|] eqn:EP; cbn [orelse] in E.
    { injection E as ->. destruct (path_loc _ _ _ _ _ _ _ _ Lc Cp EP) as (k & l & r & Hk & Ll & Lr & Hin & Exy). cbv zeta in Hin, Exy. cbn [Nat.add] in Hin, Exy.
      rewrite Lp in Hk. rewrite Exy in Hne, Heq. cbn [fst snd] in Hne, Heq.
      exists (TNode k (i / 2 ^ S k)), (EvH (place_adr (TNode k (i / 2 ^ S k)) 0) (l ++ r)).
      split.
      { apply in_TNode; [exact Hk|]. apply Nat.div_lt_upper_bound; [apply Nat.pow_nonzero; lia|]. rewrite <- Nat.pow_add_r.
        replace (S k + (h - 1 - k)) with h by lia. exact Hi. }
      split; [apply in_app_iff; right; apply in_app_iff; right; exact Hin|].
      split; [reflexivity|]. unfold key_call, content. cbn [call_data]. split; [rewrite !app_length, !Ln; lia|]. split; [|rewrite !value_T; exact Heq].
      intros EE. apply app_eq_32 in EE; [|exact Ll|apply Ln]. destruct EE as (-> & ->). now apply Hne. }
    destruct (ltree_collision hf ps len i 0 pkr (ots_pk hf W len (key_seed seed) ps i)) as [xy'|] eqn:EL; cbn [orelse] in E.
    { injection E as ->. change (ots_pk hf W len (key_seed seed) ps i) with (l_row hf W len (key_seed seed) ps i 0) in EL.
      apply ltree_loc in EL. 2:{ cbn [l_row]. unfold ots_pk. now rewrite map_length, seq_length. }
      destruct EL as (j' & i' & l' & Hin & Hcl & HL' & HC & Hi' & Exy). specialize (HC Cpk). rewrite Lpk in Hin.
      rewrite Exy in Hne, Heq. cbn [fst snd] in Hne, Heq.
      assert (2 * i' + 1 < length l'). { pose proof (Nat.div_mod (length l') 2). lia. }
      exists (LNode i j' i'), (EvH (place_adr (LNode i j' i') 0) (nth (2 * i') l' [] ++ nth (2 * i' + 1) l' [])).
      split; [apply in_LNode; assumption|].
      split; [apply in_app_iff; right; apply in_app_iff; left; rewrite Lpk; exact Hcl|].
      pose proof (l_row_cells hf W len (key_seed seed) ps i j') as CR.
      split; [reflexivity|]. unfold key_call, content. cbn [call_data]. split; [rewrite !app_length, !nth_cells32; auto; lia|]. split; [|rewrite !value_L; exact Heq].
      intros EE. apply app_eq_32 in EE; [|apply nth_cells32; auto; lia|apply nth_cells32; auto; lia]. destruct EE as (E1 & E2). rewrite E1, E2 in Hne. now apply Hne. }
    destruct (first_some_loc _ _ _ _ E) as (c & Hc & EC). apply in_seq in Hc. cbv zeta in EC. set (d := N.to_nat (nth c ds 0%N)) in *.
    destruct (chain_loc _ _ _ _ _ _ _ _ _ EC) as (k & Hk & Exy).
    set (y := chain hf ps i c d k (nth c (sig_wots wp sig) [])) in *.
    pose proof (chain_add hf ps i c 0 d k (chain_start hf (key_seed seed) i c)) as CA. cbn [Nat.add] in CA. rewrite <- CA in Exy. clear CA.
    rewrite Exy in Hne, Heq. cbn [fst snd] in Hne, Heq.
    exists (Step i c (d + k)), (EvF (place_adr (Step i c (d + k)) 0) y).
    split; [apply in_Step; lia|]. split.
    { apply in_app_iff. left. unfold chain_calls. apply in_flat_map. exists c. split; [apply in_seq; lia|]. cbv zeta. fold d.
      apply (in_map (fun k => EvF (place_adr (Step i c (d + k)) 0) (chain hf ps i c d k (nth c (sig_wots wp sig) [])))). apply in_seq. lia. }
    split; [reflexivity|]. unfold key_call, content. cbn [call_data]. split; [|split; [|rewrite !value_F; exact Heq]].
    - unfold y. rewrite !chain_length; auto. { apply keyed_length. } { apply nth_cells32; auto. lia. }
    - intros EE. rewrite EE in Hne. now apply Hne.
  Qed.

  Lemma outside_call : forall msg sig, 36 + 32 * len + 32 * h <= length sig -> 1 <= h -> 2 ^ h <= N.to_nat (sig_index sig) -> 
    recovered_root hf W (msg_digits (fst (fst wp)) (snd (fst wp)) (snd wp)) ps (ref_root hf wp h seed)
      (N.to_nat (sig_index sig)) (sig_R sig) msg (sig_wots wp sig) (sig_path wp h sig) = ref_root hf wp h seed ->
    exists e, In e (calls msg sig) /\ call_value hf ps e = ref_root hf wp h seed /\ length (call_data e) = 64 /\
      call_adr e = place_adr (TNode (h - 1) (N.to_nat (sig_index sig) / 2 ^ h)) 0 /\
      ~ In (TNode (h - 1) (N.to_nat (sig_index sig) / 2 ^ h)) (key_places wp h).
  Proof.
    intros msg sig HL Hh Hi E. pose proof len_pos as Hlen.
    assert (Cw : cells32 (sig_wots wp sig)) by (apply cells_cells32; rewrite skipn_length; lia).
    assert (Cp : cells32 (sig_path wp h sig)) by (apply cells_cells32; rewrite skipn_length; lia).
    assert (Lw : length (sig_wots wp sig) = len) by apply cells_length. assert (Lp : length (sig_path wp h sig) = h) by apply cells_length.
    unfold recovered_root in E. fold (sig_digits hf wp h seed msg sig) in E.
    set (i := N.to_nat (sig_index sig)) in *. set (ds := sig_digits hf wp h seed msg sig) in *. set (path := sig_path wp h sig) in *.
    unfold sig_calls. cbv zeta. set (pkr := pk_of_sig hf W ps i ds (sig_wots wp sig)) in *.
    assert (Lpk : length pkr = len) by (unfold pkr; now rewrite pk_of_sig_length).
    assert (Cpk : cells32 pkr).
    { unfold pkr, pk_of_sig. apply Forall_forall. intros v Hv. apply in_map_iff in Hv. destruct Hv as (c & <- & Hc).
      apply in_seq in Hc. apply chain_length. apply nth_cells32; auto. lia. }
    set (cur := compress hf ps i pkr) in *.
    assert (Lc : length cur = 32).
    { apply compress_length; auto. intros E0. rewrite E0 in Lpk. cbn in Lpk. lia. }
    assert (Hne : path <> []) by (intros E0; rewrite E0 in Lp; cbn in Lp; lia).
    pose proof (app_removelast_last [] Hne) as Ep.
    assert (Lr : length (removelast path) = h - 1). { rewrite Ep in Lp. rewrite app_length in Lp. cbn [length] in Lp. lia. }
    assert (L1 : length (last path []) = 32).
    { unfold cells32 in Cp. rewrite Forall_forall in Cp. apply Cp. rewrite Ep at 2. apply in_app_iff. right. now left. }
    set (a := last path []) in *. rewrite Ep in E |- *. rewrite climb_app in E. rewrite path_calls_app. cbv zeta in E |- *. rewrite Lr in E |- *. cbn [plus] in E |- *.
    assert (Ed : i / 2 ^ (h - 1) / 2 = i / 2 ^ h).
    { rewrite Nat.div_div by (try apply Nat.pow_nonzero; lia). replace (2 ^ (h - 1) * 2) with (2 ^ h); [reflexivity|].
      replace h with (S (h - 1)) at 1 by lia. cbn [Nat.pow]. lia. }
    rewrite Ed in E |- *.
    assert (L2 : length (climb hf ps 0 i cur (removelast path)) = 32) by (apply climb_length; exact Lc).
    eexists. split; [apply in_app_iff; right; apply in_app_iff; right; apply in_app_iff; right; left; reflexivity|].
    split; [rewrite value_T; exact E|]. split; [cbn [call_data]; rewrite app_length; destruct (Nat.odd (i / 2 ^ (h - 1))); lia|]. split; [reflexivity|].
    intros Hin. apply TNode_in in Hin. replace (h - 1 - (h - 1)) with 0 in Hin by lia. change (2 ^ 0) with 1 in Hin.
    assert (1 <= i / 2 ^ h). { apply Nat.div_le_lower_bound; [apply Nat.pow_nonzero; lia|lia]. } lia.
  Qed.
End Loc.

(** Forgetting the log gives verify back, for every input. *)
Theorem C90_erasure : forall msg sig pk w, forget (verify_t msg sig pk w) = verify msg sig pk w.
Proof. intros. apply verify_erase. Qed.

(** For every public key of 67 bytes, message and signature of the length the key calls for,
    accepted or not: the tweakable calls of verify are exactly those of the specification
    (chains to their ends, L-tree, path), in that order. *)
Theorem C90_verification_calls : forall w wp hf msg sig pk, winternitz w = Some wp -> all_bytes pk -> length pk = 67 ->
  hash_of_id (nth 0 pk 0 mod 16)%N = Some hf ->
  let h := 2 * N.to_nat (nth 1 pk 0 mod 16)%N in
  let len := snd (fst wp) + snd wp in
  4 <= h -> length sig = 36 + 32 * len + 32 * h ->
  let i := N.to_nat (from_be (firstn 4 sig)) in
  let dg := digest hf (firstn 32 (skipn 4 sig)) (firstn 32 (skipn 3 pk)) i msg in
  exists b l, verify_t msg sig pk w = Ok (b, l) /\ verify msg sig pk w = Ok b /\
    tweaks l = sig_calls hf (firstn 32 (skipn 35 pk)) (2 ^ fst (fst wp)) i
      (msg_digits (fst (fst wp)) (snd (fst wp)) (snd wp) dg) (cells len (skipn 36 sig)) (cells h (skipn (36 + 32 * len) sig)).
Proof. exact verify_log. Qed.
Example C90_verification_calls_case : winternitz 16 = Some w16 /\ let pk := [2; 5; 0]%N ++ repeat 7%N 64 in
  all_bytes pk /\ length pk = 67 /\ hash_of_id (nth 0 pk 0 mod 16)%N = Some SHAKE_256 /\
  length (repeat 9%N 2500) = 36 + 32 * (snd (fst w16) + snd w16) + 32 * (2 * N.to_nat (nth 1 pk 0 mod 16)%N).
Proof. cbv zeta. split; [reflexivity|]. split; [repeat constructor|]. split; [reflexivity|]. split; [reflexivity|]. rewrite repeat_length. reflexivity. Qed.

Section Accepted.
  Variables (c : key_cfg) (wp : nat * nat * nat).
  Hypothesis HC : cfg_ok c wp.
  Local Notation hf := (c_hf c).
  Local Notation h := (c_height c).
  Local Notation seed := (c_seed c).
  Local Notation W := (2 ^ fst (fst wp)).
  Local Notation len := (snd (fst wp) + snd wp).

  Lemma accepted_calls : forall msg sig, all_bytes sig -> verify msg sig (c_pk c wp 0) (c_w c) = Ok true ->
    length sig = 36 + 32 * len + 32 * h /\
    exists l, verify_t msg sig (c_pk c wp 0) (c_w c) = Ok (true, l) /\
      tweaks l = sig_calls hf (key_pub seed) W (N.to_nat (sig_index sig)) (sig_digits hf wp h seed msg sig) (sig_wots wp sig) (sig_path wp h sig) /\
      ((N.to_nat (sig_index sig) < 2 ^ h /\ sig = owner_sig hf wp h seed (N.to_nat (sig_index sig)) (sig_R sig) msg) \/
       (N.to_nat (sig_index sig) < 2 ^ h /\
        exists pl e, In pl (key_places wp h) /\ In e (tweaks l) /\ second_preimage hf (key_pub seed) (key_call hf wp seed pl) e) \/
       (2 ^ h <= N.to_nat (sig_index sig) /\
        exists e, In e (tweaks l) /\ call_value hf (key_pub seed) e = ref_root hf wp h seed /\ length (call_data e) = 64 /\
          call_adr e = place_adr (TNode (h - 1) (N.to_nat (sig_index sig) / 2 ^ h)) 0 /\
          ~ In (TNode (h - 1) (N.to_nat (sig_index sig) / 2 ^ h)) (key_places wp h))).
  Proof.
    intros msg sig HB HV. destruct (pk_parts c wp 0 HC) as (P1 & P2 & P3 & P4).
    pose proof (c_pk_bytes c wp HC 0) as PB. pose proof (co_w _ _ HC) as Hw. pose proof (co_h _ _ HC) as Hh.
    assert (PH : hash_of_id (nth 0 (c_pk c wp 0) 0 mod 16)%N = Some hf).
    { rewrite P4. rewrite N.mod_small by (pose proof (hash_id_small _ _ (co_hash _ _ HC)); lia). apply (co_hash _ _ HC). }
    pose proof HV as HV'. rewrite (verify_spec (c_w c) wp hf) in HV' by assumption. apply Ok_inj in HV'.
    pose proof (accepted hf (c_w c) wp h seed (c_pk c wp 0) Hw (proj1 Hh) P1 P2 P3 msg sig HB HV') as HA.
    assert (HL : length sig = 36 + 32 * len + 32 * h /\ recovered_root hf W (msg_digits (fst (fst wp)) (snd (fst wp)) (snd wp)) (key_pub seed) (ref_root hf wp h seed)
      (N.to_nat (sig_index sig)) (sig_R sig) msg (sig_wots wp sig) (sig_path wp h sig) = ref_root hf wp h seed).
    { unfold ref_verify in HV'. destruct wp as [[lw l1] l2] eqn:Ewp. rewrite P1, P2, P3 in HV'.
      apply andb_true_iff in HV'. destruct HV' as (HV1 & HV2). apply andb_true_iff in HV1. destruct HV1 as (_ & HL). apply Nat.eqb_eq in HL.
      split; [exact HL|]. destruct (list_eq_dec N.eq_dec _ _) as [Er|]; [exact Er|discriminate]. }
    destruct HL as (HL & HR). split; [exact HL|].
    destruct (verify_log (c_w c) wp hf msg sig (c_pk c wp 0) Hw PB (c_pk_length c wp HC 0) PH) as (b & l & El & Ev & Et).
    { rewrite P3. apply Hh. } { rewrite P3. exact HL. }
    rewrite HV in Ev. apply Ok_inj in Ev. subst b. exists l. split; [exact El|]. rewrite P1, P2, P3 in Et. split; [exact Et|]. rewrite Et.
    destruct (Nat.lt_ge_cases (N.to_nat (sig_index sig)) (2 ^ h)) as [Hi|Hi].
    - destruct HA as [(xy & Ex & Hcol)|(_ & _ & Hs)]; [right; left|left; auto]. split; [exact Hi|].
      eapply extract_call; eauto. lia.
    - right. right. split; [exact Hi|]. eapply outside_call; eauto; lia.
  Qed.
End Accepted.

(** ** The theorems *)
Lemma place_call_in : forall hf wp seed height log0, Permutation (tweaks log0) (map (key_call hf wp seed) (key_places wp height)) ->
  forall pl, In pl (key_places wp height) -> In (key_call hf wp seed pl) (tweaks log0).
Proof. intros hf wp seed height log0 HP pl Hin. apply (Permutation_in _ (Permutation_sym HP)). now apply in_map. Qed.

Lemma outside_adr : forall hf w wp seed height log0 sig, winternitz w = Some wp -> height <= 30 -> all_bytes sig ->
  Permutation (tweaks log0) (map (key_call hf wp seed) (key_places wp height)) ->
  ~ In (TNode (height - 1) (N.to_nat (sig_index sig) / 2 ^ height)) (key_places wp height) ->
  ~ In (place_adr (TNode (height - 1) (N.to_nat (sig_index sig) / 2 ^ height)) 0) (map call_adr (tweaks log0)).
Proof.
  intros hf w wp seed height log0 sig Hw Hh HB HP Hno Hin. apply in_map_iff in Hin. destruct Hin as (e & Ee & He).
  apply (Permutation_in _ HP) in He. apply in_map_iff in He. destruct He as (pl & <- & Hpl). rewrite key_call_adr in Ee.
  apply C34_places_separated in Ee; [destruct Ee as (-> & _); contradiction| | |reflexivity|reflexivity].
  - eapply key_places_ok; eauto.
  - split; [lia|]. eapply N.le_lt_trans with (sig_index sig).
    + rewrite Nat2N.inj_div, N2Nat.id. apply N.div_le_upper_bound; [rewrite <- pow_N_nat, N2Nat.id; apply N.pow_nonzero; lia|].
      rewrite <- pow_N_nat, N2Nat.id. assert (1 <= 2 ^ N.of_nat height)%N by (apply N.lt_pred_le; cbn; apply N.neq_0_lt_0, N.pow_nonzero; lia). nia.
    + unfold sig_index. eapply N.lt_le_trans; [apply from_be_bound; now apply all_bytes_firstn|].
      change (2 ^ 32)%N with (256 ^ N.of_nat 4)%N. apply N.pow_le_mono_r; [lia|]. rewrite firstn_length. lia.
Qed.



Lemma verdict_core : forall hash hf fmt w wp height seed log0 msg sig, supported hash hf w wp height seed ->
  Permutation (tweaks log0) (map (key_call hf wp seed) (key_places wp height)) -> all_bytes sig ->
  verify msg sig (c_pk (mkCfg hf hash w fmt height seed) wp 0) w = Ok true ->
  exists logv, verify_t msg sig (c_pk (mkCfg hf hash w fmt height seed) wp 0) w = Ok (true, logv) /\ verdict hf wp height seed log0 logv msg sig.
Proof.
  intros hash hf fmt w wp height seed log0 msg sig HS HP HB HV. pose proof (cfg_of _ _ _ _ _ _ fmt HS) as HC.
  destruct (accepted_calls _ _ HC msg sig HB HV) as (_ & l & El & _ & HD). exists l. split; [exact El|].
  cbn [c_hf c_height c_seed] in HD. unfold verdict.
  assert (EQ : N.to_nat (2 ^ N.of_nat height) = 2 ^ height) by apply pow_N_nat.
  destruct HD as [(Hi & Hs)|[(Hi & pl & e & Hpl & He & H2)|(Hi & e & He & Hv & Hl & Ha & Hno)]].
  - left. split; [lia|exact Hs].
  - right. left. split; [lia|]. exists (key_call hf wp seed pl), e. split; [now apply place_call_in with height|]. auto.
  - right. right. split; [lia|]. exists e. split; [exact He|]. split; [|auto]. rewrite Ha.
    eapply outside_adr; eauto; [apply HS|]. destruct HS as (_ & _ & Hh & _). apply Hh.
Qed.

Theorem C90_accepted_signature_verdict : forall junk seed height hash hf fmt w wp,
  supported hash hf w wp height seed ->
  exists x log0, XmssBasic_new_t junk seed (N.of_nat height) hash fmt w = Ok (x, log0) /\
    forall msg sig, all_bytes sig -> verify msg sig (getPK x) w = Ok true ->
      exists logv, verify_t msg sig (getPK x) w = Ok (true, logv) /\ verdict hf wp height seed log0 logv msg sig.
Proof.
  intros junk seed height hash hf fmt w wp HS. pose proof (cfg_of _ _ _ _ _ _ fmt HS) as HC.
  destruct (basic_new_t_spec _ _ HC junk) as (l & E & HP). cbn [c_hf c_height c_seed c_hash c_fmt c_w] in E, HP.
  eexists. exists l. split; [exact E|]. intros msg sig HB HV. eapply verdict_core; eauto.
Qed.

Theorem C90_accepted_signature_verdict_fast : forall junk seed height hash hf fmt,
  supported hash hf 16 w16 height seed ->
  exists x log0, XmssFast_new_t junk seed (N.of_nat height) hash fmt = Ok (x, log0) /\
    forall msg sig, all_bytes sig -> verify msg sig (getPK (xf_base x)) 16 = Ok true ->
      exists logv, verify_t msg sig (getPK (xf_base x)) 16 = Ok (true, logv) /\ verdict hf w16 height seed log0 logv msg sig.
Proof.
  intros junk seed height hash hf fmt HS.
  destruct (C89_fast_calls_are_tree_calls junk seed height hash hf fmt HS) as (x & l & E & HP & _). exists x, l. split; [exact E|].
  destruct (XmssFast_new_spec junk seed height hash hf fmt HS) as (x' & E' & HI).
  assert (x' = x). { rewrite <- XmssFast_new_erase, E in E'. apply Ok_inj in E'. now symmetry. } subst x'.
  destruct HI as (Eb & _). rewrite Eb. intros msg sig HB HV. eapply verdict_core; eauto.
Qed.

(** ** Genuine signatures *)
Section Genuine.
  Variables (hf : hashfn) (w : N) (wp : nat * nat * nat) (h : nat) (seed : list N).
  Hypothesis Hw : winternitz w = Some wp.
  Local Notation W := (2 ^ fst (fst wp)).
  Local Notation len := (snd (fst wp) + snd wp).
  Local Notation ss := (key_seed seed).
  Local Notation ps := (key_pub seed).

  Lemma chain_calls_genuine : forall i ds e, i < 2 ^ h -> (forall c, N.to_nat (nth c ds 0%N) <= W - 1) ->
    In e (chain_calls hf ps W i ds (ots_sig hf len ss ps i ds)) -> exists pl, In pl (key_places wp h) /\ e = key_call hf wp seed pl.
  Proof.
    intros i ds e Hi Hd He. unfold chain_calls in He. rewrite ots_sig_length in He. apply in_flat_map in He. destruct He as (c & Hc & He). apply in_seq in Hc. cbv zeta in He.
    apply in_map_iff in He. destruct He as (k & <- & Hk). apply in_seq in Hk. set (d := N.to_nat (nth c ds 0%N)) in *. specialize (Hd c). fold d in Hd.
    exists (Step i c (d + k)). split; [apply in_Step; lia|]. unfold key_call, content. f_equal.
    unfold ots_sig. rewrite nth_map_seq by lia. fold d.
    pose proof (chain_add hf ps i c 0 d k (chain_start hf ss i c)) as CA. cbn [Nat.add] in CA. now rewrite CA.
  Qed.
  Lemma ltree_calls_genuine : forall i fuel j e, In e (ltree_calls hf ps fuel i j (l_row hf W len ss ps i j)) ->
    exists j' k, In (LNode i j' k) (lplaces fuel i j (length (l_row hf W len ss ps i j))) /\ e = key_call hf wp seed (LNode i j' k).
  Proof.
    intros i. induction fuel as [|f IH]; intros j e He; cbn [ltree_calls] in He; destruct (length (l_row hf W len ss ps i j) <=? 1) eqn:E1; try contradiction.
    apply in_app_iff in He. cbn [lplaces]. rewrite E1. destruct He as [He|He].
    - apply in_map_iff in He. destruct He as (k & <- & Hk). exists j, k. split; [|reflexivity]. apply in_app_iff. left. now apply in_map.
    - change (l_level hf ps i j 0 (l_row hf W len ss ps i j)) with (l_row hf W len ss ps i (S j)) in He.
      destruct (IH (S j) e He) as (j' & k & Hin & ->). exists j', k. split; [|reflexivity]. apply in_app_iff. right.
      cbn [l_row] in Hin. rewrite l_level_length in Hin. exact Hin.
  Qed.
  Lemma path_calls_genuine : forall n j i e,
    In e (path_calls hf ps j i (node hf W len ss ps j i) (map (fun k => node hf W len ss ps (j + k) (Nat.lxor (i / 2 ^ k) 1)) (seq 0 n))) ->
    exists k, k < n /\ e = key_call hf wp seed (TNode (j + k) (i / 2 ^ S k)).
  Proof.
    induction n as [|n IH]; intros j i e He; cbn [seq map path_calls] in He; [contradiction|].
    set (nd := node hf W len ss ps) in *.
    rewrite Nat.add_0_r in He. change (2 ^ 0) with 1 in He. rewrite Nat.div_1_r in He.
    assert (Hi : i = 2 * (i / 2) + (if Nat.odd i then 1 else 0)).
    { rewrite (Nat.div2_odd i) at 1. rewrite Nat.div2_div. now destruct (Nat.odd i). }
    assert (El : (if Nat.odd i then nd j (Nat.lxor i 1) else nd j i) = nd j (2 * (i / 2))).
    { rewrite lxor_1. destruct (Nat.odd i); f_equal; lia. }
    assert (Er : (if Nat.odd i then nd j i else nd j (Nat.lxor i 1)) = nd j (2 * (i / 2) + 1)).
    { rewrite lxor_1. destruct (Nat.odd i); f_equal; lia. }
    rewrite El, Er in He. destruct He as [<-|He].
    - exists 0. split; [lia|]. rewrite Nat.add_0_r. change (2 ^ 1) with 2. reflexivity.
    - rewrite <- seq_shift, map_map in He.
      destruct (IH (S j) (i / 2) e) as (k & Hk & ->).
      + change (node hf W len ss ps (S j) (i / 2)) with (rand_hash hf ps 2 0 j (i / 2) (nd j (2 * (i / 2))) (nd j (2 * (i / 2) + 1))).
        erewrite map_ext; [exact He|]. intros k. cbv beta. unfold nd. f_equal; [lia|]. f_equal. rewrite Nat.div_div by (try apply Nat.pow_nonzero; lia). reflexivity.
      + exists (S k). split; [lia|]. replace (S j + k) with (j + S k) by lia.
        rewrite Nat.div_div by (try apply Nat.pow_nonzero; lia). reflexivity.
  Qed.
End Genuine.

Lemma digits_small : forall hf w wp h seed msg sig, winternitz w = Some wp -> forall c, N.to_nat (nth c (sig_digits hf wp h seed msg sig) 0%N) <= 2 ^ fst (fst wp) - 1.
Proof.
  intros hf w wp h seed msg sig Hw c. unfold sig_digits. set (D := digest _ _ _ _ _). assert (LD : length D = 32) by apply keyed_length.
  destruct (wparams_ok w wp Hw) as (_ & HP & E1 & E2 & _). destruct (digits_of_ok (wparams w) D HP LD) as (_ & _ & D3).
  rewrite (digits_of_msg w wp D Hw LD) in D3.
  match goal with |- N.to_nat (nth c ?l 0%N) <= _ => destruct (nth_in_or_default c l 0%N) as [Hin|E0]; [|rewrite E0; cbn [N.to_nat]; lia] end.
  rewrite Forall_forall in D3. specialize (D3 _ Hin). cbv beta in D3. lia.
Qed.

Lemma genuine_calls : forall hash hf fmt w wp height seed msg sig, supported hash hf w wp height seed -> all_bytes sig ->
  verify msg sig (c_pk (mkCfg hf hash w fmt height seed) wp 0) w = Ok true ->
  N.to_nat (sig_index sig) < 2 ^ height -> sig = owner_sig hf wp height seed (N.to_nat (sig_index sig)) (sig_R sig) msg ->
  exists l, verify_t msg sig (c_pk (mkCfg hf hash w fmt height seed) wp 0) w = Ok (true, l) /\
    forall e, In e (tweaks l) -> exists pl, In pl (key_places wp height) /\ e = key_call hf wp seed pl.
Proof.
  intros hash hf fmt w wp height seed msg sig HS HB HV Hi Hs. pose proof (cfg_of _ _ _ _ _ _ fmt HS) as HC.
  destruct (accepted_calls _ _ HC msg sig HB HV) as (HL & l & El & Et & _). exists l. split; [exact El|].
  cbn [c_hf c_height c_seed] in HL, Et. pose proof (proj1 (proj2 HS)) as Hw.
  set (i := N.to_nat (sig_index sig)) in *.
  assert (LR : length (sig_R sig) = 32) by (unfold sig_R; rewrite firstn_length, skipn_length; lia).
  assert (Hi32 : (N.of_nat i < 2 ^ 32)%N).
  { eapply N.lt_le_trans with (2 ^ N.of_nat height)%N; [rewrite <- pow_N_nat in Hi; lia|].
    apply N.pow_le_mono_r; [lia|]. destruct HS as (_ & _ & Hh & _). lia. }
  destruct (owner_parts hf w wp height seed i (sig_R sig) msg Hw LR Hi32) as (Q1 & _ & Q3 & Q4 & _). rewrite <- Hs in Q1, Q3, Q4.
  assert (Ed : msg_digits (fst (fst wp)) (snd (fst wp)) (snd wp) (digest hf (sig_R sig) (ref_root hf wp height seed) i msg) = sig_digits hf wp height seed msg sig) by reflexivity.
  pose proof (owner_pk hf w wp seed i (digest hf (sig_R sig) (ref_root hf wp height seed) i msg) Hw (keyed_length _ _ _ _)) as PK. cbv zeta in PK.
  rewrite Ed in Q3, PK. rewrite <- Q3 in PK.
  intros e He. rewrite Et in He. unfold sig_calls in He. cbv zeta in He. rewrite PK in He. apply in_app_iff in He. destruct He as [He|He]; [|apply in_app_iff in He; destruct He as [He|He]].
  - rewrite Q3 in He. eapply chain_calls_genuine; eauto. eapply digits_small; eauto.
  - change (ots_pk hf (2 ^ fst (fst wp)) (snd (fst wp) + snd wp) (key_seed seed) (key_pub seed) i) with
      (l_row hf (2 ^ fst (fst wp)) (snd (fst wp) + snd wp) (key_seed seed) (key_pub seed) i 0) in He.
    apply ltree_calls_genuine in He. destruct He as (j & k & Hin & ->). exists (LNode i j k). split; [|reflexivity]. apply in_LNode; [exact Hi|].
    cbn [l_row] in Hin. rewrite ots_pk_length in Hin. exact Hin.
  - rewrite Q4 in He. unfold auth_path in He.
    change (compress hf (key_pub seed) i (ots_pk hf (2 ^ fst (fst wp)) (snd (fst wp) + snd wp) (key_seed seed) (key_pub seed) i)) with
      (node hf (2 ^ fst (fst wp)) (snd (fst wp) + snd wp) (key_seed seed) (key_pub seed) 0 i) in He.
    apply (path_calls_genuine hf wp seed height 0 i e) in He. destruct He as (k & Hk & ->). exists (TNode (0 + k) (i / 2 ^ S k)). split; [|reflexivity].
    apply in_TNode; [lia|]. apply Nat.div_lt_upper_bound; [apply Nat.pow_nonzero; lia|]. rewrite <- Nat.pow_add_r.
    replace (S k + (height - 1 - (0 + k))) with height by lia. exact Hi.
Qed.

(** An accepted signature is the owner's exactly when every tweakable hash call of the
    verification was already made, with the same data, by key generation. *)
Theorem C90_genuine_iff_calls_repeated : forall junk seed height hash hf fmt w wp,
  supported hash hf w wp height seed ->
  exists x log0, XmssBasic_new_t junk seed (N.of_nat height) hash fmt w = Ok (x, log0) /\
    forall msg sig, all_bytes sig -> verify msg sig (getPK x) w = Ok true ->
      exists logv, verify_t msg sig (getPK x) w = Ok (true, logv) /\
        ((forall e, In e (tweaks logv) -> In e (tweaks log0)) <->
         ((sig_index sig < 2 ^ N.of_nat height)%N /\
          sig = owner_sig hf wp height seed (N.to_nat (sig_index sig)) (sig_R sig) msg)).
Proof.
  intros junk seed height hash hf fmt w wp HS. pose proof (cfg_of _ _ _ _ _ _ fmt HS) as HC.
  destruct (basic_new_t_spec _ _ HC junk) as (l & E & HP). cbn [c_hf c_height c_seed c_hash c_fmt c_w] in E, HP.
  eexists. exists l. split; [exact E|]. intros msg sig HB HV.
  destruct (verdict_core hash hf fmt w wp height seed l msg sig HS HP HB HV) as (lv & Ev & HD). exists lv. split; [exact Ev|].
  split.
  - intros HI. destruct HD as [HD|[(_ & e0 & e & H0 & He & (Ht & _ & Hne & _))|(_ & e & He & Hno & _)]]; [exact HD| |].
    + exfalso. apply Hne. apply HI in He. apply (Permutation_in _ HP) in H0, He. apply in_map_iff in H0, He.
      destruct H0 as (p0 & <- & P0). destruct He as (p1 & <- & P1).
      assert (Ea : call_adr (key_call hf wp seed p1) = call_adr (key_call hf wp seed p0)) by (destruct p0, p1; cbn in Ht |- *; try contradiction; exact Ht).
      rewrite !key_call_adr in Ea. apply C34_places_separated in Ea; [destruct Ea as (-> & _); reflexivity| | |reflexivity|reflexivity];
        (eapply key_places_ok; [apply HS|apply HS|assumption]).
    + exfalso. apply Hno. apply in_map. now apply HI.
  - intros (Hi & Hs). destruct (genuine_calls hash hf fmt w wp height seed msg sig HS HB HV) as (l2 & E2 & H2); [rewrite <- pow_N_nat; lia|exact Hs|].
    assert (l2 = lv). { change (c_obj (mkCfg hf hash w fmt height seed) wp 0) with (c_obj (mkCfg hf hash w fmt height seed) wp 0) in Ev.
      change (getPK (c_obj (mkCfg hf hash w fmt height seed) wp 0)) with (c_pk (mkCfg hf hash w fmt height seed) wp 0) in Ev. rewrite E2 in Ev.
      apply Ok_inj in Ev. apply pair_equal_spec in Ev. apply Ev. } subst l2.
    intros e He. destruct (H2 e He) as (pl & Hpl & ->). now apply place_call_in with height.
Qed.

(** ** Histories *)
Lemma some_digit_low : forall w wp D, (w = 2 \/ w = 4 \/ w = 16)%N -> winternitz w = Some wp -> length D = 32 -> all_bytes D ->
  exists c, c < snd (fst wp) + snd wp /\
    N.to_nat (nth c (msg_digits (fst (fst wp)) (snd (fst wp)) (snd wp) D) 0%N) < 2 ^ fst (fst wp) - 1.
Proof.
  intros w wp D Hw Hwp LD BD. 
  destruct (wparams_ok w wp Hwp) as (Ewp & HP & E1 & E2 & E3 & E4 & E5 & E6 & E7).
  assert (G : exists D0, length D0 = 32 /\ all_bytes D0 /\ D0 <> D).
  { destruct (list_eq_dec N.eq_dec D (repeat 0%N 32)) as [->|Ne].
    - exists (repeat 1%N 32). split; [reflexivity|]. split; [|intros E; apply (f_equal (fun l => nth 0 l 0%N)) in E; discriminate].
      apply Forall_forall. intros x Hx. apply repeat_spec in Hx. subst x. reflexivity.
    - exists (repeat 0%N 32). split; [reflexivity|]. split; [|congruence]. apply Forall_forall. intros x Hx. apply repeat_spec in Hx. subst x. reflexivity. }
  destruct G as (D0 & L0 & B0 & N0).
  destruct (digits_of_ok (wparams w) D HP LD) as (DE & D2 & D3). destruct (digits_of_ok (wparams w) D0 HP L0) as (DE0 & D02 & D03).
  rewrite (digits_of_msg w wp D Hwp LD) in *. rewrite (digits_of_msg w wp D0 Hwp L0) in *.
  destruct (not_le_exists (msg_digits (fst (fst wp)) (snd (fst wp)) (snd wp) D0) (msg_digits (fst (fst wp)) (snd (fst wp)) (snd wp) D)) as (c & Hc & Hlt).
  - now rewrite D2, D02.
  - intros Hle. apply N0. exact (C30_checksum_no_domination w (wparams w) D0 D _ _ Hw Ewp L0 LD B0 BD DE0 DE Hle).
  - exists c. rewrite D02, E7 in Hc. split; [exact Hc|].
    assert (Hin : In (nth c (msg_digits (fst (fst wp)) (snd (fst wp)) (snd wp) D0) 0%N) (msg_digits (fst (fst wp)) (snd (fst wp)) (snd wp) D0)) by (apply nth_In; rewrite D02, E7; exact Hc).
    rewrite Forall_forall in D03. specialize (D03 _ Hin). cbv beta in D03. lia.
Qed.



Lemma issued_dec : forall i cs os,
  (exists m s, issued cs os m s /\ sig_index s = i) \/ (forall m s, issued cs os m s -> sig_index s <> i).
Proof.
  intros i. induction cs as [|c cs IH]; intros os.
  { right. intros m s (n & Hn & _). destruct n; discriminate. }
  destruct os as [|o os].
  { right. intros m s (n & _ & Hn). destruct n; discriminate. }
  destruct (IH os) as [(m & s & (n & H1 & H2) & E)|HN].
  { left. exists m, s. split; [exists (S n); auto|exact E]. }
  destruct c as [m|j]; [destruct o as [s| |]|].
  - destruct (N.eq_dec (sig_index s) i) as [E|Ne]; [left; exists m, s; split; [exists 0; auto|exact E]|].
    right. intros m' s' (n & H1 & H2). destruct n as [|n]; cbn [nth_error] in H1, H2; [|apply (HN m'); exists n; auto].
    congruence.
  - right. intros m' s' (n & H1 & H2). destruct n as [|n]; cbn [nth_error] in H1, H2; [discriminate|apply (HN m'); exists n; auto].
  - right. intros m' s' (n & H1 & H2). destruct n as [|n]; cbn [nth_error] in H1, H2; [discriminate|apply (HN m'); exists n; auto].
  - right. intros m' s' (n & H1 & H2). destruct n as [|n]; cbn [nth_error] in H1, H2; [discriminate|apply (HN m'); exists n; auto].
Qed.

(** Whatever was signed before, an accepted message/signature pair that was not handed out:
    - finds a second preimage for one of the calls of key generation, or
    - carries an index past the end of the tree and makes a call at an address that is not
      in the tree return the root, or
    - collides with a signature handed out for the same index in the message hash, or
    - contains a value of one of the owner's chains, below its end and below the value
      published by every signature handed out for that index (a preimage of one).
    In the last two cases it is built exactly as the owner builds signatures. *)
Theorem C90_every_forgery : forall junk seed height hash hf fmt, supported hash hf 16 w16 height seed ->
  exists x log0, XmssFast_new_t junk seed (N.of_nat height) hash fmt = Ok (x, log0) /\
    forall cs y os, run x cs = Ok (y, os) ->
    forall msg sig, all_bytes sig -> ~ issued cs os msg sig ->
      verify msg sig (getPK (xf_base x)) 16 = Ok true ->
      exists logv, verify_t msg sig (getPK (xf_base x)) 16 = Ok (true, logv) /\
       ((exists e0 e, In e0 (tweaks log0) /\ In e (tweaks logv) /\ second_preimage hf (key_pub seed) e0 e) \/
        ((2 ^ N.of_nat height <= sig_index sig)%N /\
         exists e, In e (tweaks logv) /\ ~ In (call_adr e) (map call_adr (tweaks log0)) /\ length (call_data e) = 64 /\
           call_value hf (key_pub seed) e = ref_root hf w16 height seed) \/
        (exists msg0 s0, issued cs os msg0 s0 /\ sig_index s0 = sig_index sig /\
           collision hf (msg_input (sig_R sig) (ref_root hf w16 height seed) (N.to_nat (sig_index sig)) msg,
                         msg_input (sig_R s0) (ref_root hf w16 height seed) (N.to_nat (sig_index sig)) msg0)) \/
        (exists c d, c < 67 /\ d < 15 /\
           nth c (sig_wots w16 sig) [] =
             chain hf (key_pub seed) (N.to_nat (sig_index sig)) c 0 d (chain_start hf (key_seed seed) (N.to_nat (sig_index sig)) c) /\
           forall msg0 s0, issued cs os msg0 s0 -> sig_index s0 = sig_index sig ->
             d < N.to_nat (nth c (sig_digits hf w16 height seed msg0 s0) 0%N))).
Proof.
  intros junk seed height hash hf fmt HS.
  destruct (C90_accepted_signature_verdict_fast junk seed height hash hf fmt HS) as (x & log0 & E & HVd). exists x, log0. split; [exact E|].
  intros cs y os Er msg sig HB Hni HV. destruct (HVd msg sig HB HV) as (lv & Ev & HD). exists lv. split; [exact Ev|]. clear HVd.
  assert (Ex : XmssFast_new junk seed (N.of_nat height) hash fmt = Ok x) by (rewrite <- XmssFast_new_erase, E; reflexivity).
  destruct (C21_indices_strictly_increase junk seed height hash hf fmt HS) as (x' & E' & H21). rewrite Ex in E'. apply Ok_inj in E'. subst x'. specialize (H21 cs y os Er).
  assert (Hob : forall m s, issued cs os m s -> s = ref_sig hf w16 height seed (N.to_nat (sig_index s)) m).
  { intros m s (n & Hc & Ho).
    destruct (fast_history junk seed height hash hf fmt HS) as (x' & E' & HR). rewrite Ex in E'. apply Ok_inj in E'. subst x'.
    destruct (HR cs) as (y' & Er' & _). rewrite Er in Er'. assert (os = snd (ref_run height (ref_sig hf w16 height seed) 0 cs)) as -> by congruence.
    rewrite (ref_run_nth _ _ cs 0%N n _ Hc) in Ho.
    set (i := fst (ref_run height (ref_sig hf w16 height seed) 0 (firstn n cs))) in *.
    cbn [ref_step] in Ho. destruct (i <? 2 ^ N.of_nat height)%N eqn:El; cbn [snd] in Ho; [|congruence]. apply N.ltb_lt in El.
    assert (s = ref_sig hf w16 height seed (N.to_nat i) m) as Es by congruence.
    assert (Hi32 : (N.of_nat (N.to_nat i) < 2 ^ 32)%N).
    { rewrite N2Nat.id. eapply N.lt_le_trans with (2 ^ N.of_nat height)%N; [exact El|]. apply N.pow_le_mono_r; [lia|]. destruct HS as (_ & _ & Hh & _). lia. }
    destruct (owner_parts hf 16 w16 height seed (N.to_nat i) (randomizer hf (key_prf seed) (N.to_nat i)) m eq_refl (keyed_length _ _ _ _) Hi32) as (Q1 & _).
    rewrite <- ref_sig_owner, <- Es, N2Nat.id in Q1. rewrite Q1. exact Es. }
  destruct HD as [(Hi & Hs)|[(_ & HD)|HD]]; [|left; exact HD|right; left; exact HD].
  set (i := sig_index sig) in *.
  assert (Hi32 : (N.of_nat (N.to_nat i) < 2 ^ 32)%N).
  { rewrite N2Nat.id. eapply N.lt_le_trans with (2 ^ N.of_nat height)%N; [exact Hi|]. apply N.pow_le_mono_r; [lia|]. destruct HS as (_ & _ & Hh & _). lia. }
  assert (LR : length (sig_R sig) = 32).
  { assert (Eb : getPK (xf_base x) = c_pk (mkCfg hf hash 16 fmt height seed) w16 0).
    { destruct (XmssFast_new_spec junk seed height hash hf fmt HS) as (x' & E' & HI). rewrite Ex in E'. apply Ok_inj in E'. subst x'. destruct HI as (Eb & _). now rewrite Eb. }
    rewrite Eb in HV. destruct (accepted_calls _ _ (cfg_of _ _ _ _ _ _ fmt HS) msg sig HB HV) as (HL & _). cbn [c_height] in HL.
    unfold sig_R. rewrite firstn_length, skipn_length, HL. lia. }
  right. right. destruct (issued_dec i cs os) as [(m0 & s0 & H0 & Ei)|HN].
  - pose proof (Hob m0 s0 H0) as Es0. rewrite Ei in Es0.
    destruct (reuse_core hf 16 w16 height seed (N.to_nat i) m0 msg sig ltac:(auto) eq_refl Hi32 LR Hs) as [Hc|(c & Hc & Hlt & Hn)].
    + rewrite <- Es0. intros Eq. apply Hni. apply pair_equal_spec in Eq. destruct Eq as (-> & ->). exact H0.
    + left. exists m0, s0. split; [exact H0|]. split; [exact Ei|]. rewrite <- Es0 in Hc. exact Hc.
    + right. rewrite <- Es0 in Hlt. exists c. eexists. split; [exact Hc|]. split; [|split; [exact Hn|]].
      { pose proof (digits_small hf 16 w16 height seed m0 s0 eq_refl c) as D15. change (2 ^ fst (fst w16) - 1) with 15 in D15. lia. }
      intros m1 s1 H1 E1. assert (s1 = s0 /\ m1 = m0) as (-> & ->); [|lia].
      destruct H0 as (n0 & C0 & O0). destruct H1 as (n1 & C1 & O1). destruct (Nat.lt_trichotomy n0 n1) as [Hl|[->|Hl]].
      * pose proof (H21 n0 n1 s0 s1 Hl O0 O1). lia.
      * rewrite O1 in O0. rewrite C1 in C0. split; congruence.
      * pose proof (H21 n1 n0 s1 s0 Hl O1 O0). lia.
  - right. destruct (owner_parts hf 16 w16 height seed (N.to_nat i) (sig_R sig) msg eq_refl LR Hi32) as (_ & _ & Q3 & _).
    set (D := digest hf (sig_R sig) (ref_root hf w16 height seed) (N.to_nat i) msg) in *.
    destruct (some_digit_low 16 w16 D ltac:(auto) eq_refl (keyed_length _ _ _ _) (all_bytes_digest _ _ _ _ _)) as (c & Hc & Hlt).
    change (2 ^ fst (fst w16) - 1) with 15 in Hlt. exists c. eexists. split; [exact Hc|]. split; [exact Hlt|]. split.
    + rewrite <- Hs in Q3. rewrite Q3. unfold ots_sig. rewrite nth_map_seq by exact Hc. reflexivity.
    + intros m1 s1 H1 E1. exfalso. now apply (HN m1 s1 H1).
Qed.

(** The hypotheses are met, for a concrete key: after one signature (index 0), a signature of
    another message for index 5, made by somebody who knows the seed, is accepted and was
    never handed out.  It is accounted for by the last case of the theorem. *)
Example C90_every_forgery_case : exists x y s0, XmssFast_new [170%N] seed_c 10 2 0 = Ok x /\
  run x [OpSign [1%N]] = Ok (y, [ObsSig s0]) /\
  let sig := ref_sig SHAKE_256 w16 10 seed_c 5 [2%N] in
  all_bytes sig /\ ~ issued [OpSign [1%N]] [ObsSig s0] [2%N] sig /\ verify [2%N] sig (getPK (xf_base x)) 16 = Ok true.
Proof.
  destruct (C49_case [170%N] seed_c 10 2%N SHAKE_256 0%N [1%N] sup16) as (x & y & s0 & E & Er & _).
  exists x, y, s0. split; [exact E|]. split; [exact Er|]. cbv zeta. split; [apply PropRust2.ref_sig_bytes|]. split.
  - intros (n & H1 & _). destruct n as [|[|n]]; cbn [nth_error] in H1; congruence.
  - destruct (C48_owner_sig_accepted [170%N] seed_c 10 2%N SHAKE_256 0%N 16 w16 sup16) as (b & Eb & HV).
    destruct (C48_accepted_genuine_or_collision [170%N] seed_c 10 2%N SHAKE_256 0%N 16 w16 sup16) as (b' & Eb' & HF & _).
    rewrite Eb in Eb'. apply Ok_inj in Eb'. subst b'.
    destruct (HF eq_refl [170%N]) as (x' & Ex' & Epk). change (N.of_nat 10) with 10%N in E, Ex'. rewrite E in Ex'. apply Ok_inj in Ex'. subst x'.
    rewrite Epk, ref_sig_owner. apply HV; [|apply keyed_length].
    apply Nat.lt_le_trans with (2 ^ 3); [cbn; lia|apply Nat.pow_le_mono_r; lia].
Qed.
Example C90_accepted_signature_verdict_case := C90_accepted_signature_verdict [170%N] _ _ _ _ 0%N _ _ sup256.
Example C90_accepted_signature_verdict_fast_case := C90_accepted_signature_verdict_fast [170%N] _ _ _ _ 0%N sup16.
Example C90_genuine_iff_calls_repeated_case := C90_genuine_iff_calls_repeated [170%N] _ _ _ _ 0%N _ _ sup4.
