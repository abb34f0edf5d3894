(** C96: running out of memory in text functions, verify, addressIsValid and XmssBasic. *)
From Coq Require Import String List NArith Arith Lia Bool.
From Verif Require Import Base Bytes Keccak KeccakLemmas Sha256 HashAddress Wordlist WordlistProofs Wots XmssCommon AlgsXmss Descriptor SpecXmss SpecApi SpecMisc XmssObj Misc JsWrapper
  BasicProofs DescrProofs PropMisc PropObj PropKeys PropVerify PropJs MemText.
Import ListNotations.
Open Scope nat_scope.

(** ** Streams *)
Lemma sput_app : forall room a b s, sput room s (a ++ b) = sput room (sput room s a) b.
Proof. intros. unfold sput. apply fold_left_app. Qed.
Lemma sput_bad : forall room l t, sput room (mkOS t true) l = mkOS t true.
Proof. induction l as [|c l IH]; intros t; [reflexivity|]. cbn [sput fold_left]. unfold sputc at 2. cbn [o_bad]. apply IH. Qed.
Lemma sput_spec : forall room l t, exists k, k <= length l /\ o_text (sput room (mkOS t false) l) = t ++ firstn k l /\
  (forall n, n < k -> room (length t + n) = true) /\ (k = length l \/ room (length t + k) = false).
Proof.
  induction l as [|c l IH]; intros t.
  - exists 0. cbn. rewrite app_nil_r. repeat split; auto. intros; lia.
  - cbn [sput fold_left]. unfold sputc at 2. cbn [o_bad o_text]. destruct (room (length t)) eqn:E.
    + fold (sput room (mkOS (t ++ [c]) false) l). destruct (IH (t ++ [c])) as (k & H1 & H2 & H3 & H4).
      rewrite app_length in H3, H4. cbn [length] in H3, H4. exists (S k). cbn [length firstn]. rewrite H2, <- app_assoc. split; [lia|]. split; [reflexivity|]. split.
      * intros [|n] Hn; [now rewrite Nat.add_0_r|]. replace (length t + S n) with (length t + 1 + n) by lia. apply H3. lia.
      * replace (length t + S k) with (length t + 1 + k) by lia. destruct H4; [left; lia|now right].
    + fold (sput room (mkOS t true) l). rewrite sput_bad. exists 0. cbn [firstn o_text length]. rewrite app_nil_r, Nat.add_0_r. repeat split; auto; intros; lia.
Qed.

Lemma hex_mem_loop : forall room wrap vec count s,
  bin2hstr_mem_loop room wrap count vec s = match bin2hstr_loop wrap count vec with Ok full => Ok (sput room s full) | Exn e => Exn e | UB => UB end.
Proof.
  induction vec as [|v vec IH]; intros count s; cbn [bin2hstr_mem_loop bin2hstr_loop]; [reflexivity|].
  destruct (0 <? wrap)%N; [destruct (INT_MAX <? count + 1)%N; [reflexivity|destruct (wrap <? count + 1)%N]|]; rewrite IH;
    match goal with |- context [bin2hstr_loop ?a ?b vec] => destruct (bin2hstr_loop a b vec) as [tl| |] end; cbn [bind]; auto.
  - rewrite <- !sput_app. reflexivity.
  - now rewrite sput_app.
  - now rewrite sput_app.
Qed.
Lemma mnem_mem_loop : forall room fuel vec nib sep s,
  bin2mnemonic_mem_loop room fuel vec nib sep s = match bin2mnemonic_loop fuel vec nib sep with Ok full => Ok (sput room s full) | Exn e => Exn e | UB => UB end.
Proof.
  induction fuel as [|f IH]; intros vec nib sep s; cbn [bin2mnemonic_mem_loop bin2mnemonic_loop]; [reflexivity|].
  destruct (nib <? N.of_nat (length vec) * 2)%N; [|reflexivity].
  destruct (get vec (N.to_nat (nib / 2))) as [b1| |]; cbn [bind]; auto.
  destruct (if (nib / 2 + 1 <? N.of_nat (length vec))%N then get vec (N.to_nat (nib / 2 + 1)) else Ok 0%N) as [b2| |]; cbn [bind]; auto.
  destruct (get wordlist _) as [w| |]; cbn [bind]; auto. destruct (INT_MAX <? nib + 3)%N; [reflexivity|]. rewrite IH.
  destruct (bin2mnemonic_loop f vec (nib + 3) [32%N]) as [tl| |]; cbn [bind]; auto. now rewrite !sput_app.
Qed.

(** bin2hstr gives std::bad_alloc or, without any error, the text up to the first character
    for which there was no memory. *)
Theorem C96_hex_truncated : forall ok room vec wrap full, bin2hstr vec wrap = Ok full ->
  (bin2hstr_mem ok room vec wrap = Ok None /\ (ok 0 = false \/ ok 1 = false)) \/
  exists k, bin2hstr_mem ok room vec wrap = Ok (Some (firstn k full)) /\ k <= length full /\
    (forall n, n < k -> room n = true) /\ (k = length full \/ room k = false).
Proof.
  intros ok room vec wrap full E. unfold bin2hstr_mem. destruct (ok 0); cbn [negb]; [|left; auto].
  rewrite hex_mem_loop. unfold bin2hstr in E. rewrite E. cbn [bind]. unfold str_of. destruct (ok 1); [right|left; auto].
  destruct (sput_spec room full []) as (k & H1 & H2 & H3 & H4). rewrite H2. exists k. auto.
Qed.
(** The same for bin2mnemonic. *)
Theorem C96_mnemonic_truncated : forall ok room vec full, bin2mnemonic vec = Ok full ->
  (bin2mnemonic_mem ok room vec = Ok None /\ (ok 0 = false \/ ok 1 = false)) \/
  exists k, bin2mnemonic_mem ok room vec = Ok (Some (firstn k full)) /\ k <= length full /\
    (forall n, n < k -> room n = true) /\ (k = length full \/ room k = false).
Proof.
  intros ok room vec full E. unfold bin2mnemonic_mem. destruct (ok 0); cbn [negb]; [|left; auto].
  unfold bin2mnemonic in E. destruct (length vec mod 3 =? 0); cbn [negb] in *; [|discriminate].
  rewrite mnem_mem_loop, E. cbn [bind]. unfold str_of. destruct (ok 1); [right|left; auto].
  destruct (sput_spec room full []) as (k & H1 & H2 & H3 & H4). rewrite H2. exists k. auto.
Qed.

(** A length that is no multiple of three is refused as ever; at most the exception object
    cannot be made. *)
Theorem C96_mnemonic_bad_length : forall ok room vec, length vec mod 3 <> 0 ->
  bin2mnemonic_mem ok room vec = (if ok 0 then Exn InvalidArgument else Ok None).
Proof.
  intros ok room vec H. unfold bin2mnemonic_mem. destruct (ok 0); cbn [negb]; [|reflexivity].
  destruct (Nat.eqb_spec (length vec mod 3) 0); [contradiction|reflexivity].
Qed.
Example C96_mnemonic_bad_length_case := C96_mnemonic_bad_length (fun _ => true) (fun _ => true) [1%N] ltac:(discriminate).

(** Every truncation can happen. *)
Definition room_for (k n : nat) : bool := n <? k.
Definition all_ok (n : nat) : bool := true.
Theorem C96_every_truncation : forall vec wrap full, bin2hstr vec wrap = Ok full -> forall k, k <= length full ->
  bin2hstr_mem all_ok (room_for k) vec wrap = Ok (Some (firstn k full)).
Proof.
  intros vec wrap full E k Hk. destruct (C96_hex_truncated all_ok (room_for k) vec wrap full E) as [(_ & [X|X])|(j & E2 & H1 & H2 & H3)]; try discriminate.
  rewrite E2. do 2 f_equal. unfold room_for in *. assert (j = k); [|now subst].
  destruct (Nat.lt_trichotomy j k) as [L|[L|L]]; auto.
  - destruct H3 as [H3|H3]; [lia|]. apply Nat.ltb_ge in H3. lia.
  - specialize (H2 k L). apply Nat.ltb_lt in H2. lia.
Qed.
Lemma mnemonic_cut : forall vec full, bin2mnemonic vec = Ok full -> forall k, k <= length full ->
  bin2mnemonic_mem all_ok (room_for k) vec = Ok (Some (firstn k full)).
Proof.
  intros vec full E k Hk. destruct (C96_mnemonic_truncated all_ok (room_for k) vec full E) as [(_ & [X|X])|(j & E2 & H1 & H2 & H3)]; try discriminate.
  rewrite E2. do 2 f_equal. unfold room_for in *. assert (j = k); [|now subst].
  destruct (Nat.lt_trichotomy j k) as [L|[L|L]]; auto.
  - destruct H3 as [H3|H3]; [lia|]. apply Nat.ltb_ge in H3. lia.
  - specialize (H2 k L). apply Nat.ltb_lt in H2. lia.
Qed.

(** ** Backups *)

(** A truncated hexadecimal backup is never accepted. *)
Theorem C96_truncated_hex_backup_rejected : forall junk junk' seed height hash hf, supported hash hf 16 w16 height seed -> all_bytes seed ->
  exists x full, js_fromParameters junk seed (N.of_nat height) hash = Ok x /\ bin2hstr (getExtendedSeed (xf_base x)) 0 = Ok full /\ length full = 102 /\
    forall ok room text, bin2hstr_mem ok room (getExtendedSeed (xf_base x)) 0 = Ok (Some text) ->
      (exists k, text = firstn k full) /\ (text <> full -> js_fromHexSeed junk' text = Exn InvalidArgument).
Proof.
  intros junk junk' seed height hash hf HS HB. destruct (C55_hex_seed_backup junk junk' seed height hash hf HS HB) as (x & Ex & H).
  destruct (H [] x []) as (full & Eh & L & _); [reflexivity|]. unfold js_getHexSeed in Eh. exists x, full. split; [exact Ex|]. split; [exact Eh|]. split; [exact L|].
  intros ok room text Et. destruct (C96_hex_truncated ok room _ _ _ Eh) as [(E & _)|(k & E & Hk & _)]; [congruence|].
  assert (text = firstn k full) by congruence. subst text. split; [now exists k|]. intros Hne.
  assert (Lk : length (firstn k full) = k) by (apply firstn_length_le; exact Hk).
  assert (k <> 102). { intros ->. apply Hne. rewrite <- L at 1. apply firstn_all. }
  destruct (C56_hex_seed_import junk' (firstn k full)) as (HR & _).
  - assert (Hext : getExtendedSeed (xf_base x) = extended hash height seed).
    { destruct (two_news junk junk' _ _ _ _ HS) as (x' & z & Ex' & _ & _ & _ & HR). unfold js_fromParameters, SHA256_2X in Ex. assert (x' = x) by congruence. subst x'. apply (HR [] x []). reflexivity. }
    rewrite Hext in Eh. destruct (ext_all_bytes _ _ _ _ HS HB) as [EB EL].
    destruct (C01_hex_round_trip _ EB) as (R1 & _ & R3 & _); [rewrite EL; reflexivity|]. rewrite R1 in Eh. apply Ok_inj in Eh. rewrite Eh in R3.
    unfold ascii. rewrite Forall_forall in *. intros c Hc. assert (Hin : In c full) by (rewrite <- (firstn_skipn k full); apply in_or_app; now left).
    specialize (R3 c Hin). assert (B : forallb (fun c => c <? 128)%N hex_chars = true) by reflexivity.
    rewrite forallb_forall in B. apply N.ltb_lt. auto.
  - rewrite Lk. change (2 ^ 31)%N with 2147483648%N. lia.
  - apply HR. rewrite Lk. lia.
Qed.

Lemma words_head : forall w s, plain w -> words (w ++ 32%N :: s) = w :: words s.
Proof.
  intros w s (Hn & Hw). assert (G : fields (w ++ 32%N :: s) = w :: fields s).
  { clear Hn. induction w as [|c w IH]; [reflexivity|]. inversion Hw; subst. cbn [app fields]. rewrite IH by auto. now rewrite H1. }
  unfold words. rewrite G. cbn [filter]. destruct w; [contradiction|reflexivity].
Qed.
Lemma words_one : forall w, plain w -> words w = [w].
Proof. intros w H. exact (words_join [w] (Forall_cons _ H (Forall_nil _))). Qed.
Lemma words_prefix : forall ws k, Forall plain ws -> k < length (join 32 ws) ->
  exists j, j < length ws /\ (words (firstn k (join 32 ws)) = firstn j ws \/
    exists q r, q <> [] /\ r <> [] /\ nth_error ws j = Some (q ++ r) /\ words (firstn k (join 32 ws)) = firstn j ws ++ [q]).
Proof.
  induction ws as [|w ws IH]; intros k HF Hk; [cbn in Hk; lia|]. inversion HF as [|? ? Hw HF']; subst.
  assert (G : k < length w -> exists j, j < length (w :: ws) /\ (words (firstn k w) = firstn j (w :: ws) \/
    exists q r, q <> [] /\ r <> [] /\ nth_error (w :: ws) j = Some (q ++ r) /\ words (firstn k w) = firstn j (w :: ws) ++ [q])).
  { intros Hkw. exists 0. split; [cbn; lia|]. destruct k as [|k]; [now left|]. right. exists (firstn (S k) w), (skipn (S k) w).
    assert (firstn (S k) w <> []) by (destruct w; [cbn in Hkw; lia|discriminate]).
    assert (skipn (S k) w <> []). { intros E. apply (f_equal (@length N)) in E. rewrite skipn_length in E. cbn [length] in E. lia. }
    repeat split; auto. { cbn [nth_error]. now rewrite firstn_skipn. }
    cbn [app]. apply (words_one (firstn (S k) w)). split; auto. destruct Hw as [_ Hw]. rewrite Forall_forall in *. intros c Hc. apply Hw.
    rewrite <- (firstn_skipn (S k) w). apply in_or_app. now left. }
  destruct (Nat.lt_ge_cases k (length w)) as [Hkw|Hkw].
  - destruct (G Hkw) as (j & H1 & H2). exists j.
    assert (EF : firstn k (join 32 (w :: ws)) = firstn k w).
    { destruct ws as [|w2 ws]; [reflexivity|]. change (join 32 (w :: w2 :: ws)) with (w ++ 32%N :: join 32 (w2 :: ws)).
      rewrite firstn_app. replace (k - length w) with 0 by lia. now rewrite app_nil_r. }
    rewrite EF. auto.
  - destruct ws as [|w2 ws]; [cbn [join] in Hk; lia|].
    change (join 32 (w :: w2 :: ws)) with (w ++ 32%N :: join 32 (w2 :: ws)) in *. rewrite firstn_app, (firstn_all2 (n := k) w) by lia.
    destruct (k - length w) as [|k'] eqn:Ek.
    + exists 1. split; [cbn; lia|]. left. cbn [firstn]. rewrite app_nil_r. now apply words_one.
    + rewrite app_length in Hk. cbn [length] in Hk. cbn [firstn]. rewrite words_head by auto.
      destruct (IH k' HF' ltac:(lia)) as (j & H1 & H2). exists (S j). split; [cbn [length] in *; lia|].
      destruct H2 as [H2|(q & r & Q1 & Q2 & Q3 & Q4)]; [left; cbn [firstn]; now rewrite H2|].
      right. exists q, r. cbn [firstn nth_error app]. rewrite Q4. auto.
Qed.

(** A truncated mnemonic is accepted only if all that is lost is the end of the 34th word, and
    what is left of that word is a word of the list. *)
Theorem C96_accepted_truncation : forall junk junk' seed height hash hf, supported hash hf 16 w16 height seed -> all_bytes seed ->
  exists x full, js_fromParameters junk seed (N.of_nat height) hash = Ok x /\ bin2mnemonic (getExtendedSeed (xf_base x)) = Ok full /\
    forall ok room text, bin2mnemonic_mem ok room (getExtendedSeed (xf_base x)) = Ok (Some text) ->
      (exists k, text = firstn k full) /\
      (text <> full -> forall z, js_fromMnemonic junk' text = Ok z ->
        exists front q r, length front = 33 /\ words text = front ++ [q] /\ words full = front ++ [q ++ r] /\ r <> [] /\ In q wordlist).
Proof.
  intros junk junk' seed height hash hf HS HB. destruct (C55_mnemonic_backup junk junk' seed height hash hf HS HB) as (x & Ex & H).
  destruct (H [] x []) as (ws & full & Eh & Ef & L & HW & _); [reflexivity|]. unfold js_getMnemonic in Eh. exists x, full. split; [exact Ex|]. split; [exact Eh|].
  intros ok room text Et. destruct (C96_mnemonic_truncated ok room _ _ Eh) as [(E & _)|(k & E & Hk & _)]; [congruence|].
  assert (text = firstn k full) by congruence. subst text. split; [now exists k|]. intros Hne z Ez.
  assert (HP : Forall plain ws) by (apply Forall_forall; intros w Hin; rewrite Forall_forall in HW; apply word_plain; auto).
  assert (Hk' : k < length full). { destruct (Nat.eq_dec k (length full)) as [->|]; [|lia]. exfalso. apply Hne. apply firstn_all. }
  rewrite Ef in Hk'. destruct (words_prefix ws k HP Hk') as (j & Hj & HQ).
  assert (A : length (words (firstn k full)) = 34 /\ Forall (fun w => In w wordlist) (words (firstn k full))).
  { destruct (C56_mnemonic_import junk' (firstn k full)) as (_ & HR).
    destruct (Nat.even (blanks (firstn k full))) eqn:Eb; [exfalso; rewrite HR in Ez; [discriminate|intros (X & _); congruence]|].
    destruct (Nat.eq_dec (length (words (firstn k full))) 34) as [E34|E34]; [|exfalso; rewrite HR in Ez; [discriminate|intros (_ & X & _); congruence]].
    split; auto. destruct (Forall_dec (fun w => In w wordlist) (fun w => in_dec (list_eq_dec N.eq_dec) w wordlist) (words (firstn k full))) as [|NF]; auto.
    exfalso. rewrite HR in Ez; [discriminate|]. intros (_ & _ & X). auto. }
  destruct A as [A1 A2]. rewrite <- Ef in HQ. destruct HQ as [HQ|(q & r & Q1 & Q2 & Q3 & Q4)].
  - rewrite HQ, firstn_length in A1. lia.
  - exists (firstn j ws), q, r. rewrite Q4, app_length, firstn_length in A1. cbn [length] in A1. assert (j = 33) by lia. subst j.
    split; [rewrite firstn_length; lia|]. split; [exact Q4|]. split; [|split; [exact Q2|]].
    + rewrite Ef, words_join by auto. rewrite <- (firstn_skipn 33 ws) at 1. f_equal.
      assert (LS : length (skipn 33 ws) = 1) by (rewrite skipn_length; lia).
      assert (E0 : nth_error (skipn 33 ws) 0 = Some (q ++ r)).
      { rewrite <- (firstn_skipn 33 ws) in Q3. rewrite nth_error_app2 in Q3 by (rewrite firstn_length; lia). rewrite firstn_length in Q3.
        replace (33 - Nat.min 33 (length ws)) with 0 in Q3 by lia. exact Q3. }
      destruct (skipn 33 ws) as [|u [|]]; cbn [length] in LS; try lia. cbn in E0. congruence.
    + rewrite Q4 in A2. apply Forall_app in A2. destruct A2 as [_ A2]. now inversion A2.
Qed.

Lemma pack3_app : forall k a b, length a = 3 * k -> pack3 (a ++ b) = pack3 a ++ pack3 b.
Proof.
  induction k as [|k IH]; intros a b H; [destruct a; [reflexivity|cbn in H; lia]|].
  destruct a as [|u [|v [|w a]]]; cbn [length] in H; try lia. cbn [app pack3]. rewrite IH by lia. reflexivity.
Qed.
Lemma join_last : forall ws (q r : list N), join 32 (ws ++ [q ++ r]) = join 32 (ws ++ [q]) ++ r.
Proof.
  induction ws as [|w ws IH]; intros q r; [reflexivity|]. cbn [app]. destruct (ws ++ [q ++ r]) as [|u us] eqn:E; [now destruct ws|].
  destruct (ws ++ [q]) as [|u' us'] eqn:E'; [now destruct ws|].
  change (join 32 (w :: u :: us)) with (w ++ 32%N :: join 32 (u :: us)). change (join 32 (w :: u' :: us')) with (w ++ 32%N :: join 32 (u' :: us')).
  rewrite <- E, <- E', IH. now rewrite <- app_assoc.
Qed.
Lemma last_word : forall e n a b, length e = 49 -> (n < 16)%N -> (a < 16)%N -> (b < 256)%N ->
  pack3 (nibs (e ++ [16 * n + a; b]%N)) = pack3 (nibs e ++ [n]) ++ [256 * a + b]%N.
Proof.
  intros e n a b HL Hn Ha Hb. unfold nibs. rewrite flat_map_app. fold (nibs e). cbn [flat_map app].
  assert (E1 : ((16 * n + a) / 16 = n)%N) by (symmetry; apply (N.div_unique _ _ _ a); lia).
  assert (E2 : ((16 * n + a) mod 16 = a)%N) by (symmetry; apply (N.mod_unique _ _ n); lia). rewrite E1, E2.
  change (n :: a :: (b / 16)%N :: [(b mod 16)%N]) with ([n] ++ [a; b / 16; b mod 16]%N). rewrite app_assoc, (pack3_app 33).
  - f_equal. cbn [pack3]. f_equal. pose proof (N.div_mod b 16 ltac:(lia)). lia.
  - rewrite app_length, nibs_length. cbn [length]. lia.
Qed.

(** Such a mnemonic restores another wallet: the one of another seed. *)
Theorem C96_truncated_mnemonic_other_wallet : forall junk junk' hash hf height s n a b a' b' r,
  let seed := s ++ [16 * n + a; b]%N in
  let seed' := s ++ [16 * n + a'; b']%N in
  supported hash hf 16 w16 height seed -> all_bytes s ->
  (n < 16)%N -> (a < 16)%N -> (b < 256)%N -> (a' < 16)%N -> (b' < 256)%N ->
  word (256 * a + b) = word (256 * a' + b') ++ r -> r <> [] ->
  exists x x' text, js_fromParameters junk seed (N.of_nat height) hash = Ok x /\ js_fromParameters junk seed' (N.of_nat height) hash = Ok x' /\
    bin2mnemonic_mem all_ok (room_for (length text)) (getExtendedSeed (xf_base x)) = Ok (Some text) /\
    exists z, js_fromMnemonic junk' text = Ok z /\ same_wallet x' z /\ getExtendedSeed (xf_base z) <> getExtendedSeed (xf_base x).
Proof.
  intros junk junk' hash hf height s n a b a' b' r seed seed' HS HBs Hn Ha Hb Ha' Hb' Hw Hr.
  assert (Ls : length seed = 48) by apply HS. assert (L46 : length s = 46) by (unfold seed in Ls; rewrite app_length in Ls; cbn [length] in Ls; lia).
  assert (HS' : supported hash hf 16 w16 height seed').
  { destruct HS as (H1 & H2 & H3 & H4 & _). refine (conj H1 (conj H2 (conj H3 (conj H4 _)))). unfold seed'. rewrite app_length, L46. reflexivity. }
  assert (HB : all_bytes seed). { unfold seed. apply Forall_app. split; auto. repeat constructor; unfold is_byte; lia. }
  assert (HB' : all_bytes seed'). { unfold seed'. apply Forall_app. split; auto. repeat constructor; unfold is_byte; lia. }
  destruct (two_news junk junk _ _ _ _ HS) as (x & _ & Ex & _ & _ & _ & HR). destruct (HR [] x [] eq_refl) as (Hext & _).
  destruct (C55_mnemonic_backup junk junk' seed' height hash hf HS' HB') as (x' & Ex' & H').
  destruct (H' [] x' []) as (ws' & text' & Et' & Ej' & L' & HW' & Him); [reflexivity|].
  destruct (two_news junk junk _ _ _ _ HS') as (y' & _ & Ey' & _ & _ & _ & HR'). assert (y' = x') by (unfold js_fromParameters, SHA256_2X in Ex'; congruence). subst y'.
  destruct (HR' [] x' [] eq_refl) as (Hext' & _).
  assert (ME : forall sd c d, sd = s ++ [16 * n + c; d]%N -> supported hash hf 16 w16 height sd -> all_bytes sd -> (c < 16)%N -> (d < 256)%N ->
    bin2mnemonic (extended hash height sd) = Ok (join 32 (map word (pack3 (nibs (hash :: N.of_nat (height / 2) :: 0%N :: s) ++ [n])) ++ [word (256 * c + d)]))).
  { intros sd c d -> Hsd HBd Hc Hd. destruct (ext_all_bytes _ _ _ _ Hsd HBd) as [EB EL].
    rewrite enc_spec by (auto; rewrite EL; reflexivity). rewrite EL. change (51 mod 3 =? 0) with true. cbv iota. do 2 f_equal.
    change (extended hash height (s ++ [(16 * n + c)%N; d])) with ((hash :: N.of_nat (height / 2) :: 0%N :: s) ++ [(16 * n + c)%N; d]).
    rewrite last_word by (auto; cbn [length]; lia). now rewrite map_app. }
  pose proof (ME seed a b eq_refl HS HB Ha Hb) as M1. pose proof (ME seed' a' b' eq_refl HS' HB' Ha' Hb') as M2.
  unfold js_getMnemonic in Et'. rewrite Hext', M2 in Et'. apply Ok_inj in Et'. rewrite Hw, join_last, Et' in M1.
  exists x, x', text'. split; [exact Ex|]. split; [exact Ex'|]. split.
  - rewrite Hext, (mnemonic_cut _ _ M1 (length text')) by (rewrite app_length; lia).
    rewrite firstn_app, firstn_all, Nat.sub_diag. cbn [firstn]. now rewrite app_nil_r.
  - assert (HP : Forall plain ws') by (apply Forall_forall; intros w Hin; rewrite Forall_forall in HW'; apply word_plain; auto).
    destruct (Him text') as (z & Ez & Sz & _). { rewrite Ej'. now apply words_join. } { rewrite Ej', blanks_join, L' by auto. reflexivity. }
    exists z. split; [exact Ez|]. split; [exact Sz|]. destruct Sz as (Eb & _). rewrite Eb, Hext, Hext'. intros Eq.
    apply Hr. assert (Es : seed = seed') by (symmetry; exact (f_equal (skipn 3) Eq)). unfold seed, seed' in Es. apply app_inv_head in Es.
    assert (a = a') by (injection Es; intros; lia). assert (b = b') by congruence. subst a' b'.
    apply (f_equal (@length N)) in Hw. rewrite app_length in Hw. destruct r; [reflexivity|cbn [length] in Hw; lia].
Qed.

(** ** Decoding *)

(** The words up to the first one for which there was no memory. *)
Fixpoint held (hold : nat -> list N -> bool) (j : nat) (ws : list (list N)) : list (list N) :=
  match ws with
  | [] => []
  | w :: r => if hold j w then w :: held hold (S j) r else []
  end.

Lemma decode_mem_spec : forall hold push fuel j ss ns cur buf out, length ss < fuel -> dstate ns cur buf out ->
  (decode_mem_loop hold push j fuel ss cur buf out = Ok None /\ exists n, push n = false) \/
  match indices (held hold j (words ss)) with
  | None => decode_mem_loop hold push j fuel ss cur buf out = Exn InvalidArgument
  | Some ds => exists cur' buf' out', decode_mem_loop hold push j fuel ss cur buf out = Ok (Some (cur', buf', out')) /\
      dstate (ns ++ flat_map nibbles3 ds) cur' buf' out'
  end.
Proof.
  intros hold push. induction fuel as [|fuel IH]; intros j ss ns cur buf out HL HD; [lia|].
  cbn [decode_mem_loop]. pose proof (extract_spec ss) as HE. destruct (extract_word ss) as [[w r]|].
  - destruct HE as (EW & HR). rewrite EW. cbn [held]. destruct (hold j w); cbn [negb].
    + cbn [indices]. rewrite word_lookup_spec.
      destruct (index_of wordlist w) as [v|] eqn:Ei; [|now right]. destruct (index_word _ _ Ei) as [Hv _].
      destruct (drain_spec ns cur buf out v HD Hv) as (cur' & buf' & out' & Ed & HD'). rewrite Ed. cbn [bind].
      destruct (forallb push (seq (length out) (length out' - length out))) eqn:Ep; cbn [negb].
      * destruct (IH (S j) r (ns ++ nibbles3 v) cur' buf' out' ltac:(lia) HD') as [I|I]; [now left|right].
        destruct (indices (held hold (S j) (words r))) as [ds|]; [|exact I].
        destruct I as (c2 & b2 & o2 & E2 & D2). exists c2, b2, o2. split; auto. cbn [flat_map]. now rewrite app_assoc.
      * left. split; auto. apply not_true_iff_false in Ep. rewrite forallb_forall in Ep.
        destruct (existsb (fun n => negb (push n)) (seq (length out) (length out' - length out))) eqn:Ex.
        { apply existsb_exists in Ex. destruct Ex as (n & _ & Hn). exists n. now apply negb_true_iff. }
        exfalso. apply Ep. intros n Hn. destruct (push n) eqn:Epn; auto. exfalso. apply not_true_iff_false in Ex. apply Ex.
        apply existsb_exists. exists n. split; [exact Hn|]. rewrite Epn. reflexivity.
    + right. cbn [indices]. do 3 eexists. split; [reflexivity|]. cbn [flat_map]. now rewrite app_nil_r.
  - right. rewrite HE. cbn [held indices]. do 3 eexists. split; [reflexivity|]. cbn [flat_map]. now rewrite app_nil_r.
Qed.

(** mnemonic2bin gives std::bad_alloc, or what it gives for the words up to the first one it
    could not read, without any error. *)
Theorem C96_decoder : forall ok hold push text,
  (mnemonic2bin_mem ok hold push text = Ok None /\ (ok 0 = false \/ exists n, push n = false)) \/
  mnemonic2bin_mem ok hold push text =
  (if Nat.even (blanks text) then Exn InvalidArgument
   else match indices (held hold 0 (words text)) with
        | Some ds => Ok (Some (pack (flat_map nibbles3 ds)))
        | None => Exn InvalidArgument
        end).
Proof.
  intros ok hold push text. unfold mnemonic2bin_mem. destruct (ok 0); cbn [negb]; [|now left; auto].
  rewrite count_blanks, parity. destruct (Nat.even (blanks text)); [now right|]. cbn [negb].
  assert (H0 : dstate [] 0 0 []). { exists [], []. repeat split; auto. }
  destruct (decode_mem_spec hold push (S (length text)) 0 text [] 0%N 0%N [] ltac:(lia) H0) as [(E & HX)|HD]; [left; rewrite E; cbn [bind]; auto|].
  destruct (indices (held hold 0 (words text))) as [ds|]; [|right; now rewrite HD].
  destruct HD as (cur & buf & out & E & (done & pend & En & He & Eo & Hp & Hc)). rewrite E. cbn [bind app] in *. rewrite En, pack_app', <- Eo by auto.
  destruct Hc as [(-> & -> & ->)|[(x & -> & -> & ->)|(x & y & -> & -> & ->)]].
  - right. cbn. now rewrite app_nil_r.
  - change (0 <? 1)%N with true. cbv iota. destruct (push (length out)) eqn:Ep; [right|left; split; eauto].
    inversion Hp; subst. cbn [pack]. do 3 f_equal. f_equal.
    change 255%N with (N.ones 8). rewrite N.land_ones. change (2 ^ 8)%N with 256%N. apply N.mod_small. lia.
  - change (0 <? 2)%N with true. cbv iota. destruct (push (length out)) eqn:Ep; [right|left; split; eauto].
    inversion Hp as [|? ? Hx Hp1]; subst. inversion Hp1; subst. cbn [pack]. do 3 f_equal. f_equal.
    change 255%N with (N.ones 8). rewrite N.land_ones. change (2 ^ 8)%N with 256%N. apply N.mod_small. lia.
Qed.

Lemma held_all : forall hold ws j, (forall i w, In w ws -> hold i w = true) -> held hold j ws = ws.
Proof. induction ws as [|w ws IH]; intros j H; cbn [held]; auto. rewrite H by (now left). f_equal. apply IH. intros; apply H. now right. Qed.
Lemma list_words_short : forall w, In w wordlist -> length w < 16.
Proof.
  assert (H : forallb (fun w => length w <? 16) wordlist = true) by (vm_compute; reflexivity). rewrite forallb_forall in H.
  intros w Hw. apply Nat.ltb_lt. auto.
Qed.
(** Where short words need no memory (std::string keeps up to 15 characters in the object),
    a text of list words is decoded exactly or std::bad_alloc is thrown. *)
Theorem C96_good_mnemonic_exact : forall ok hold push text, Forall (fun w => In w wordlist) (words text) ->
  (forall i w, length w < 16 -> hold i w = true) ->
  mnemonic2bin_mem ok hold push text = Ok None \/
  (exists v, mnemonic2bin text = Ok v /\ mnemonic2bin_mem ok hold push text = Ok (Some v)) \/
  (mnemonic2bin text = Exn InvalidArgument /\ mnemonic2bin_mem ok hold push text = Exn InvalidArgument).
Proof.
  intros ok hold push text HW HH. destruct (C96_decoder ok hold push text) as [[E _]|E]; [now left|right].
  rewrite held_all in E. 2:{ intros i w Hw. apply HH, list_words_short. rewrite Forall_forall in HW. auto. }
  rewrite C05_mnemonic_decoder. destruct (Nat.even (blanks text)); [now right|]. destruct (indices (words text)); [left; eauto|now right].
Qed.
(** A text that is no mnemonic can be accepted: a good mnemonic, and then anything that starts
    with a long word. *)
Theorem C96_garbage_accepted : forall ok push ws gs v, ok 0 = true -> (forall n, push n = true) ->
  Forall (fun w => In w wordlist) ws -> Forall plain gs -> 16 <= length (hd [] gs) -> Nat.even (length gs) = true -> gs <> [] ->
  mnemonic2bin (join 32 ws) = Ok v ->
  mnemonic2bin (join 32 (ws ++ gs)) = Exn InvalidArgument /\
  mnemonic2bin_mem ok (fun _ w => length w <? 16) push (join 32 (ws ++ gs)) = Ok (Some v).
Proof.
  intros ok push ws gs v Hok Hpush HW HG Hlong He Hne Hv.
  assert (HP : Forall plain ws) by (apply Forall_forall; intros w Hin; rewrite Forall_forall in HW; apply word_plain; auto).
  assert (HPA : Forall plain (ws ++ gs)) by (apply Forall_app; auto).
  destruct gs as [|g gs]; [contradiction|]. cbn [hd] in Hlong.
  rewrite C05_mnemonic_decoder, blanks_join, words_join in Hv by auto.
  assert (Hb : Nat.even (length (ws ++ g :: gs) - 1) = false).
  { destruct ws as [|w0 ws]; [destruct (Nat.even (length (@nil (list N)) - 1)) eqn:EE; [discriminate|discriminate EE]|].
    rewrite app_length. cbn [length] in *. replace (S (length ws) + S (length gs) - 1) with (length ws + S (length gs)) by lia.
    replace (S (length ws) - 1) with (length ws) in Hv by lia. destruct (Nat.even (length ws)) eqn:EE; [discriminate|].
    rewrite Nat.even_add, EE, He. reflexivity. }
  assert (Hv' : exists ds, indices ws = Some ds /\ v = pack (flat_map nibbles3 ds)).
  { destruct (Nat.even (length ws - 1)); [discriminate|]. destruct (indices ws) as [ds|]; [|discriminate]. exists ds. split; auto. apply Ok_inj in Hv. auto. }
  destruct Hv' as (ds & Ei & ->). split.
  - rewrite C05_mnemonic_decoder, blanks_join, words_join, Hb by auto. destruct (indices (ws ++ g :: gs)) as [es|] eqn:Eg; auto. exfalso.
    destruct (indices_some _ _ Eg) as (H1 & H2 & _).
    assert (In g wordlist). { assert (In g (map word es)) by (rewrite H2; apply in_or_app; right; now left).
      apply in_map_iff in H. destruct H as (d & <- & Hd). apply word_in. rewrite Forall_forall in H1. auto. }
    pose proof (list_words_short g H). lia.
  - destruct (C96_decoder ok (fun _ w => length w <? 16) push (join 32 (ws ++ g :: gs))) as [[_ [X|(n & X)]]|E]; [congruence|rewrite Hpush in X; discriminate|].
    rewrite E, blanks_join, words_join, Hb by auto.
    assert (EH : forall j, held (fun _ w => length w <? 16) j (ws ++ g :: gs) = ws).
    { clear - HW Hlong. induction HW as [|w ws Hw _ IH]; intros j; cbn [app held].
      - replace (length g <? 16) with false by (symmetry; apply Nat.ltb_ge; lia). reflexivity.
      - rewrite (proj2 (Nat.ltb_lt _ _) (list_words_short w Hw)). f_equal. apply IH. }
    now rewrite EH, Ei.
Qed.

(** ** Verification, addresses, XmssBasic *)

(** verify never gives a wrong answer: std::bad_alloc, or the answer it gives with enough memory. *)
Theorem C96_verify_never_wrong : forall ok msg sig epk w,
  verify_mem ok msg sig epk w = Ok None \/
  verify_mem ok msg sig epk w = match verify msg sig epk w with Ok b => Ok (Some b) | Exn e => Exn e | UB => UB end.
Proof.
  intros ok msg sig epk w. unfold verify_mem, verify.
  assert (G : verify_mem_body ok msg sig epk w = Ok None \/
    verify_mem_body ok msg sig epk w = match verify_body msg sig epk w with Ok b => Ok (Some b) | Exn e => Exn e | UB => UB end).
  { unfold verify_mem_body, verify_body, throw_mem. destruct (negb (length epk =? 67)); [destruct (ok 0); auto|].
    destruct (calculateSignatureBaseSize w) as [base| |]; cbn [bind]; auto.
    destruct (base + 254 * 32 <? N.of_nat (length sig))%N; [destruct (ok 0); auto|].
    destruct (ok 1); cbn [negb]; auto. destruct (descr_fromExtendedPK epk) as [desc| |]; cbn [bind]; auto.
    destruct (negb (d_sig desc =? 0)%N); auto.
    destruct (getHeightFromSigSize (N.of_nat (length sig)) w) as [height|e|]; cbn [bind]; auto; [|destruct (ok 0); auto].
    destruct ((height =? 0)%N || negb (d_height desc =? height)%N); auto. destruct (bad_height height); [destruct (ok 0); auto|].
    destruct (xmss_set_params (N.to_nat height) w 2) as [p| |]; cbn [bind]; auto.
    destruct (ok 2); cbn [negb]; auto. destruct (negb (ok 3) && negb (length msg =? 0)); auto. }
  revert G. generalize (verify_mem_body ok msg sig epk w) (verify_body msg sig epk w). intros r1 r2 G. destruct G as [G|G]; rewrite G; [now left|right].
  destruct r2 as [b|[]|]; reflexivity.
Qed.
Theorem C96_verify_enough_memory : forall msg sig epk w,
  verify_mem all_ok msg sig epk w = match verify msg sig epk w with Ok b => Ok (Some b) | Exn e => Exn e | UB => UB end.
Proof.
  intros msg sig epk w. unfold verify_mem, verify.
  assert (G : verify_mem_body all_ok msg sig epk w = match verify_body msg sig epk w with Ok b => Ok (Some b) | Exn e => Exn e | UB => UB end).
  { unfold verify_mem_body, verify_body, throw_mem, all_ok. destruct (negb (length epk =? 67)); auto.
    destruct (calculateSignatureBaseSize w) as [base| |]; cbn [bind]; auto.
    destruct (base + 254 * 32 <? N.of_nat (length sig))%N; auto. cbn [negb].
    destruct (descr_fromExtendedPK epk) as [desc| |]; cbn [bind]; [|reflexivity|reflexivity]. destruct (negb (d_sig desc =? 0)%N); auto.
    destruct (getHeightFromSigSize (N.of_nat (length sig)) w) as [height|e|]; cbn [bind]; auto.
    destruct ((height =? 0)%N || negb (d_height desc =? height)%N); auto. destruct (bad_height height); auto.
    destruct (xmss_set_params (N.to_nat height) w 2) as [p| |]; cbn [bind negb andb]; auto. }
  rewrite G. generalize (verify_body msg sig epk w). intros [b|[]|]; reflexivity.
Qed.

(** addressIsValid never accepts an invalid address, but a valid one is reported invalid. *)
Theorem C96_address : forall ok a b, addressIsValid a = Ok b ->
  (addressIsValid_mem ok a = Ok b \/ addressIsValid_mem ok a = Ok false) /\
  addressIsValid_mem all_ok a = Ok b /\
  ((exists i, i < 3 /\ ok i = false) -> b = true -> addressIsValid_mem ok a = Ok false).
Proof.
  intros ok a b. unfold addressIsValid_mem, addressIsValid, addressIsValid_mem_body, addressIsValid_body, all_ok.
  destruct (negb (length a =? 39)) eqn:E39; [intros E; split; [auto|split; [auto|intros _ ->; discriminate]]|]. cbn [negb].
  destruct (descr_fromBytes (firstn descr_getSize a)) as [d| |]; cbn [bind].
  2:{ intros E. destruct (ok 0); cbn [negb]; split; auto; split; auto; intros _ ->; discriminate. }
  2:{ discriminate. }
  destruct (negb (d_fmt d =? SHA256_2X)%N). { intros E. destruct (ok 0); cbn [negb]; split; auto; split; auto; intros _ ->; discriminate. }
  cbv zeta. destruct (get a 35) as [x35| |]; cbn [bind]; [|intros E; split; [destruct (ok 0), (ok 1), (ok 2); cbn [negb]; auto|split; auto; intros _ ->; discriminate]|discriminate].
  destruct (get (sha256 (firstn 35 a)) 28) as [y28| |]; cbn [bind]; [|intros E; split; [destruct (ok 0), (ok 1), (ok 2); cbn [negb]; auto|split; auto; intros _ ->; discriminate]|discriminate].
  destruct (get a 36) as [x36| |]; cbn [bind]; [|intros E; split; [destruct (ok 0), (ok 1), (ok 2); cbn [negb]; auto|split; auto; intros _ ->; discriminate]|discriminate].
  destruct (get (sha256 (firstn 35 a)) 29) as [y29| |]; cbn [bind]; [|intros E; split; [destruct (ok 0), (ok 1), (ok 2); cbn [negb]; auto|split; auto; intros _ ->; discriminate]|discriminate].
  destruct (get a 37) as [x37| |]; cbn [bind]; [|intros E; split; [destruct (ok 0), (ok 1), (ok 2); cbn [negb]; auto|split; auto; intros _ ->; discriminate]|discriminate].
  destruct (get (sha256 (firstn 35 a)) 30) as [y30| |]; cbn [bind]; [|intros E; split; [destruct (ok 0), (ok 1), (ok 2); cbn [negb]; auto|split; auto; intros _ ->; discriminate]|discriminate].
  destruct (get a 38) as [x38| |]; cbn [bind]; [|intros E; split; [destruct (ok 0), (ok 1), (ok 2); cbn [negb]; auto|split; auto; intros _ ->; discriminate]|discriminate].
  destruct (get (sha256 (firstn 35 a)) 31) as [y31| |]; cbn [bind]; [|intros E; split; [destruct (ok 0), (ok 1), (ok 2); cbn [negb]; auto|split; auto; intros _ ->; discriminate]|discriminate].
  intros E. split; [destruct (ok 0), (ok 1), (ok 2); cbn [negb]; auto|]. split; auto.
  intros (i & Hi & Ho) _. destruct i as [|[|[|i]]]; [| | |lia]; rewrite Ho; destruct (ok 0), (ok 1); cbn [negb]; reflexivity.
Qed.

(** XmssBasic.sign that fails for want of memory changes nothing: no index is used up. *)
Theorem C96_basic_sign : forall ok junk o msg,
  XmssBasic_sign_mem ok junk o msg = Ok (o, None) \/
  XmssBasic_sign_mem ok junk o msg = match XmssBasic_sign junk o msg with Ok (o', s) => Ok (o', Some s) | Exn e => Exn e | UB => UB end.
Proof.
  intros ok junk o msg. unfold XmssBasic_sign_mem. destruct (ok 0); cbn [negb]; [|now left].
  destruct (negb (ok 1) && negb (length msg =? 0)); [now left|right]. generalize (XmssBasic_sign junk o msg). intros [[o' s]|e|]; reflexivity.
Qed.

(** ** Cases *)
Definition seed46 : list N := map N.of_nat (seq 100 46).
(** The mnemonic of a wallet ends with "action"; cut by three letters it ends with "act" and
    is the mnemonic of another wallet. *)
Example C96_action_act_case : exists x x' text, js_fromParameters [7%N] (seed46 ++ [16 * 5 + 0; 32]%N) 10 2 = Ok x /\
  js_fromParameters [7%N] (seed46 ++ [16 * 5 + 0; 31]%N) 10 2 = Ok x' /\
  bin2mnemonic_mem all_ok (room_for (length text)) (getExtendedSeed (xf_base x)) = Ok (Some text) /\
  exists z, js_fromMnemonic [8%N] text = Ok z /\ same_wallet x' z /\ getExtendedSeed (xf_base z) <> getExtendedSeed (xf_base x).
Proof.
  apply (C96_truncated_mnemonic_other_wallet [7%N] [8%N] 2 SHAKE_256 10 seed46 5 0 32 0 31 (codes "ion")); try reflexivity; [|repeat constructor|discriminate].
  repeat split; auto; lia.
Qed.
Lemma sup_mem : supported 2 SHAKE_256 16 w16 10 (seed46 ++ [80; 32]%N).
Proof. repeat split; auto; lia. Qed.
Lemma bytes_mem : all_bytes (seed46 ++ [80; 32]%N).
Proof. repeat constructor. Qed.
Example C96_truncated_hex_backup_rejected_case := C96_truncated_hex_backup_rejected [7%N] [8%N] _ _ _ _ sup_mem bytes_mem.
Example C96_accepted_truncation_case := C96_accepted_truncation [7%N] [8%N] _ _ _ _ sup_mem bytes_mem.
Example C96_hex_case : bin2hstr_mem all_ok (room_for 5) [1; 171; 255; 16]%N 0 = Ok (Some (codes "01abf")) /\
  bin2hstr_mem (fun n => n <? 1) (room_for 5) [1; 171]%N 0 = Ok None.
Proof. split; reflexivity. Qed.
Example C96_mnemonic_case : bin2mnemonic [0; 0; 1]%N = Ok (codes "aback abbey") /\
  bin2mnemonic_mem all_ok (room_for 9) [0; 0; 1]%N = Ok (Some (codes "aback abb")).
Proof. split; vm_compute; reflexivity. Qed.
(** A good mnemonic of two words, and two long words: refused, but accepted with the value of
    the good one when there is no memory for the third word. *)
Definition long_words : list (list N) := [codes "antidisestablishmentarianism"; codes "floccinaucinihilipilification"].
Example C96_garbage_case :
  mnemonic2bin (join 32 ([codes "aback"; codes "abbey"] ++ long_words)) = Exn InvalidArgument /\
  mnemonic2bin_mem all_ok (fun _ w => length w <? 16) all_ok (join 32 ([codes "aback"; codes "abbey"] ++ long_words)) = Ok (Some [0; 0; 1]%N).
Proof.
  apply C96_garbage_accepted; try reflexivity; try discriminate.
  - assert (B : forallb (fun w => match index_of wordlist w with Some _ => true | None => false end) [codes "aback"; codes "abbey"] = true) by (vm_compute; reflexivity).
    rewrite forallb_forall in B. apply Forall_forall. intros w Hw. specialize (B w Hw). destruct (index_of wordlist w) as [i|] eqn:E; [|discriminate].
    destruct (index_word _ _ E) as [Hi <-]. apply word_in. exact Hi.
  - repeat constructor; try discriminate.
  - vm_compute. lia.
Qed.
(** A valid address (zero descriptor bytes with height 10), called invalid without memory. *)
Definition addr_mem : list N :=
  let body := [0; 5; 0]%N ++ repeat 9%N 32 in body ++ skipn 28 (sha256 body).
Example C96_address_case : addressIsValid addr_mem = Ok true /\ addressIsValid_mem (fun n => n <? 2) addr_mem = Ok false /\ addressIsValid_mem all_ok addr_mem = Ok true.
Proof. split; [|split]; vm_compute; reflexivity. Qed.
Example C96_verify_case : verify_mem (fun n => 1 <? n) [] [] (repeat 0%N 67) 16 = Ok None /\ verify_mem all_ok [] [] (repeat 0%N 67) 16 = Ok (Some false).
Proof. split; vm_compute; reflexivity. Qed.
