(** Text encodings and seeds: C01-C07, C41-C43. *)
From Coq Require Import String List NArith Arith Lia Bool.
From Verif Require Import Base Bytes Keccak KeccakLemmas Sha256 Wordlist WordlistProofs Misc SpecMisc.
From Verif Require Export SpecTerms.
Import ListNotations.
Open Scope N_scope.

Lemma Ok_inj : forall A (a b : A), Ok a = Ok b -> a = b.
Proof. congruence. Qed.

(** Case analysis on a number below a small constant. *)
Lemma below : forall (P : N -> Prop) n, forallb (fun _ => true) (seq 0 n) = true ->
  (forall k, (k < n)%nat -> P (N.of_nat k)) -> forall x, x < N.of_nat n -> P x.
Proof. intros P n _ H x Hx. rewrite <- (N2Nat.id x). apply H. lia. Qed.

Lemma below_b : forall (f : N -> bool) n, forallb (fun k => f (N.of_nat k)) (seq 0 n) = true ->
  forall x, x < N.of_nat n -> f x = true.
Proof.
  intros f n H x Hx. rewrite forallb_forall in H. rewrite <- (N2Nat.id x). apply H. apply in_seq. lia.
Qed.

(** ** Hexadecimal *)
Definition hexc (d : N) : N := nth (N.to_nat d) hex_chars 0.
Lemma put_hex_ok : forall b, b < 256 -> put_hex b = [hexc (b / 16); hexc (b mod 16)].
Proof.
  intros b Hb.
  assert (E : (if list_eq_dec N.eq_dec (put_hex b) [hexc (b / 16); hexc (b mod 16)] then true else false) = true).
  { revert b Hb. apply (below_b _ 256). vm_compute. reflexivity. }
  destruct (list_eq_dec N.eq_dec _ _); [auto|discriminate].
Qed.

Lemma hex_text_cons : forall b v, hex_text (b :: v) = [hexc (b / 16); hexc (b mod 16)] ++ hex_text v.
Proof. reflexivity. Qed.
Lemma hex_text_app : forall a b, hex_text (a ++ b) = hex_text a ++ hex_text b.
Proof. intros. apply flat_map_app. Qed.
Lemma hex_text_length : forall v, length (hex_text v) = (2 * length v)%nat.
Proof. induction v; auto. rewrite hex_text_cons, app_length, IHv. cbn [length]. lia. Qed.

Lemma bin2hstr_nowrap : forall v c, all_bytes v -> bin2hstr_loop 0 c v = Ok (hex_text v).
Proof.
  induction v as [|b v IH]; intros c H; [reflexivity|]. inversion H; subst.
  cbn [bin2hstr_loop]. change (0 <? 0) with false. cbv iota. rewrite IH by auto. cbn [bind].
  rewrite put_hex_ok by auto. reflexivity.
Qed.

(** Decoding of single characters. *)
Definition hexval (c : N) : N := getHexValue c.
Lemma hexc_ok : forall d, d < 16 -> isxdigit (hexc d) = Ok true /\ hexval (hexc d) = d /\ is_hex (hexc d) /\ lower [hexc d] = [hexc d] /\ hexc d < 128.
Proof.
  intros d Hd.
  assert (E : (match isxdigit (hexc d) with Ok true => true | _ => false end && (hexval (hexc d) =? d) &&
    (if in_dec N.eq_dec (hexc d) (codes "0123456789abcdefABCDEF"%string) then true else false) &&
    (if list_eq_dec N.eq_dec (lower [hexc d]) [hexc d] then true else false) && (hexc d <? 128)) = true).
  { revert d Hd. apply (below_b _ 16). vm_compute. reflexivity. }
  rewrite !andb_true_iff in E. destruct E as ((((E1 & E2) & E3) & E4) & E5).
  destruct (isxdigit (hexc d)) as [[|]| |]; try discriminate.
  destruct (in_dec _ _ _); try discriminate. destruct (list_eq_dec _ _ _); try discriminate.
  apply N.eqb_eq in E2. apply N.ltb_lt in E5. auto.
Qed.

(** On ASCII characters: hex digit or not, and the value of a hex digit. *)
Lemma xdigit_ascii : forall c, c < 128 ->
  (is_hex c /\ isxdigit c = Ok true /\ hexval c < 16 /\ lower [c] = [hexc (hexval c)]) \/ (~ is_hex c /\ isxdigit c = Ok false).
Proof.
  intros c Hc. unfold is_hex.
  assert (E : (if in_dec N.eq_dec c (codes "0123456789abcdefABCDEF"%string)
     then match isxdigit c with Ok true => true | _ => false end && (hexval c <? 16) &&
       (if list_eq_dec N.eq_dec (lower [c]) [hexc (hexval c)] then true else false)
     else match isxdigit c with Ok false => true | _ => false end) = true).
  { revert c Hc. apply (below_b _ 128). vm_compute. reflexivity. }
  destruct (in_dec N.eq_dec c _).
  - left. rewrite !andb_true_iff in E. destruct E as ((E1 & E2) & E3). split; auto.
    destruct (isxdigit c) as [[|]| |]; try discriminate. destruct (list_eq_dec _ _ _); try discriminate.
    apply N.ltb_lt in E2. auto.
  - right. split; auto. destruct (isxdigit c) as [[|]| |]; try discriminate; auto.
Qed.

Lemma byte_parts : forall b, b < 256 -> b / 16 < 16 /\ b mod 16 < 16 /\ 16 * (b / 16) + b mod 16 = b.
Proof.
  intros b Hb. split; [apply N.div_lt_upper_bound; lia|]. split; [apply N.mod_lt; lia|]. symmetry. apply N.div_mod'.
Qed.

Lemma hstr2bin_hex : forall v i, all_bytes v -> i + 2 * N.of_nat (length v) <= INT_MAX ->
  hstr2bin_loop i (hex_text v) = Ok v.
Proof.
  induction v as [|b v IH]; intros i H Hi; [reflexivity|]. inversion H; subst.
  destruct (byte_parts b) as (P1 & P2 & P3); auto.
  rewrite hex_text_cons. cbn [app hstr2bin_loop].
  destruct (hexc_ok _ P1) as (A1 & A2 & _). destruct (hexc_ok _ P2) as (B1 & B2 & _).
  rewrite A1, B1. cbn [bind negb]. unfold hexval in A2, B2. rewrite A2, B2.
  cbn [length] in Hi. rewrite (proj2 (N.ltb_ge INT_MAX (i + 2))) by lia.
  rewrite IH by (auto; lia). cbn [bind]. rewrite N.mul_comm, P3. unfold u8. rewrite N.mod_small by auto. reflexivity.
Qed.

(** C01.  The library counts characters with [int]: text longer than 2^31 - 1
    characters overflows the counter, hence the bound. *)
Theorem C01_hex_round_trip : forall v, all_bytes v -> 2 * N.of_nat (length v) < 2 ^ 31 ->
  bin2hstr v 0 = Ok (hex_text v) /\ length (hex_text v) = (2 * length v)%nat /\ Forall (fun c => In c hex_chars) (hex_text v) /\
  hstr2bin (hex_text v) = Ok v.
Proof.
  intros v H HL. split; [now apply bin2hstr_nowrap|]. split; [apply hex_text_length|]. split.
  - apply Forall_forall. intros c Hc. apply in_flat_map in Hc. destruct Hc as (b & Hb & Hc).
    unfold all_bytes in H. rewrite Forall_forall in H. specialize (H b Hb). destruct (byte_parts b H) as (P1 & P2 & _).
    destruct Hc as [<-|[<-|[]]]; apply nth_In; change (length hex_chars) with 16%nat; lia.
  - unfold hstr2bin. rewrite hex_text_length.
    assert (E : Nat.odd (2 * length v) = false) by (rewrite <- Nat.negb_even, Nat.even_mul; reflexivity).
    rewrite E. apply hstr2bin_hex; auto. unfold INT_MAX. change (2 ^ 31) with 2147483648 in *. lia.
Qed.

(** C02 *)
Lemma lower_cons : forall c s, lower (c :: s) = lower [c] ++ lower s.
Proof. reflexivity. Qed.

Theorem C02_hex_decoder : forall s, ascii s -> N.of_nat (length s) < 2 ^ 31 ->
  (Nat.even (length s) = true /\ Forall is_hex s ->
     exists v, hstr2bin s = Ok v /\ all_bytes v /\ (2 * length v)%nat = length s /\ hex_text v = lower s) /\
  (~ (Nat.even (length s) = true /\ Forall is_hex s) -> hstr2bin s = Exn InvalidArgument).
Proof.
  intros s HA HL.
  assert (G : forall n s i, (length s <= n)%nat -> ascii s -> Nat.even (length s) = true -> i + N.of_nat (length s) <= INT_MAX ->
    (Forall is_hex s -> exists v, hstr2bin_loop i s = Ok v /\ all_bytes v /\ (2 * length v)%nat = length s /\ hex_text v = lower s) /\
    (~ Forall is_hex s -> hstr2bin_loop i s = Exn InvalidArgument)).
  { clear. induction n as [|n IH]; intros s i Hn HA He Hi.
    - destruct s; [|cbn in Hn; lia]. split; [|intros H; exfalso; apply H; constructor].
      intros _. exists []. repeat split; constructor.
    - destruct s as [|c1 [|c2 s]].
      + split; [|intros H; exfalso; apply H; constructor]. intros _. exists []. repeat split; constructor.
      + discriminate.
      + inversion HA as [|? ? Hc1 HA1]; subst. inversion HA1 as [|? ? Hc2 HA2]; subst. cbn [length] in *.
        destruct (IH s (i + 2) ltac:(lia) HA2 He ltac:(lia)) as (I1 & I2). cbn [hstr2bin_loop].
        destruct (xdigit_ascii c1 Hc1) as [(X1 & Y1 & Z1 & W1)|(X1 & Y1)]; rewrite Y1; cbn [bind negb].
        2:{ split; auto. intros F. inversion F. contradiction. }
        destruct (xdigit_ascii c2 Hc2) as [(X2 & Y2 & Z2 & W2)|(X2 & Y2)]; rewrite Y2; cbn [bind negb].
        2:{ split; auto. intros F. inversion F as [|? ? ? F']. inversion F'. contradiction. }
        rewrite (proj2 (N.ltb_ge INT_MAX (i + 2))) by lia.
        split.
        * intros F. inversion F as [|? ? _ F1]; subst. inversion F1 as [|? ? _ F2]; subst. destruct (I1 F2) as (v & Ev & Bv & Lv & Tv).
          rewrite Ev. cbn [bind]. eexists. split; [reflexivity|].
          fold (hexval c1). fold (hexval c2).
          set (x := hexval c1) in *. set (y := hexval c2) in *.
          assert (Ed : u8 (x * 16 + y) = x * 16 + y) by (unfold u8; apply N.mod_small; lia). rewrite Ed.
          split; [constructor; auto; unfold is_byte; lia|]. split; [cbn [length]; lia|].
          rewrite hex_text_cons, Tv, (lower_cons c1), (lower_cons c2), W1, W2.
          assert (Eq1 : (x * 16 + y) / 16 = x). { rewrite N.div_add_l by lia. rewrite N.div_small by auto. lia. }
          assert (Eq2 : (x * 16 + y) mod 16 = y). { rewrite N.add_comm, N.mod_add by lia. now apply N.mod_small. }
          rewrite Eq1, Eq2. reflexivity.
        * intros F. rewrite I2; auto. }
  unfold hstr2bin. rewrite <- Nat.negb_even. split.
  - intros (He & Hf). rewrite He. cbn [negb]. apply (G (length s)); auto. unfold INT_MAX. lia.
  - intros H. destruct (Nat.even (length s)) eqn:He; cbn [negb]; auto.
    apply (G (length s)); auto. { unfold INT_MAX. lia. }
Qed.


Lemma join_cons : forall sep l ls, join sep (l :: ls) = l ++ concat (map (cons sep) ls).
Proof.
  intros sep l ls. revert l. induction ls as [|m ls IH]; intros l; cbn [join map concat]; [now rewrite app_nil_r|].
  f_equal. cbn [app]. f_equal. apply IH.
Qed.
Lemma lines_ok_cons : forall w l ls, N.of_nat (length l) = w -> ls <> [] -> lines_ok w ls -> lines_ok w (l :: ls).
Proof. intros w l [|m ls] H1 H2 H3; [contradiction|]. split; auto. Qed.
Lemma hexc_not_nl : forall d, d < 16 -> hexc d <> 10.
Proof.
  intros d Hd.
  assert (E : negb (hexc d =? 10) = true). { revert d Hd. apply (below_b _ 16). vm_compute. reflexivity. }
  apply negb_true_iff in E. now apply N.eqb_neq in E.
Qed.
Lemma filter_hex : forall v, all_bytes v -> filter (fun c => negb (c =? 10)) (hex_text v) = hex_text v.
Proof.
  induction v as [|b v IH]; intros H; [reflexivity|]. inversion H; subst. rewrite hex_text_cons. cbn [app filter].
  destruct (byte_parts b) as (P1 & P2 & _); auto.
  rewrite (proj2 (N.eqb_neq _ _) (hexc_not_nl _ P1)), (proj2 (N.eqb_neq _ _) (hexc_not_nl _ P2)). cbn [negb]. now rewrite IH.
Qed.

Lemma hstr_loop_wrap : forall w v c, 0 < w -> all_bytes v -> c <= w -> w < INT_MAX \/ c + N.of_nat (length v) <= INT_MAX ->
  exists l0 ls, bin2hstr_loop w c v = Ok (hex_text l0 ++ concat (map (cons 10) (map hex_text ls))) /\
    v = l0 ++ concat ls /\ c + N.of_nat (length l0) <= w /\ (ls <> [] -> c + N.of_nat (length l0) = w) /\ lines_ok w ls.
Proof.
  intros w v. induction v as [|b v IH]; intros c Hw HB Hc Hmax.
  - exists [], []. cbn. repeat split; auto; try lia. intros H; contradiction.
  - inversion HB; subst. cbn [bin2hstr_loop length] in *. rewrite (proj2 (N.ltb_lt 0 w)) by auto.
    rewrite (proj2 (N.ltb_ge INT_MAX (c + 1))) by lia.
    rewrite put_hex_ok by auto.
    destruct (N.lt_ge_cases w (c + 1)) as [Hl|Hg].
    + rewrite (proj2 (N.ltb_lt w (c + 1))) by auto.
      destruct (IH 1) as (l0 & ls & E & Ev & L1 & L2 & L3); auto; [lia|lia|].
      rewrite E. cbn [bind]. exists [], ((b :: l0) :: ls).
      split. { cbn [map concat app]. rewrite hex_text_cons. cbn [app hex_text flat_map]. reflexivity. }
      split. { cbn [concat app]. now rewrite Ev. }
      split; [cbn; lia|]. split; [intros _; cbn; lia|].
      destruct ls as [|m ls]; [cbn [lines_ok length]; lia|].
      apply lines_ok_cons; [|discriminate|auto]. specialize (L2 ltac:(discriminate)). cbn [length]. lia.
    + rewrite (proj2 (N.ltb_ge w (c + 1))) by auto.
      destruct (IH (c + 1)) as (l0 & ls & E & Ev & L1 & L2 & L3); auto; [lia|].
      rewrite E. cbn [bind]. exists (b :: l0), ls.
      split. { rewrite hex_text_cons. now rewrite <- app_assoc. }
      split. { cbn [app]. now rewrite Ev. }
      cbn [length]. split; [lia|]. split; [|auto]. intros Hn. specialize (L2 Hn). lia.
Qed.

Theorem C03_hex_wrap : forall v w, all_bytes v -> 0 < w -> w < 2 ^ 31 - 1 \/ N.of_nat (length v) < 2 ^ 31 ->
  exists ls text, bin2hstr v w = Ok text /\ text = join 10 (map hex_text ls) /\
    concat ls = v /\ lines_ok w ls /\ filter (fun c => negb (c =? 10)) text = hex_text v.
Proof.
  intros v w HB Hw Hmax.
  destruct (hstr_loop_wrap w v 0) as (l0 & ls & E & Ev & L1 & L2 & L3); auto; [lia|unfold INT_MAX; lia|].
  assert (Hf : filter (fun c => negb (c =? 10)) (hex_text l0 ++ concat (map (cons 10) (map hex_text ls))) = hex_text v).
  { rewrite Ev in HB |- *. apply Forall_app in HB. destruct HB as [HB0 HB].
    rewrite filter_app, filter_hex, hex_text_app by auto. f_equal.
    clear - HB. induction ls as [|l ls IH]; [reflexivity|]. cbn [concat map] in *. apply Forall_app in HB. destruct HB as [H1 H2].
    rewrite hex_text_app, filter_app. cbn [filter]. change (negb (10 =? 10)) with false. cbv iota. rewrite filter_hex by auto. now rewrite IH. }
  destruct l0 as [|b l0].
  - destruct ls as [|l ls].
    + exists [], []. cbn in Ev. subst v. repeat split; auto.
    + specialize (L2 ltac:(discriminate)). cbn in L2. lia.
  - exists ((b :: l0) :: ls). eexists. split; [exact E|]. split. { cbn [map]. now rewrite join_cons. }
    split; [now rewrite Ev|]. split; [|exact Hf].
    destruct ls as [|l ls].
    + cbn [lines_ok length] in *. lia.
    + apply lines_ok_cons; auto; [|discriminate]. specialize (L2 ltac:(discriminate)). lia.
Qed.

(** Without that bound the [int] counter overflows. *)
Theorem C03_hex_wrap_overflow : forall v w, 2 ^ 31 - 1 <= w -> 2 ^ 31 <= N.of_nat (length v) -> bin2hstr v w = UB.
Proof.
  intros v w Hw HL. unfold bin2hstr.
  assert (G : forall v c, c <= INT_MAX -> INT_MAX < c + N.of_nat (length v) -> bin2hstr_loop w c v = UB).
  { clear v HL. induction v as [|b v IH]; intros c H1 H2; cbn [length] in *; [lia|]. cbn [bin2hstr_loop].
    unfold INT_MAX in *. rewrite (proj2 (N.ltb_lt 0 w)) by lia.
    destruct (2 ^ 31 - 1 <? c + 1) eqn:E; auto. apply N.ltb_ge in E.
    rewrite (proj2 (N.ltb_ge w (c + 1))) by lia. rewrite IH by lia. reflexivity. }
  apply G; unfold INT_MAX; lia.
Qed.

(** The overload for strings writes the same text for the bytes of the string, wrapped the
    same way. *)
Theorem C03_hex_of_string : forall s w, all_bytes s ->
  (2 * N.of_nat (length s) < 2 ^ 31 -> bin2hstr_str s 0 = Ok (hex_text s) /\ hstr2bin (hex_text s) = Ok s) /\
  (0 < w -> w < 2 ^ 31 - 1 \/ N.of_nat (length s) < 2 ^ 31 ->
   exists ls, bin2hstr_str s w = Ok (join 10 (map hex_text ls)) /\ concat ls = s /\ lines_ok w ls).
Proof.
  intros s w HB. split.
  - intros HL. destruct (C01_hex_round_trip s HB HL) as (E & _ & _ & D). split; [exact E|exact D].
  - intros Hw Hm. destruct (C03_hex_wrap s w HB Hw Hm) as (ls & text & E & -> & C & L & _). exists ls. split; [exact E|]. split; [exact C|exact L].
Qed.
Example C03_string_case : bin2hstr_str (codes "hi!"%string) 2 = Ok (codes "6869
21"%string).
Proof. vm_compute. reflexivity. Qed.

Example C03_case : exists text, bin2hstr [1; 171; 255; 16; 0] 2 = Ok text /\ text = codes "01ab
ff10
00"%string.
Proof. eexists. split; vm_compute; reflexivity. Qed.

(** ** The word list *)
Lemma word_in : forall d, d < 4096 -> In (word d) wordlist.
Proof. intros d Hd. apply nth_In. rewrite wordlist_length. lia. Qed.

Lemma word_plain : forall w, In w wordlist -> plain w.
Proof.
  intros w Hw. pose proof wordlist_words as H. rewrite forallb_forall in H. specialize (H _ Hw). unfold word_ok in H.
  destruct w as [|c w]; [discriminate|]. split; [discriminate|]. rewrite forallb_forall in H. apply Forall_forall. intros x Hx.
  specialize (H x Hx). apply andb_true_iff in H. destruct H as [H1 H2]. apply N.leb_le in H1, H2.
  unfold is_white. cbn [existsb]. repeat (rewrite (proj2 (N.eqb_neq x _)) by lia). reflexivity.
Qed.

Lemma lookup_from_spec : forall l c w acc, NoDup l ->
  lookup_from l c w acc = match index_of l w with Some i => Some (c + i) | None => acc end.
Proof.
  induction l as [|x l IH]; intros c w acc H; [reflexivity|]. inversion H as [|? ? Hn Hd]; subst.
  cbn [lookup_from index_of]. rewrite IH by auto. unfold str_eqb. destruct (list_eq_dec N.eq_dec x w) as [->|ne].
  - assert (En : index_of l w = None).
    { clear - Hn. induction l as [|y l IH]; auto. cbn [index_of]. destruct (list_eq_dec N.eq_dec y w) as [->|].
      - exfalso. apply Hn. now left. - rewrite IH; auto. intros Hi. apply Hn. now right. }
    rewrite En. f_equal. lia.
  - destruct (index_of l w); [f_equal; lia|reflexivity].
Qed.
Lemma word_lookup_spec : forall w, word_lookup w = index_of wordlist w.
Proof.
  intros w. unfold word_lookup. rewrite lookup_from_spec by apply wordlist_nodup. destruct (index_of wordlist w); reflexivity.
Qed.
Lemma index_of_some : forall l w i, index_of l w = Some i -> (N.to_nat i < length l)%nat /\ nth (N.to_nat i) l [] = w.
Proof.
  induction l as [|x l IH]; intros w i H; [discriminate|]. cbn [index_of] in H. destruct (list_eq_dec N.eq_dec x w) as [->|ne].
  - injection H as <-. cbn. split; [lia|reflexivity].
  - destruct (index_of l w) as [j|] eqn:E; [|discriminate]. injection H as <-. destruct (IH w j E) as [H1 H2].
    replace (N.to_nat (j + 1)) with (S (N.to_nat j)) by lia. cbn [length nth]. split; [lia|auto].
Qed.
Lemma index_of_nth : forall l i, NoDup l -> (i < length l)%nat -> index_of l (nth i l []) = Some (N.of_nat i).
Proof.
  induction l as [|x l IH]; intros i H Hi; [cbn in Hi; lia|]. inversion H as [|? ? Hn Hd]; subst. destruct i as [|i]; cbn [nth index_of].
  - destruct (list_eq_dec N.eq_dec x x); [reflexivity|contradiction].
  - cbn [length] in Hi. destruct (list_eq_dec N.eq_dec x (nth i l [])) as [E|_].
    + exfalso. apply Hn. rewrite E. apply nth_In. lia.
    + rewrite IH by (auto; lia). f_equal. lia.
Qed.
Lemma index_of_word : forall d, d < 4096 -> index_of wordlist (word d) = Some d.
Proof.
  intros d Hd. unfold word. rewrite index_of_nth by (try apply wordlist_nodup; rewrite wordlist_length; lia). f_equal. lia.
Qed.
Lemma index_word : forall w i, index_of wordlist w = Some i -> i < 4096 /\ word i = w.
Proof. intros w i H. apply index_of_some in H. rewrite wordlist_length in H. unfold word. split; [lia|apply H]. Qed.
Lemma indices_words : forall ds, Forall (fun d => d < 4096) ds -> indices (map word ds) = Some ds.
Proof. induction 1 as [|d ds Hd _ IH]; [reflexivity|]. cbn [map indices]. now rewrite index_of_word, IH by auto. Qed.
Lemma indices_some : forall ws ds, indices ws = Some ds -> Forall (fun d => d < 4096) ds /\ map word ds = ws /\ length ds = length ws.
Proof.
  induction ws as [|w ws IH]; intros ds H; cbn [indices] in H.
  - injection H as <-. repeat split; constructor.
  - destruct (index_of wordlist w) as [i|] eqn:E; [|discriminate]. destruct (indices ws) as [l|]; [|discriminate]. injection H as <-.
    destruct (index_word _ _ E) as [H1 H2]. destruct (IH l eq_refl) as (I1 & I2 & I3). repeat split; [constructor; auto| |].
    + cbn [map]. now rewrite H2, I2. + cbn [length]. now rewrite I3.
Qed.

(** ** Nibbles *)
Lemma nibs_bound : forall v, all_bytes v -> Forall (fun n => n < 16) (nibs v).
Proof.
  induction 1 as [|b v Hb _ IH]; [constructor|]. destruct (byte_parts b Hb) as (P1 & P2 & _). cbn [nibs flat_map app]. repeat constructor; auto.
Qed.
Lemma nibs_length : forall v, length (nibs v) = (2 * length v)%nat.
Proof. induction v; auto. unfold nibs in *. cbn [flat_map app length]. rewrite IHv. lia. Qed.
Lemma pack_nibs : forall v, pack (nibs v) = v.
Proof.
  induction v as [|b v IH]; [reflexivity|]. change (nibs (b :: v)) with (b / 16 :: b mod 16 :: nibs v). cbn [pack]. rewrite IH. f_equal. symmetry. apply N.div_mod'.
Qed.
Lemma nibbles3_inv : forall a b c, a < 16 -> b < 16 -> c < 16 -> nibbles3 (256 * a + 16 * b + c) = [a; b; c].
Proof.
  intros a b c Ha Hb Hc. unfold nibbles3.
  assert (E1 : (256 * a + 16 * b + c) / 256 = a). { symmetry. apply (N.div_unique _ _ _ (16 * b + c)); lia. }
  assert (E2 : (256 * a + 16 * b + c) / 16 = 16 * a + b). { symmetry. apply (N.div_unique _ _ _ c); lia. }
  assert (E3 : (256 * a + 16 * b + c) mod 16 = c). { symmetry. apply (N.mod_unique _ _ (16 * a + b)); lia. }
  assert (E4 : (16 * a + b) mod 16 = b). { symmetry. apply (N.mod_unique _ _ a); lia. }
  now rewrite E1, E2, E3, E4.
Qed.
Lemma pack3_inv : forall k ns, length ns = (3 * k)%nat -> Forall (fun n => n < 16) ns ->
  flat_map nibbles3 (pack3 ns) = ns /\ Forall (fun d => d < 4096) (pack3 ns) /\ length (pack3 ns) = k.
Proof.
  induction k as [|k IH]; intros ns HL HF.
  - destruct ns; [|cbn in HL; lia]. repeat split; constructor.
  - destruct ns as [|a [|b [|c ns]]]; cbn [length] in HL; try lia.
    inversion HF as [|? ? Ha HF1]; subst. inversion HF1 as [|? ? Hb HF2]; subst. inversion HF2 as [|? ? Hc HF3]; subst.
    destruct (IH ns ltac:(lia) HF3) as (I1 & I2 & I3). cbn [pack3 flat_map length].
    rewrite nibbles3_inv, I1 by auto. repeat split; auto. constructor; auto. lia.
Qed.
Lemma nibbles3_bound : forall d, d < 4096 -> Forall (fun n => n < 16) (nibbles3 d).
Proof.
  intros d Hd. unfold nibbles3. repeat constructor; [apply N.div_lt_upper_bound; lia|apply N.mod_lt; lia|apply N.mod_lt; lia].
Qed.
Lemma nibbles3_val : forall d, exists a b c, nibbles3 d = [a; b; c] /\ d = 256 * a + 16 * b + c.
Proof.
  intros d. unfold nibbles3. do 3 eexists. split; [reflexivity|].
  pose proof (N.div_mod' d 16). pose proof (N.div_mod' (d / 16) 16). rewrite N.div_div in H0 by lia. change (16 * 16) with 256 in H0. lia.
Qed.

(** ** Encoder *)
Definition sepjoin (sep : list N) (ws : list (list N)) : list N :=
  match ws with [] => [] | w :: t => sep ++ w ++ concat (map (cons 32) t) end.
Lemma sepjoin_nil : forall ws, sepjoin [] ws = join 32 ws.
Proof. intros [|w ws]; [reflexivity|]. now rewrite join_cons. Qed.
Lemma sepjoin_cons : forall sep w ws, sepjoin sep (w :: ws) = sep ++ w ++ sepjoin [32] ws.
Proof. intros sep w [|x ws]; [reflexivity|]. cbn [sepjoin map concat app]. reflexivity. Qed.

Lemma get_word : forall d, d < 4096 -> get wordlist (N.to_nat d) = Ok (word d).
Proof. intros d Hd. unfold word. apply get_nth. rewrite wordlist_length. lia. Qed.
Lemma get_mid : forall (pre rest : list N) k x, nth_error rest k = Some x -> get (pre ++ rest) (length pre + k) = Ok x.
Proof. intros. apply get_ok. rewrite nth_error_app2 by lia. now replace (length pre + k - length pre)%nat with k by lia. Qed.

Lemma enc_step : forall f vec nibble sep b1 b2 idx,
  nibble < N.of_nat (length vec) * 2 -> nibble + 3 <= INT_MAX ->
  get vec (N.to_nat (nibble / 2)) = Ok b1 -> get vec (N.to_nat (nibble / 2 + 1)) = Ok b2 ->
  idx = (if nibble mod 2 =? 0 then b1 * 16 + b2 / 16 else b1 mod 16 * 256 + b2) -> idx < 4096 ->
  bin2mnemonic_loop (S f) vec nibble sep = (tl <- bin2mnemonic_loop f vec (nibble + 3) [32] ;; Ok (sep ++ word idx ++ tl)).
Proof.
  intros f vec nibble sep b1 b2 idx H1 H2 G1 G2 Ei Hi. cbn [bin2mnemonic_loop].
  rewrite (proj2 (N.ltb_lt _ _) H1). rewrite G1. cbn [bind].
  assert (Hlt : nibble / 2 + 1 < N.of_nat (length vec)).
  { apply get_ok in G2. assert (nth_error vec (N.to_nat (nibble / 2 + 1)) <> None) as Hn by congruence. apply nth_error_Some in Hn. lia. }
  rewrite (proj2 (N.ltb_lt _ _) Hlt). rewrite G2. cbn [bind]. rewrite <- Ei, get_word by auto. cbn [bind].
  rewrite (proj2 (N.ltb_ge INT_MAX (nibble + 3))) by lia. reflexivity.
Qed.

Lemma enc_loop : forall m k pre rest fuel sep, length pre = (3 * k)%nat -> length rest = (3 * m)%nat ->
  all_bytes rest -> 2 * N.of_nat (length (pre ++ rest)) <= INT_MAX -> (2 * m < fuel)%nat ->
  bin2mnemonic_loop fuel (pre ++ rest) (6 * N.of_nat k) sep = Ok (sepjoin sep (map word (pack3 (nibs rest)))).
Proof.
  induction m as [|m IH]; intros k pre rest fuel sep HP HR HB HM HF; destruct fuel as [|fuel]; try lia.
  - destruct rest; [|cbn in HR; lia]. cbn [bin2mnemonic_loop]. rewrite app_nil_r.
    rewrite (proj2 (N.ltb_ge _ _)) by lia. reflexivity.
  - destruct fuel as [|fuel]; [lia|].
    destruct rest as [|a [|b [|c rest]]]; cbn [length] in HR; try lia.
    inversion HB as [|? ? Ha HB1]; subst. inversion HB1 as [|? ? Hb HB2]; subst. inversion HB2 as [|? ? Hc HB3]; subst.
    destruct (byte_parts a Ha) as (A1 & A2 & A3). destruct (byte_parts b Hb) as (B1 & B2 & B3). destruct (byte_parts c Hc) as (C1 & C2 & C3).
    pose proof (app_length pre (a :: b :: c :: rest)) as LA. cbn [length] in LA.
    assert (E1 : 6 * N.of_nat k / 2 = N.of_nat (length pre)). { symmetry. apply (N.div_unique _ _ _ 0); lia. }
    assert (M1 : (6 * N.of_nat k) mod 2 = 0). { symmetry. apply (N.mod_unique _ _ (3 * N.of_nat k)); lia. }
    assert (E2 : (6 * N.of_nat k + 3) / 2 = N.of_nat (length pre) + 1). { symmetry. apply (N.div_unique _ _ _ 1); lia. }
    assert (M2 : (6 * N.of_nat k + 3) mod 2 = 1). { symmetry. apply (N.mod_unique _ _ (3 * N.of_nat k + 1)); lia. }
    set (d1 := a * 16 + b / 16). set (d2 := (b mod 16) * 256 + c).
    rewrite (enc_step _ _ _ _ a b d1); [|lia|lia| | | |].
    2:{ rewrite E1. replace (N.to_nat (N.of_nat (length pre))) with (length pre + 0)%nat by lia. now apply get_mid. }
    2:{ rewrite E1. replace (N.to_nat (N.of_nat (length pre) + 1)) with (length pre + 1)%nat by lia. now apply get_mid. }
    2:{ rewrite M1. reflexivity. }
    2:{ unfold d1. unfold is_byte in *. lia. }
    rewrite (enc_step _ _ _ _ b c d2); [|lia|lia| | | |].
    2:{ rewrite E2. replace (N.to_nat (N.of_nat (length pre) + 1)) with (length pre + 1)%nat by lia. now apply get_mid. }
    2:{ rewrite E2. replace (N.to_nat (N.of_nat (length pre) + 1 + 1)) with (length pre + 2)%nat by lia. now apply get_mid. }
    2:{ rewrite M2. reflexivity. }
    2:{ unfold d2. unfold is_byte in *. lia. }
    replace (6 * N.of_nat k + 3 + 3) with (6 * N.of_nat (S k)) by lia.
    replace (pre ++ a :: b :: c :: rest) with ((pre ++ [a; b; c]) ++ rest) by (now rewrite <- app_assoc).
    rewrite (IH (S k)); try lia.
    + cbn [bind].
      change (nibs (a :: b :: c :: rest)) with (a / 16 :: a mod 16 :: b / 16 :: b mod 16 :: c / 16 :: c mod 16 :: nibs rest).
      cbn [pack3 map]. rewrite !sepjoin_cons.
      replace (256 * (a / 16) + 16 * (a mod 16) + b / 16) with d1 by (unfold d1; lia).
      replace (256 * (b mod 16) + 16 * (c / 16) + c mod 16) with d2 by (unfold d2; lia). reflexivity.
    + rewrite app_length. cbn [length]. lia.
    + exact HB3.
    + rewrite !app_length in *. cbn [length] in *. lia.
Qed.

Lemma enc_spec : forall v, all_bytes v -> 2 * N.of_nat (length v) < 2 ^ 31 ->
  bin2mnemonic v = if (length v mod 3 =? 0)%nat then Ok (join 32 (map word (pack3 (nibs v)))) else Exn InvalidArgument.
Proof.
  intros v HB HL. unfold bin2mnemonic. destruct (length v mod 3 =? 0)%nat eqn:E; cbn [negb]; auto.
  apply Nat.eqb_eq in E. apply Nat.mod_divides in E; [|lia]. destruct E as [m Em].
  pose proof (enc_loop m 0 [] v (S (length v * 2)) [] eq_refl Em HB) as H. cbn [app] in H. change (6 * N.of_nat 0) with 0 in H.
  rewrite H; [now rewrite sepjoin_nil|unfold INT_MAX; lia|lia].
Qed.

(** ** Decoder *)
Lemma isspace_white : forall c, isspace c = is_white c.
Proof.
  intros c. unfold isspace, is_white. cbn [existsb]. rewrite orb_false_r.
  destruct (c =? 32) eqn:E0; [reflexivity|]. cbn [orb].
  destruct ((9 <=? c) && (c <=? 13)) eqn:E.
  - apply andb_true_iff in E. destruct E as [E1 E2]. apply N.leb_le in E1, E2.
    assert (H : c = 9 \/ c = 10 \/ c = 11 \/ c = 12 \/ c = 13) by lia.
    destruct H as [->|[->|[->|[->| ->]]]]; reflexivity.
  - symmetry. repeat (apply orb_false_iff; split); try apply N.eqb_neq; intros ->; discriminate.
Qed.
Lemma fields_ne : forall s, exists f fs, fields s = f :: fs.
Proof.
  induction s as [|c s (f & fs & E)]; [do 2 eexists; reflexivity|]. cbn [fields]. rewrite E. destruct (is_white c); do 2 eexists; reflexivity.
Qed.
Lemma words_ws : forall c s, is_white c = true -> words (c :: s) = words s.
Proof. intros c s H. unfold words. cbn [fields]. rewrite H. reflexivity. Qed.
Lemma words_skip : forall s, words (skip_ws s) = words s.
Proof.
  induction s as [|c s IH]; [reflexivity|]. cbn [skip_ws]. rewrite isspace_white. destruct (is_white c) eqn:E; [|reflexivity].
  now rewrite words_ws, IH by auto.
Qed.
Lemma skip_length : forall s, (length (skip_ws s) <= length s)%nat.
Proof. induction s as [|c s IH]; [auto|]. cbn [skip_ws]. destruct (isspace c); cbn [length]; lia. Qed.
Lemma read_fields : forall s w r, read_word s = (w, r) ->
  exists fs, fields s = w :: fs /\ words r = filter (fun f => match f with [] => false | _ => true end) fs /\ s = w ++ r.
Proof.
  induction s as [|c s IH]; intros w r H; cbn [read_word] in H.
  - injection H as <- <-. exists []. repeat split.
  - rewrite isspace_white in H. destruct (is_white c) eqn:E.
    + injection H as <- <-. exists (fields s). cbn [fields]. rewrite E. repeat split. now rewrite words_ws.
    + destruct (read_word s) as [w' r'] eqn:Er. injection H as <- <-. destruct (IH w' r' eq_refl) as (fs & E1 & E2 & E3).
      exists fs. cbn [fields]. rewrite E, E1. repeat split; auto. now rewrite E3.
Qed.
Lemma skip_head : forall s c t, skip_ws s = c :: t -> is_white c = false.
Proof.
  induction s as [|x s IH]; intros c t H; [discriminate|]. cbn [skip_ws] in H. rewrite isspace_white in H. destruct (is_white x) eqn:E.
  - eapply IH; eauto. - now injection H as <- <-.
Qed.
Lemma extract_spec : forall s, match extract_word s with
  | None => words s = []
  | Some (w, r) => words s = w :: words r /\ (length r < length s)%nat
  end.
Proof.
  intros s. unfold extract_word. pose proof (words_skip s) as HW. pose proof (skip_length s) as HL. pose proof (skip_head s) as HH.
  destruct (skip_ws s) as [|c t]; [now rewrite <- HW|]. specialize (HH c t eq_refl).
  destruct (read_word (c :: t)) as [w r] eqn:Er. destruct (read_fields _ _ _ Er) as (fs & E1 & E2 & E3).
  rewrite <- HW. unfold words at 1. rewrite E1. cbn [read_word] in Er. rewrite isspace_white, HH in Er.
  destruct (read_word t) as [w' r']. injection Er as <- <-. cbn [filter]. rewrite E2. split; auto.
  injection E3 as E3. rewrite E3 in HL. cbn [length] in HL. rewrite app_length in HL. lia.
Qed.

(** Decoder state: complete bytes are out, up to two nibbles are pending. *)
Definition dstate (ns : list N) (cur buf : N) (out : list N) : Prop :=
  exists done pend, ns = done ++ pend /\ Nat.even (length done) = true /\ out = pack done /\ Forall (fun n => n < 16) pend /\
    ((pend = [] /\ buf = 0 /\ cur = 0) \/ (exists x, pend = [x] /\ buf = 1 /\ cur = x) \/
     (exists x y, pend = [x; y] /\ buf = 2 /\ cur = 16 * x + y)).

Lemma pack_app : forall n a b, (length a <= n)%nat -> Nat.even (length a) = true -> pack (a ++ b) = pack a ++ pack b.
Proof.
  induction n as [|n IH]; intros a b Hn He.
  - destruct a; [reflexivity|cbn in Hn; lia].
  - destruct a as [|x [|y a]]; [reflexivity|discriminate|]. cbn [app pack]. rewrite IH; auto. cbn [length] in Hn. lia.
Qed.
Lemma pack_app' : forall a b, Nat.even (length a) = true -> pack (a ++ b) = pack a ++ pack b.
Proof. intros. now apply (pack_app (length a)). Qed.
Lemma even_app : forall (a b : list N), Nat.even (length a) = true -> Nat.even (length b) = true -> Nat.even (length (a ++ b)) = true.
Proof. intros. rewrite app_length, Nat.even_add, H, H0. reflexivity. Qed.

Lemma drain_step : forall f cur buf out, 2 < buf ->
  drain (S f) cur buf out =
  drain f (cur mod 2 ^ (4 * (buf - 2))) (buf - 2) (out ++ [u8 (cur / 2 ^ (4 * (buf - 2)))]).
Proof.
  intros f cur buf out H. cbn [drain]. rewrite (proj2 (N.ltb_lt 2 buf) H).
  replace (2 ^ (4 * (buf - 2)) - 1) with (N.ones (4 * (buf - 2))) by (rewrite N.ones_equiv; lia).
  now rewrite N.land_ones.
Qed.
Lemma drain_stop : forall f cur buf out, buf <= 2 -> drain (S f) cur buf out = Ok (cur, buf, out).
Proof. intros f cur buf out H. cbn [drain]. now rewrite (proj2 (N.ltb_ge 2 buf) H). Qed.

Lemma drain_spec : forall ns cur buf out v, dstate ns cur buf out -> v < 4096 ->
  exists cur' buf' out', drain 3 (cur * 4096 + v) (buf + 3) out = Ok (cur', buf', out') /\ dstate (ns ++ nibbles3 v) cur' buf' out'.
Proof.
  intros ns cur buf out v (done & pend & En & He & Eo & Hp & Hc) Hv.
  destruct (nibbles3_val v) as (a & b & c & E3 & Ev). pose proof (nibbles3_bound v Hv) as Hb. rewrite E3 in *.
  inversion Hb as [|? ? Ha Hb1]; subst. inversion Hb1 as [|? ? Hb' Hb2]; subst. inversion Hb2 as [|? ? Hc' _]; subst. clear Hb Hb1 Hb2.
  unfold u8 in *.
  destruct Hc as [(-> & -> & ->)|[(x & -> & -> & ->)|(x & y & -> & -> & ->)]].
  - rewrite drain_step, drain_stop by lia. change (2 ^ (4 * (0 + 3 - 2))) with 16. do 3 eexists. split; [reflexivity|].
    exists (done ++ [a; b]), [c]. split; [now rewrite app_nil_r, <- app_assoc|]. split; [apply even_app; auto|]. split.
    { rewrite pack_app' by auto. f_equal. cbn [pack]. f_equal. unfold u8.
      assert (E : (0 * 4096 + (256 * a + 16 * b + c)) / 16 = 16 * a + b) by (symmetry; apply (N.div_unique _ _ _ c); lia).
      rewrite E. apply N.mod_small. lia. }
    split; [repeat constructor; auto|]. right. left. exists c. split; auto. split; [reflexivity|].
    symmetry. apply (N.mod_unique _ _ (16 * a + b)); lia.
  - inversion Hp as [|? ? Hx _]; subst.
    rewrite drain_step, drain_stop by lia. change (2 ^ (4 * (1 + 3 - 2))) with 256. do 3 eexists. split; [reflexivity|].
    exists (done ++ [x; a]), [b; c]. split; [now rewrite <- !app_assoc|]. split; [apply even_app; auto|]. split.
    { rewrite pack_app' by auto. f_equal. cbn [pack]. f_equal. unfold u8.
      assert (E : (x * 4096 + (256 * a + 16 * b + c)) / 256 = 16 * x + a) by (symmetry; apply (N.div_unique _ _ _ (16 * b + c)); lia).
      rewrite E. apply N.mod_small. lia. }
    split; [repeat constructor; auto|]. right. right. exists b, c. split; auto. split; [reflexivity|].
    symmetry. apply (N.mod_unique _ _ (16 * x + a)); lia.
  - inversion Hp as [|? ? Hx Hp1]; subst. inversion Hp1 as [|? ? Hy _]; subst.
    rewrite drain_step, drain_step, drain_stop by lia. change (2 ^ (4 * (2 + 3 - 2))) with 4096. change (2 ^ (4 * (2 + 3 - 2 - 2))) with 16.
    assert (E : ((16 * x + y) * 4096 + (256 * a + 16 * b + c)) / 4096 = 16 * x + y)
      by (symmetry; apply (N.div_unique _ _ _ (256 * a + 16 * b + c)); lia).
    assert (E' : ((16 * x + y) * 4096 + (256 * a + 16 * b + c)) mod 4096 = 256 * a + 16 * b + c)
      by (symmetry; apply (N.mod_unique _ _ (16 * x + y)); lia).
    rewrite E, E'. do 3 eexists. split; [reflexivity|].
    exists (done ++ [x; y; a; b]), [c]. split; [now rewrite <- !app_assoc|]. split; [apply even_app; auto|]. split.
    { rewrite pack_app' by auto. rewrite <- app_assoc. f_equal. cbn [pack app]. f_equal; [unfold u8; apply N.mod_small; lia|]. f_equal.
      assert (E2 : (256 * a + 16 * b + c) / 16 = 16 * a + b) by (symmetry; apply (N.div_unique _ _ _ c); lia).
      unfold u8. rewrite E2. apply N.mod_small. lia. }
    split; [repeat constructor; auto|]. right. left. exists c. split; auto. split; [reflexivity|].
    symmetry. apply (N.mod_unique _ _ (16 * a + b)); lia.
Qed.

Lemma decode_spec : forall fuel ss ns cur buf out, (length ss < fuel)%nat -> dstate ns cur buf out ->
  match indices (words ss) with
  | None => decode_loop fuel ss cur buf out = Exn InvalidArgument
  | Some ds => exists cur' buf' out', decode_loop fuel ss cur buf out = Ok (cur', buf', out') /\
      dstate (ns ++ flat_map nibbles3 ds) cur' buf' out'
  end.
Proof.
  induction fuel as [|fuel IH]; intros ss ns cur buf out HL HD; [lia|].
  cbn [decode_loop]. pose proof (extract_spec ss) as HE. destruct (extract_word ss) as [[w r]|].
  - destruct HE as (EW & HR). rewrite EW. cbn [indices]. rewrite word_lookup_spec.
    destruct (index_of wordlist w) as [v|] eqn:Ei; [|reflexivity]. destruct (index_word _ _ Ei) as [Hv _].
    destruct (drain_spec ns cur buf out v HD Hv) as (cur' & buf' & out' & Ed & HD'). rewrite Ed. cbn [bind].
    specialize (IH r (ns ++ nibbles3 v) cur' buf' out' ltac:(lia) HD'). destruct (indices (words r)) as [ds|]; [|exact IH].
    destruct IH as (c2 & b2 & o2 & E2 & D2). exists c2, b2, o2. split; auto. cbn [flat_map]. now rewrite app_assoc.
  - rewrite HE. cbn [indices]. do 3 eexists. split; [reflexivity|]. cbn [flat_map]. now rewrite app_nil_r.
Qed.

Lemma count_blanks : forall s, count_char 32 s = N.of_nat (blanks s).
Proof.
  unfold blanks. induction s as [|c s IH]; [reflexivity|]. cbn [count_char filter]. rewrite IH, (N.eqb_sym 32 c).
  destruct (c =? 32); cbn [length]; lia.
Qed.
Lemma parity : forall n, ((N.of_nat n + 1) mod 2 =? 0) = negb (Nat.even n).
Proof.
  intros n. destruct (Nat.even n) eqn:E; cbn [negb].
  - apply Nat.even_spec in E. destruct E as [m ->]. apply N.eqb_neq.
    replace ((N.of_nat (2 * m) + 1) mod 2) with 1 by (apply (N.mod_unique _ _ (N.of_nat m)); lia). discriminate.
  - rewrite <- Nat.negb_odd in E. apply negb_false_iff, Nat.odd_spec in E. destruct E as [m ->]. apply N.eqb_eq.
    symmetry. apply (N.mod_unique _ _ (N.of_nat m + 1)); lia.
Qed.

(** C05: what the decoder does with every string. *)
Theorem C05_mnemonic_decoder : forall text,
  mnemonic2bin text =
  if Nat.even (blanks text) then Exn InvalidArgument
  else match indices (words text) with
       | Some ds => Ok (pack (flat_map nibbles3 ds))
       | None => Exn InvalidArgument
       end.
Proof.
  intros text. unfold mnemonic2bin. rewrite count_blanks, parity. destruct (Nat.even (blanks text)); [reflexivity|]. cbn [negb].
  assert (H0 : dstate [] 0 0 []). { exists [], []. repeat split; auto. }
  pose proof (decode_spec (S (length text)) text [] 0 0 [] ltac:(lia) H0) as HD.
  destruct (indices (words text)) as [ds|]; [|now rewrite HD].
  destruct HD as (cur & buf & out & E & (done & pend & En & He & Eo & Hp & Hc)). rewrite E. cbn [bind app] in *. rewrite En, pack_app', <- Eo by auto.
  destruct Hc as [(-> & -> & ->)|[(x & -> & -> & ->)|(x & y & -> & -> & ->)]].
  - cbn. now rewrite app_nil_r.
  - inversion Hp; subst. change (0 <? 1) with true. cbv iota. cbn [pack]. f_equal. f_equal. f_equal.
    change 255 with (N.ones 8). rewrite N.land_ones. change (2 ^ 8) with 256. apply N.mod_small. lia.
  - inversion Hp as [|? ? Hx Hp1]; subst. inversion Hp1; subst. change (0 <? 2) with true. cbv iota. cbn [pack]. f_equal. f_equal. f_equal.
    change 255 with (N.ones 8). rewrite N.land_ones. change (2 ^ 8) with 256. apply N.mod_small. lia.
Qed.

(** ** Phrases with single blanks *)
Lemma words_join : forall ws, Forall plain ws -> words (join 32 ws) = ws.
Proof.
  assert (G : forall w s, Forall (fun c => is_white c = false) w -> exists fs, fields (w ++ 32 :: s) = w :: fs /\ fs = fields s).
  { induction w as [|c w IH]; intros s H; [exists (fields s); split; reflexivity|]. inversion H; subst. destruct (IH s) as (fs & E1 & E2); auto.
    exists fs. cbn [app fields]. rewrite E1. rewrite H2. auto. }
  assert (G1 : forall w, Forall (fun c => is_white c = false) w -> fields w = [w]).
  { induction w as [|c w IH]; intros H; [reflexivity|]. inversion H; subst. cbn [fields]. rewrite IH, H2 by auto. reflexivity. }
  induction 1 as [|w ws (Hn & Hw) HF IH]; [reflexivity|]. destruct ws as [|w2 ws].
  - cbn [join]. unfold words. rewrite G1 by auto. destruct w; [contradiction|reflexivity].
  - change (join 32 (w :: w2 :: ws)) with (w ++ 32 :: join 32 (w2 :: ws)). unfold words in *.
    destruct (G w (join 32 (w2 :: ws)) Hw) as (fs & E1 & ->). rewrite E1. cbn [filter]. rewrite IH. destruct w; [contradiction|reflexivity].
Qed.
Lemma blanks_plain : forall w, Forall (fun c => is_white c = false) w -> blanks w = 0%nat.
Proof.
  unfold blanks. induction 1 as [|c w Hc _ IH]; [reflexivity|]. cbn [filter]. destruct (32 =? c) eqn:E; [|exact IH].
  apply N.eqb_eq in E. subst c. discriminate.
Qed.
Lemma blanks_app : forall a b, blanks (a ++ b) = (blanks a + blanks b)%nat.
Proof. intros. unfold blanks. now rewrite filter_app, app_length. Qed.
Lemma blanks_join : forall ws, Forall plain ws -> blanks (join 32 ws) = (length ws - 1)%nat.
Proof.
  induction 1 as [|w ws (Hn & Hw) HF IH]; [reflexivity|]. destruct ws as [|w2 ws].
  - cbn [join length]. now apply blanks_plain.
  - change (join 32 (w :: w2 :: ws)) with (w ++ 32 :: join 32 (w2 :: ws)). rewrite blanks_app, blanks_plain by auto.
    change (32 :: join 32 (w2 :: ws)) with ([32] ++ join 32 (w2 :: ws)). rewrite blanks_app, IH. cbn. lia.
Qed.
Lemma map_word_plain : forall ds, Forall (fun d => d < 4096) ds -> Forall plain (map word ds).
Proof. induction 1; constructor; auto. apply word_plain. now apply word_in. Qed.

(** C04 *)
Theorem C04_mnemonic_round_trip : forall v, all_bytes v -> v <> [] -> 2 * N.of_nat (length v) < 2 ^ 31 ->
  ((length v mod 3 = 0)%nat -> exists ws text, bin2mnemonic v = Ok text /\ text = join 32 ws /\
      Forall (fun w => In w wordlist) ws /\ (3 * length ws = 2 * length v)%nat /\ mnemonic2bin text = Ok v) /\
  ((length v mod 3 <> 0)%nat -> bin2mnemonic v = Exn InvalidArgument).
Proof.
  intros v HB Hne HL. rewrite enc_spec by auto. split.
  - intros Hm. rewrite (proj2 (Nat.eqb_eq _ _) Hm). apply Nat.mod_divides in Hm; [|lia]. destruct Hm as [m Em].
    destruct (pack3_inv (2 * m) (nibs v)) as (P1 & P2 & P3). { rewrite nibs_length. lia. } { now apply nibs_bound. }
    exists (map word (pack3 (nibs v))). eexists. split; [reflexivity|]. split; [reflexivity|].
    split. { apply Forall_forall. intros w Hw. apply in_map_iff in Hw. destruct Hw as (d & <- & Hd). rewrite Forall_forall in P2. apply word_in. auto. }
    split. { rewrite map_length, P3. lia. }
    rewrite C05_mnemonic_decoder. pose proof (map_word_plain _ P2) as HPl.
    rewrite blanks_join, words_join, map_length, P3 by auto.
    assert (Hev : Nat.even (2 * m - 1) = false).
    { destruct m; [destruct v; [contradiction|cbn in Em; lia]|]. replace (2 * S m - 1)%nat with (2 * m + 1)%nat by lia.
      rewrite Nat.even_add, Nat.even_mul. reflexivity. }
    rewrite Hev, indices_words by auto. now rewrite P1, pack_nibs.
  - intros Hm. now rewrite (proj2 (Nat.eqb_neq _ _) Hm).
Qed.
Theorem C04_empty : bin2mnemonic [] = Ok [] /\ mnemonic2bin [] = Exn InvalidArgument.
Proof. split; reflexivity. Qed.

(** C05: re-encoding. *)
Lemma nibs_pack : forall n ns, (length ns <= n)%nat -> Nat.even (length ns) = true -> Forall (fun x => x < 16) ns -> nibs (pack ns) = ns /\ all_bytes (pack ns) /\ (2 * length (pack ns))%nat = length ns.
Proof.
  induction n as [|n IH]; intros ns HL He HF.
  - destruct ns; [|cbn in HL; lia]. repeat split; constructor.
  - destruct ns as [|a [|b ns]]; [repeat split; constructor|discriminate|].
    inversion HF as [|? ? Ha HF1]; subst. inversion HF1 as [|? ? Hb HF2]; subst. cbn [length] in HL.
    destruct (IH ns ltac:(lia) He HF2) as (I1 & I2 & I3). cbn [pack].
    assert (E1 : (16 * a + b) / 16 = a) by (symmetry; apply (N.div_unique _ _ _ b); lia).
    assert (E2 : (16 * a + b) mod 16 = b) by (symmetry; apply (N.mod_unique _ _ a); lia).
    unfold nibs in *. cbn [flat_map app]. rewrite I1, E1, E2. repeat split; [constructor; auto; unfold is_byte; lia|cbn [length]; lia].
Qed.
Lemma flat3_length : forall ds, length (flat_map nibbles3 ds) = (3 * length ds)%nat.
Proof. induction ds; auto. cbn [flat_map]. rewrite app_length, IHds. cbn [nibbles3 length]. lia. Qed.
Lemma flat3_bound : forall ds, Forall (fun d => d < 4096) ds -> Forall (fun n => n < 16) (flat_map nibbles3 ds).
Proof. induction 1; [constructor|]. cbn [flat_map]. apply Forall_app. split; auto. now apply nibbles3_bound. Qed.
Lemma pack3_flat : forall ds, Forall (fun d => d < 4096) ds -> pack3 (flat_map nibbles3 ds) = ds.
Proof.
  induction 1 as [|d ds Hd _ IH]; [reflexivity|]. cbn [flat_map]. destruct (nibbles3_val d) as (a & b & c & E & Ed). rewrite E. cbn [app pack3].
  now rewrite IH, <- Ed.
Qed.
Theorem C05_reencode : forall text v, mnemonic2bin text = Ok v -> Nat.even (length (words text)) = true ->
  2 * N.of_nat (length v) < 2 ^ 31 ->
  (length v mod 3 = 0)%nat /\ bin2mnemonic v = Ok (join 32 (words text)).
Proof.
  intros text v H He HL. rewrite C05_mnemonic_decoder in H. destruct (Nat.even (blanks text)); [discriminate|].
  destruct (indices (words text)) as [ds|] eqn:Ei; [|discriminate]. apply Ok_inj in H. subst v.
  destruct (indices_some _ _ Ei) as (H1 & H2 & H3). pose proof (flat3_bound ds H1) as HF. pose proof (flat3_length ds) as LF.
  apply Nat.even_spec in He. destruct He as [m Em].
  destruct (nibs_pack (length (flat_map nibbles3 ds)) (flat_map nibbles3 ds)) as (N1 & N2 & N3); auto.
  { rewrite LF, H3, Em. replace (3 * (2 * m))%nat with (2 * (3 * m))%nat by lia. rewrite Nat.even_mul. reflexivity. }
  assert (Hm : (length (pack (flat_map nibbles3 ds)) mod 3 = 0)%nat).
  { rewrite LF, H3, Em in N3. replace (length (pack (flat_map nibbles3 ds))) with (m * 3)%nat by lia. apply Nat.mod_mul. lia. }
  split; auto. rewrite enc_spec by auto. rewrite Hm. cbn [Nat.eqb]. rewrite N1, pack3_flat, H2 by auto. reflexivity.
Qed.

(** C06 *)
Theorem C06_single_blanks_odd_rejected : forall ws, Forall plain ws -> Nat.even (length ws) = false ->
  mnemonic2bin (join 32 ws) = Exn InvalidArgument.
Proof.
  intros ws HP Ho. rewrite C05_mnemonic_decoder, blanks_join by auto.
  rewrite <- Nat.negb_odd in Ho. apply negb_false_iff, Nat.odd_spec in Ho. destruct Ho as [m Em].
  replace (length ws - 1)%nat with (2 * m)%nat by lia. rewrite Nat.even_mul. reflexivity.
Qed.
Lemma words_trailing : forall s, words (s ++ [32]) = words s.
Proof.
  intros s. unfold words. assert (G : fields (s ++ [32]) = fields s ++ [[]]).
  { induction s as [|c s IH]; [reflexivity|]. cbn [app fields]. rewrite IH. destruct (is_white c); [reflexivity|].
    destruct (fields_ne s) as (f & fs & ->). reflexivity. }
  rewrite G, filter_app. cbn. apply app_nil_r.
Qed.
Theorem C06_odd_accepted_with_trailing_blank : forall ds, Forall (fun d => d < 4096) ds -> Nat.even (length ds) = false ->
  exists v, mnemonic2bin (join 32 (map word ds) ++ [32]) = Ok v /\ (2 * length v = 3 * length ds + 1)%nat /\ (length v mod 3 = 2)%nat /\
    bin2mnemonic v = Exn InvalidArgument.
Proof.
  intros ds HD Ho. rewrite C05_mnemonic_decoder, words_trailing, blanks_app, blanks_join, words_join by (now apply map_word_plain).
  rewrite <- Nat.negb_odd in Ho. apply negb_false_iff, Nat.odd_spec in Ho. destruct Ho as [m Em].
  rewrite map_length. change (blanks [32]) with 1%nat. replace (length ds - 1 + 1)%nat with (2 * m + 1)%nat by lia.
  rewrite Nat.even_add, Nat.even_mul. cbn [Nat.even orb eqb]. rewrite indices_words by auto. eexists. split; [reflexivity|].
  assert (PL : forall n ns, (length ns <= n)%nat -> Nat.even (length ns) = false -> (2 * length (pack ns) = length ns + 1)%nat).
  { clear. induction n as [|n IH]; intros ns HL Ho; [destruct ns; [discriminate|cbn in HL; lia]|].
    destruct ns as [|a [|b ns]]; [discriminate|reflexivity|]. cbn [length pack] in *. specialize (IH ns ltac:(lia) Ho). lia. }
  pose proof (PL _ (flat_map nibbles3 ds) (le_n _)) as PL'. rewrite flat3_length, Em in PL'.
  replace (3 * (2 * m + 1))%nat with (2 * (3 * m + 1) + 1)%nat in PL' by lia.
  rewrite Nat.even_add, Nat.even_mul in PL'. specialize (PL' eq_refl).
  set (v := pack (flat_map nibbles3 ds)) in *. assert (Lv : length v = (3 * m + 2)%nat) by lia.
  split; [lia|]. assert (Hm : (length v mod 3 = 2)%nat).
  { rewrite Lv. replace (3 * m + 2)%nat with (2 + m * 3)%nat by lia. rewrite Nat.mod_add by lia. reflexivity. }
  split; auto. unfold bin2mnemonic. now rewrite Hm.
Qed.
Theorem C06_even_rejected_with_trailing_blank : forall ws, Forall plain ws -> ws <> [] -> Nat.even (length ws) = true ->
  mnemonic2bin (join 32 ws ++ [32]) = Exn InvalidArgument.
Proof.
  intros ws HP Hne He. rewrite C05_mnemonic_decoder, blanks_app, blanks_join by auto. change (blanks [32]) with 1%nat.
  destruct ws as [|w ws]; [contradiction|]. cbn [length] in *. replace (S (length ws) - 1 + 1)%nat with (S (length ws)) by lia. now rewrite He.
Qed.
Example C06_case : mnemonic2bin (codes "aback  abbey abbot"%string) = Ok [0; 0; 1; 0; 2].
Proof. vm_compute. reflexivity. Qed.

(** C07 *)
Theorem C07_wordlist : length wordlist = 4096%nat /\ NoDup wordlist /\ Forall plain wordlist.
Proof.
  split; [apply wordlist_length|]. split; [apply wordlist_nodup|]. apply Forall_forall. apply word_plain.
Qed.
Theorem C07_mnemonic_injective : forall v1 v2 text, all_bytes v1 -> all_bytes v2 ->
  2 * N.of_nat (length v1) < 2 ^ 31 -> 2 * N.of_nat (length v2) < 2 ^ 31 ->
  bin2mnemonic v1 = Ok text -> bin2mnemonic v2 = Ok text -> v1 = v2.
Proof.
  intros v1 v2 text B1 B2 L1 L2 E1 E2.
  assert (G : forall v, all_bytes v -> 2 * N.of_nat (length v) < 2 ^ 31 -> bin2mnemonic v = Ok text ->
     (v = [] /\ text = []) \/ (v <> [] /\ mnemonic2bin text = Ok v)).
  { intros v HB HL HE. destruct v as [|b v]; [left; split; [reflexivity|]; cbn in HE; congruence|right]. split; [discriminate|].
    destruct (C04_mnemonic_round_trip (b :: v) HB ltac:(discriminate) HL) as (R1 & R2).
    destruct (Nat.eq_dec (length (b :: v) mod 3) 0) as [Hm|Hm]; [|rewrite R2 in HE by auto; discriminate].
    destruct (R1 Hm) as (ws & t & E & _ & _ & _ & D). rewrite HE in E. congruence. }
  destruct (G v1 B1 L1 E1) as [(-> & T1)|(N1 & D1)]; destruct (G v2 B2 L2 E2) as [(-> & T2)|(N2 & D2)]; try congruence.
  - rewrite T1 in D2. destruct C04_empty as [_ E]. congruence.
  - rewrite T2 in D1. destruct C04_empty as [_ E]. congruence.
Qed.
Example C04_case : exists text, bin2mnemonic [1; 35; 69; 103; 137; 171] = Ok text /\ mnemonic2bin text = Ok [1; 35; 69; 103; 137; 171].
Proof. eexists. split; vm_compute; reflexivity. Qed.

(** ** Seeds *)
Lemma store_le32_ok : forall (pre post : list N) b0 b1 b2 b3 v,
  store_le32 (length pre) v (pre ++ [b0; b1; b2; b3] ++ post) = Ok (pre ++ to_le 4 v ++ post).
Proof.
  intros. unfold store_le32, for_up.
  assert (S1 : forall (p q : list N) k x y, k = length p -> set (p ++ x :: q) k y = Ok (p ++ y :: q)).
  { clear. intros p q k x y ->. rewrite set_ok by (rewrite app_length; cbn; lia). f_equal.
    induction p; cbn; [reflexivity|]. now f_equal. }
  cbn [for_from app].
  rewrite (S1 pre _ (length pre + 0)%nat) by lia. cbn [bind].
  change (pre ++ ?a :: ?r) with (pre ++ [a] ++ r). rewrite app_assoc.
  rewrite (S1 (pre ++ [_]) _ (length pre + 1)%nat) by (rewrite app_length; cbn; lia). cbn [bind].
  rewrite <- app_assoc. cbn [app].
  change (pre ++ ?a :: ?b :: ?r) with (pre ++ [a; b] ++ r). rewrite app_assoc.
  rewrite (S1 (pre ++ [_; _]) _ (length pre + 2)%nat) by (rewrite app_length; cbn; lia). cbn [bind].
  rewrite <- app_assoc. cbn [app].
  change (pre ++ ?a :: ?b :: ?c :: ?r) with (pre ++ [a; b; c] ++ r). rewrite app_assoc.
  rewrite (S1 (pre ++ [_; _; _]) _ (length pre + 3)%nat) by (rewrite app_length; cbn; lia). cbn [bind].
  rewrite <- app_assoc. cbn [app to_le]. 
  change (2 ^ (8 * N.of_nat 0)) with 1. change (2 ^ (8 * N.of_nat 1)) with 256.
  change (2 ^ (8 * N.of_nat 2)) with (256 * 256). change (2 ^ (8 * N.of_nat 3)) with (256 * 256 * 256).
  rewrite N.div_1_r, <- !N.div_div by lia. reflexivity.
Qed.

(** The bytes hashed for chain [i]. *)
Definition chain_seed_input (seed : list N) (shift i : N) : list N := seed ++ to_le 4 shift ++ to_le 4 i.

Lemma hash_chain_loop_ok : forall n i seed shift tail4, length tail4 = 4%nat ->
  hash_chain_loop n i (length seed + 4) (seed ++ to_le 4 shift ++ tail4) =
  Ok (map (fun k => shake256 32 (chain_seed_input seed shift (i + N.of_nat k))) (seq 0 n)).
Proof.
  induction n as [|n IH]; intros i seed shift tail4 HL; [reflexivity|]. cbn [hash_chain_loop].
  destruct tail4 as [|b0 [|b1 [|b2 [|b3 [|]]]]]; try discriminate.
  replace (length seed + 4)%nat with (length (seed ++ to_le 4 shift)) at 1 by (rewrite app_length, to_le_length; reflexivity).
  rewrite app_assoc. pose proof (store_le32_ok (seed ++ to_le 4 shift) [] b0 b1 b2 b3 i) as E. cbn [app] in E. rewrite E. clear E. cbn [bind].
  rewrite app_nil_r, <- app_assoc. rewrite IH by apply to_le_length. cbn [bind]. f_equal. cbn [seq map]. rewrite N.add_0_r. unfold chain_seed_input at 2.
  f_equal. rewrite <- seq_shift, map_map. apply map_ext. intros k. f_equal. f_equal. lia.
Qed.

Lemma app_split : forall (r1 r2 e1 e2 : list N), length r1 = length r2 -> r1 ++ e1 = r2 ++ e2 -> r1 = r2 /\ e1 = e2.
Proof.
  induction r1 as [|x r1 IH]; intros [|y r2] e1 e2 L E; try discriminate; [auto|]. injection L as L. injection E as -> E.
  destruct (IH r2 e1 e2 L E) as [-> ->]. auto.
Qed.

Lemma to_le_inj4 : forall a b, a < 2 ^ 32 -> b < 2 ^ 32 -> to_le 4 a = to_le 4 b -> a = b.
Proof.
  intros a b Ha Hb E.
  assert (G : forall n x, from_le (to_le n x) = x mod 256 ^ N.of_nat n).
  { clear. induction n as [|n IH]; intros x; [now rewrite N.mod_1_r|]. cbn [to_le from_le]. rewrite IH.
    rewrite Nat2N.inj_succ, N.pow_succ_r', N.mod_mul_r by (try apply N.pow_nonzero; lia). reflexivity. }
  apply (f_equal from_le) in E. rewrite !G in E. change (256 ^ N.of_nat 4) with (2 ^ 32) in E. now rewrite !N.mod_small in E by auto.
Qed.

(** C41.  [count] is a uint32_t, so all indices are below 2^32. *)
Theorem C41_hash_chain_seeds : forall seed shift count, shift < 2 ^ 32 -> count < 2 ^ 32 ->
  exists l, getHashChainSeed seed shift count = Ok l /\ length l = N.to_nat count /\
    (forall i, i < count -> nth_error l (N.to_nat i) = Some (shake256 32 (seed ++ to_le 4 shift ++ to_le 4 i))) /\
    (forall k, k <= count -> getHashChainSeed seed shift k = Ok (firstn (N.to_nat k) l)).
Proof.
  intros seed shift count Hs Hc.
  assert (G : forall n, getHashChainSeed seed shift n =
    Ok (map (fun k => shake256 32 (chain_seed_input seed shift (N.of_nat k))) (seq 0 (N.to_nat n)))).
  { intros n. unfold getHashChainSeed. change (repeat 0 8) with ([0; 0; 0; 0] ++ [0; 0; 0; 0]).
    rewrite store_le32_ok. cbn [bind]. rewrite hash_chain_loop_ok by reflexivity. reflexivity. }
  eexists. split; [apply G|]. split; [now rewrite map_length, seq_length|]. split.
  - intros i Hi. rewrite nth_error_map. rewrite (nth_error_nth' (seq 0 (N.to_nat count)) 0%nat) by (rewrite seq_length; lia).
    rewrite seq_nth by lia. cbn [option_map plus]. rewrite N2Nat.id. reflexivity.
  - intros k Hk. rewrite G. f_equal. rewrite firstn_map. f_equal.
    replace (N.to_nat count) with (N.to_nat k + (N.to_nat count - N.to_nat k))%nat by lia.
    rewrite seq_app, firstn_app, seq_length, Nat.sub_diag, firstn_O, app_nil_r. symmetry. apply firstn_all2. now rewrite seq_length.
Qed.
Theorem C41_inputs_distinct : forall seed s1 i1 s2 i2, s1 < 2 ^ 32 -> s2 < 2 ^ 32 -> i1 < 2 ^ 32 -> i2 < 2 ^ 32 ->
  seed ++ to_le 4 s1 ++ to_le 4 i1 = seed ++ to_le 4 s2 ++ to_le 4 i2 -> s1 = s2 /\ i1 = i2.
Proof.
  intros seed s1 i1 s2 i2 H1 H2 H3 H4 E. apply app_inv_head in E.
  destruct (app_split (to_le 4 s1) (to_le 4 s2) _ _ eq_refl E) as [A B]. split; apply to_le_inj4; auto.
Qed.


Lemma iterate_S : forall A n (f : A -> A) x, iterate n f (f x) = f (iterate n f x).
Proof. induction n as [|n IH]; intros f x; [reflexivity|]. cbn [iterate]. now rewrite IH. Qed.
Lemma iterate_add : forall A m n (f : A -> A) x, iterate (m + n) f x = iterate m f (iterate n f x).
Proof. induction m as [|m IH]; intros n f x; [reflexivity|]. cbn [plus iterate]. now rewrite IH. Qed.
Lemma sha2_loop_iter : forall n h, sha2_loop n h = iterate n sha256 h.
Proof. induction n as [|n IH]; intros h; [reflexivity|]. cbn [sha2_loop iterate]. now rewrite IH, iterate_S. Qed.
Theorem C42_sha2_256_n : forall x n,
  (n = 0 -> sha2_256_n x n = Exn InvalidArgument) /\
  (0 < n -> sha2_256_n x n = Ok (iterate (N.to_nat n) sha2_256 x)).
Proof.
  intros x n. unfold sha2_256_n. split; intros H; [now subst|]. rewrite (proj2 (N.eqb_neq n 0)) by lia. f_equal.
  rewrite sha2_loop_iter. replace (N.to_nat n) with (S (N.to_nat (n - 1))) by lia. cbn [iterate]. rewrite iterate_S. reflexivity.
Qed.
Theorem C42_compose : forall x a b y z, sha2_256_n x a = Ok y -> sha2_256_n y b = Ok z -> sha2_256_n x (a + b) = Ok z.
Proof.
  intros x a b y z E1 E2. destruct (N.eq_dec a 0) as [->|Ha]; [discriminate|]. destruct (N.eq_dec b 0) as [->|Hb]; [discriminate|].
  rewrite (proj2 (C42_sha2_256_n x a)) in E1 by lia. rewrite (proj2 (C42_sha2_256_n y b)) in E2 by lia.
  apply Ok_inj in E1. apply Ok_inj in E2. rewrite (proj2 (C42_sha2_256_n x (a + b))) by lia. f_equal. rewrite <- E2, <- E1, <- iterate_add. f_equal. lia.
Qed.

(** C43 *)
Theorem C43_random_seed : forall (dev : device) n entropy,
  (dev = None -> getRandomSeed dev n entropy = Exn RuntimeError) /\
  (forall got, dev = Some got -> N.of_nat (length got) < n -> getRandomSeed dev n entropy = Exn RuntimeError) /\
  (forall rnd rest, dev = Some (rnd ++ rest) -> N.of_nat (length rnd) = n ->
     getRandomSeed dev n entropy = Ok (shake256 (N.to_nat n) (rnd ++ entropy)) /\
     length (shake256 (N.to_nat n) (rnd ++ entropy)) = N.to_nat n).
Proof.
  intros dev n entropy. unfold getRandomSeed. split; [now intros ->|]. split.
  - intros got -> H. now rewrite (proj2 (N.ltb_lt _ _) H).
  - intros rnd rest -> H. rewrite app_length. rewrite (proj2 (N.ltb_ge _ _)) by lia. split; [|apply shake256_length].
    rewrite <- H, Nat2N.id. rewrite firstn_app, Nat.sub_diag, firstn_O, app_nil_r, firstn_all. reflexivity.
Qed.
(** Fixed size: the hashed bytes determine both the device bytes and the entropy. *)
Theorem C43_inputs_distinct : forall (r1 r2 e1 e2 : list N), length r1 = length r2 -> r1 ++ e1 = r2 ++ e2 -> r1 = r2 /\ e1 = e2.
Proof. exact app_split. Qed.
