(** Text encodings of the Rust port: hexadecimal (C68) and mnemonics (C69). *)
From Coq Require Import String List NArith Arith Lia Bool.
From Verif Require Import Base Bytes Keccak KeccakLemmas Sha256 Wordlist WordlistProofs Misc SpecMisc PropMisc SpecRsMisc
  RsBase RsKeccak RsMisc.
Import ListNotations.
Open Scope N_scope.

Lemma ROk_inj' : forall A (a b : A), ROk a = ROk b -> a = b.
Proof. congruence. Qed.

(** ** C68: hexadecimal *)

Lemma rs_hstr_wrap : forall w v c, 0 < w -> w < 2 ^ 32 -> all_bytes v -> c <= w -> w < 2 ^ 32 - 1 \/ c + N.of_nat (length v) < 2 ^ 32 ->
  exists l0 ls, rs_bin2hstr_loop w c v = ROk (hex_text l0 ++ concat (map (cons 10) (map hex_text ls))) /\
    v = l0 ++ concat ls /\ c + N.of_nat (length l0) <= w /\ (ls <> [] -> c + N.of_nat (length l0) = w) /\ lines_ok w ls.
Proof.
  intros w v. induction v as [|b v IH]; intros c Hw Hw2 HB Hc Hmax.
  - exists [], []. cbn. repeat split; auto; try lia. intros H; contradiction.
  - inversion HB; subst. cbn [rs_bin2hstr_loop length] in *. rewrite (proj2 (N.ltb_lt 0 w)) by auto.
    rewrite (proj2 (N.leb_gt (2 ^ 32) (c + 1))) by lia.
    rewrite put_hex_ok by auto.
    destruct (N.lt_ge_cases w (c + 1)) as [Hl|Hg].
    + rewrite (proj2 (N.ltb_lt w (c + 1))) by auto.
      destruct (IH 1) as (l0 & ls & E & Ev & L1 & L2 & L3); auto; [lia|lia|].
      rewrite E. cbn [rbind]. exists [], ((b :: l0) :: ls).
      split. { cbn [map concat app]. rewrite hex_text_cons. cbn [app hex_text flat_map]. reflexivity. }
      split. { cbn [concat app]. now rewrite Ev. }
      split; [cbn; lia|]. split; [intros _; cbn; lia|].
      destruct ls as [|m ls]; [cbn [lines_ok length]; lia|].
      apply lines_ok_cons; [|discriminate|auto]. specialize (L2 ltac:(discriminate)). cbn [length]. lia.
    + rewrite (proj2 (N.ltb_ge w (c + 1))) by auto.
      destruct (IH (c + 1)) as (l0 & ls & E & Ev & L1 & L2 & L3); auto; [lia|].
      rewrite E. cbn [rbind]. exists (b :: l0), ls.
      split. { rewrite hex_text_cons. now rewrite <- app_assoc. }
      split. { cbn [app]. now rewrite Ev. }
      cbn [length]. split; [lia|]. split; [|auto]. intros Hn. specialize (L2 Hn). lia.
Qed.
Lemma rs_hstr_nowrap : forall v c, all_bytes v -> rs_bin2hstr_loop 0 c v = ROk (hex_text v).
Proof.
  induction v as [|b v IH]; intros c H; [reflexivity|]. inversion H; subst.
  cbn [rs_bin2hstr_loop]. change (0 <? 0) with false. cbv iota. rewrite IH by auto. cbn [rbind].
  rewrite put_hex_ok by auto. reflexivity.
Qed.

(** Encoding: two lower-case characters per byte, in lines of [wrap] bytes; it panics
    in one case only. *)
Theorem C68_rust_hex_encode : forall v wrap, all_bytes v -> wrap < 2 ^ 32 ->
  (wrap = 0 -> rs_bin2hstr v wrap = ROk (hex_text v)) /\
  (0 < wrap -> wrap < 2 ^ 32 - 1 \/ N.of_nat (length v) < 2 ^ 32 ->
     exists ls, rs_bin2hstr v wrap = ROk (join 10 (map hex_text ls)) /\ concat ls = v /\ lines_ok wrap ls) /\
  (rs_bin2hstr v wrap = RPanic <-> wrap = 2 ^ 32 - 1 /\ 2 ^ 32 <= N.of_nat (length v)).
Proof.
  intros v wrap HB HW.
  assert (A : wrap = 0 -> rs_bin2hstr v wrap = ROk (hex_text v)) by (intros ->; now apply rs_hstr_nowrap).
  assert (B : 0 < wrap -> wrap < 2 ^ 32 - 1 \/ N.of_nat (length v) < 2 ^ 32 ->
     exists ls, rs_bin2hstr v wrap = ROk (join 10 (map hex_text ls)) /\ concat ls = v /\ lines_ok wrap ls).
  { intros H0 Hmax. destruct (rs_hstr_wrap wrap v 0) as (l0 & ls & E & Ev & L1 & L2 & L3); auto; [lia|].
    destruct l0 as [|b l0].
    - destruct ls as [|l ls].
      + exists []. cbn in Ev. subst v. repeat split; auto.
      + specialize (L2 ltac:(discriminate)). cbn in L2. lia.
    - exists ((b :: l0) :: ls). split; [|split].
      + unfold rs_bin2hstr. rewrite E. cbn [map]. now rewrite join_cons.
      + symmetry. exact Ev.
      + destruct ls as [|l ls]; [cbn [lines_ok]; cbn [length] in *; lia|]. apply lines_ok_cons; [|discriminate|auto].
        specialize (L2 ltac:(discriminate)). lia. }
  split; [exact A|]. split; [exact B|].
  destruct (N.eq_dec wrap 0) as [->|H0].
  { rewrite A by auto. split; [discriminate|]. intros [X _]. discriminate. }
  destruct (N.eq_dec wrap (2 ^ 32 - 1)) as [Em|Hm].
  2:{ destruct B as (ls & E & _); [lia|lia|]. rewrite E. split; [discriminate|tauto]. }
  destruct (N.lt_ge_cases (N.of_nat (length v)) (2 ^ 32)) as [Hl|Hl].
  { destruct B as (ls & E & _); [lia|lia|]. rewrite E. split; [discriminate|lia]. }
  split; [auto|]. intros _. unfold rs_bin2hstr.
  assert (G : forall v c, c < 2 ^ 32 -> 2 ^ 32 <= c + N.of_nat (length v) -> rs_bin2hstr_loop wrap c v = RPanic).
  { clear v HB A B Hl. induction v as [|b v IH]; intros c H1 H2; cbn [length] in *; [lia|]. cbn [rs_bin2hstr_loop].
    rewrite (proj2 (N.ltb_lt 0 wrap)) by lia.
    destruct (2 ^ 32 <=? c + 1) eqn:E; auto. apply N.leb_gt in E.
    rewrite (proj2 (N.ltb_ge wrap (c + 1))) by lia. rewrite IH by lia. reflexivity. }
  apply G; lia.
Qed.

(** Decoding of one character. *)
Lemma rs_digit16_spec : forall c,
  (is_hex c /\ rs_is_digit16 c = true /\ c < 128 /\ exists d, rs_get_hex_value c = ROk d /\ d < 16 /\ lower [c] = [hexc d]) \/
  (~ is_hex c /\ rs_is_digit16 c = false).
Proof.
  intros c. unfold is_hex. destruct (N.lt_ge_cases c 128) as [Hc|Hc].
  - assert (E : (if in_dec N.eq_dec c (codes "0123456789abcdefABCDEF"%string)
       then rs_is_digit16 c && match rs_get_hex_value c with ROk d => (d <? 16) && (if list_eq_dec N.eq_dec (lower [c]) [hexc d] then true else false) | _ => false end
       else negb (rs_is_digit16 c)) = true).
    { revert c Hc. apply (below_b _ 128). vm_compute. reflexivity. }
    destruct (in_dec N.eq_dec c _).
    + left. apply andb_true_iff in E. destruct E as [E1 E2]. split; auto. split; auto. split; auto.
      destruct (rs_get_hex_value c) as [d|e|]; try discriminate. apply andb_true_iff in E2. destruct E2 as [E2 E3].
      destruct (list_eq_dec _ _ _); try discriminate. apply N.ltb_lt in E2. eauto.
    + right. split; auto. now apply negb_true_iff.
  - right. split.
    + intros H.
      assert (E : forallb (fun x => x <? 128) (codes "0123456789abcdefABCDEF"%string) = true) by (vm_compute; reflexivity).
      rewrite forallb_forall in E. apply E in H. apply N.ltb_lt in H. lia.
    + unfold rs_is_digit16. rewrite (proj2 (N.leb_gt c 57)), (proj2 (N.leb_gt c 102)), (proj2 (N.leb_gt c 70)) by lia.
      now rewrite !andb_false_r.
Qed.
Lemma is_hex_dec : forall c, {is_hex c} + {~ is_hex c}.
Proof. intros c. apply in_dec, N.eq_dec. Qed.

Lemma rs_hstr2bin_loop_ok : forall n s, (length s <= n)%nat ->
  (Nat.even (length s) = true /\ Forall is_hex s -> exists v, rs_hstr2bin_loop s = ROk v /\ all_bytes v /\ (2 * length v)%nat = length s /\ hex_text v = lower s) /\
  (~ (Nat.even (length s) = true /\ Forall is_hex s) -> rs_hstr2bin_loop s = RErr RInvalidArgument).
Proof.
  induction n as [|n IH]; intros s Hn.
  - destruct s; [|cbn in Hn; lia]. split; [|intros H; exfalso; apply H; split; constructor].
    intros _. exists []. repeat split; constructor.
  - destruct s as [|c1 [|c2 s]].
    + split; [|intros H; exfalso; apply H; split; constructor]. intros _. exists []. repeat split; constructor.
    + split; [|reflexivity]. intros [X _]. discriminate.
    + cbn [length] in *. destruct (IH s ltac:(lia)) as (I1 & I2). cbn [rs_hstr2bin_loop].
      destruct (rs_digit16_spec c1) as [(X1 & Y1 & _ & x & Z1 & B1 & W1)|(X1 & Y1)]; rewrite Y1; cbn [negb orb].
      2:{ split; auto. intros [_ F]. inversion F. contradiction. }
      destruct (rs_digit16_spec c2) as [(X2 & Y2 & _ & y & Z2 & B2 & W2)|(X2 & Y2)]; rewrite Y2; cbn [negb orb].
      2:{ split; auto. intros [_ F]. inversion F as [|? ? ? F']. inversion F'. contradiction. }
      rewrite Z1, Z2. cbn [rbind].
      assert (Ed : u8 (N.shiftl x 4) = x * 16) by (rewrite N.shiftl_mul_pow2; unfold u8; apply N.mod_small; change (2 ^ 4) with 16; lia). rewrite Ed.
      rewrite (proj2 (N.leb_gt 256 (x * 16 + y))) by lia. split.
      * intros [He F]. inversion F as [|? ? _ F1]; subst. inversion F1 as [|? ? _ F2]; subst. destruct (I1 (conj He F2)) as (v & Ev & Bv & Lv & Tv).
        rewrite Ev. cbn [rbind]. eexists. split; [reflexivity|].
        split; [constructor; auto; unfold is_byte; lia|]. split; [cbn [length]; lia|].
        rewrite hex_text_cons, Tv, (lower_cons c1), (lower_cons c2), W1, W2.
        assert (Eq1 : (x * 16 + y) / 16 = x). { rewrite N.div_add_l by lia. rewrite N.div_small by auto. lia. }
        assert (Eq2 : (x * 16 + y) mod 16 = y). { rewrite N.add_comm, N.mod_add by lia. now apply N.mod_small. }
        rewrite Eq1, Eq2. reflexivity.
      * intros F. rewrite I2; auto. intros [He F']. apply F. split; auto.
Qed.
Lemma utf8_char_ascii : forall c, c < 128 -> utf8_char c = [c].
Proof. intros c H. unfold utf8_char. change 0x80 with 128. now rewrite (proj2 (N.ltb_lt _ _) H). Qed.
Lemma rs_str2bin_ascii : forall s, ascii s -> rs_str2bin s = s.
Proof.
  intros s H. unfold rs_str2bin. induction H as [|c s Hc Hs IH]; [reflexivity|]. cbn [flat_map]. now rewrite utf8_char_ascii, IH.
Qed.
(** str2bin gives the UTF-8 of any text: it reads back, in shortest form. *)
Lemma cont_ok' : forall x, x < 64 -> is_cont (0x80 + x) = true.
Proof. intros x H. unfold is_cont. apply andb_true_intro. split; [apply N.leb_le; lia|apply N.ltb_lt; lia]. Qed.
Lemma read2 : forall q r t, 2 <= q < 32 -> r < 64 -> utf8_read (0xC0 + q :: 0x80 + r :: t) = option_map (cons (64 * q + r)) (utf8_read t).
Proof.
  intros q r t Hq Hr. cbn [utf8_read]. rewrite (proj2 (N.ltb_ge (0xC0 + q) 0x80)) by lia.
  rewrite (proj2 (N.leb_le 0xC2 _)), (proj2 (N.ltb_lt _ 0xE0)), cont_ok' by lia. cbn [andb]. do 2 f_equal. lia.
Qed.
Lemma read3 : forall q r s t, q < 16 -> r < 64 -> s < 64 -> 0x800 <= 4096 * q + 64 * r + s ->
  utf8_read (0xE0 + q :: 0x80 + r :: 0x80 + s :: t) = option_map (cons (4096 * q + 64 * r + s)) (utf8_read t).
Proof.
  intros q r s t Hq Hr Hs Hv. cbn [utf8_read]. rewrite (proj2 (N.ltb_ge (0xE0 + q) 0x80)) by lia. rewrite (proj2 (N.ltb_ge (0xE0 + q) 0xE0)) by lia.
  rewrite andb_false_r. cbn [andb]. rewrite !cont_ok' by lia.
  replace ((0xE0 + q - 0xE0) * 4096 + (0x80 + r - 0x80) * 64 + (0x80 + s - 0x80)) with (4096 * q + 64 * r + s) by lia.
  rewrite (proj2 (N.leb_le 0xE0 _)), (proj2 (N.ltb_lt _ 0xF0)), (proj2 (N.leb_le 0x800 _)) by lia. reflexivity.
Qed.
Lemma read4 : forall q r s u t, q < 5 -> r < 64 -> s < 64 -> u < 64 -> 0x10000 <= 262144 * q + 4096 * r + 64 * s + u < 0x110000 ->
  utf8_read (0xF0 + q :: 0x80 + r :: 0x80 + s :: 0x80 + u :: t) = option_map (cons (262144 * q + 4096 * r + 64 * s + u)) (utf8_read t).
Proof.
  intros q r s u t Hq Hr Hs Hu Hv. cbn [utf8_read]. rewrite (proj2 (N.ltb_ge (0xF0 + q) 0x80)) by lia. rewrite (proj2 (N.ltb_ge (0xF0 + q) 0xE0)) by lia.
  rewrite andb_false_r. cbn [andb]. rewrite (proj2 (N.ltb_ge (0xF0 + q) 0xF0)) by lia. rewrite andb_false_r. cbn [andb]. rewrite !cont_ok' by lia.
  replace ((0xF0 + q - 0xF0) * 262144 + (0x80 + r - 0x80) * 4096 + (0x80 + s - 0x80) * 64 + (0x80 + u - 0x80)) with (262144 * q + 4096 * r + 64 * s + u) by lia.
  rewrite (proj2 (N.leb_le 0xF0 _)), (proj2 (N.ltb_lt _ 0xF5)), (proj2 (N.leb_le 0x10000 _)), (proj2 (N.ltb_lt _ 0x110000)) by lia. reflexivity.
Qed.
Lemma split64 : forall x, exists q r, x / 64 = q /\ x mod 64 = r /\ x = 64 * q + r /\ r < 64.
Proof. intros x. exists (x / 64), (x mod 64). repeat split; [apply N.div_mod; lia|apply N.mod_upper_bound; lia]. Qed.
Lemma utf8_read_char : forall c t, c < 0x110000 -> utf8_read (utf8_char c ++ t) = option_map (cons c) (utf8_read t).
Proof.
  intros c t Hc. unfold utf8_char. destruct (c <? 0x80) eqn:E1; [cbn [app utf8_read]; now rewrite E1|]. apply N.ltb_ge in E1.
  assert (D2 : c / 4096 = c / 64 / 64) by (rewrite N.div_div by lia; reflexivity).
  assert (D3 : c / 262144 = c / 64 / 64 / 64) by (rewrite !N.div_div by lia; reflexivity).
  rewrite D2, D3. clear D2 D3.
  destruct (split64 c) as (q & r & -> & -> & -> & Hr). destruct (split64 q) as (q2 & r2 & E5 & E6 & E7 & Hr2). rewrite E5, E6.
  destruct (split64 q2) as (q3 & r3 & E8 & E9 & E10 & Hr3). rewrite E8, E9. clear E5 E6 E8 E9.
  destruct (64 * q + r <? 0x800) eqn:E2; [apply N.ltb_lt in E2|apply N.ltb_ge in E2].
  - cbn [app]. apply read2; lia.
  - destruct (64 * q + r <? 0x10000) eqn:E3; [apply N.ltb_lt in E3|apply N.ltb_ge in E3]; cbn [app].
    + rewrite read3 by lia. do 2 f_equal. lia.
    + rewrite read4 by lia. do 2 f_equal. lia.
Qed.
Theorem C68_rust_str2bin_utf8 : forall s, Forall (fun c => c < 0x110000) s -> utf8_read (rs_str2bin s) = Some s.
Proof.
  intros s H. unfold rs_str2bin. induction H as [|c s Hc Hs IH]; [reflexivity|]. cbn [flat_map]. now rewrite utf8_read_char, IH.
Qed.
Example C68_utf8_case : rs_str2bin [0x41; 0x7FF; 0x20AC; 0x1F600] = [0x41; 0xDF; 0xBF; 0xE2; 0x82; 0xAC; 0xF0; 0x9F; 0x98; 0x80].
Proof. reflexivity. Qed.
(** The hexadecimal text of a string: that of its UTF-8 bytes, wrapped as for bytes. *)
Lemma utf8_bytes : forall s, Forall (fun c => c < 0x110000) s -> all_bytes (rs_str2bin s).
Proof.
  intros s H. unfold rs_str2bin, all_bytes. induction H as [|c s Hc Hs IH]; [constructor|]. cbn [flat_map]. apply Forall_app. split; [|exact IH].
  assert (M : forall x, x mod 64 < 64) by (intros; apply N.mod_upper_bound; discriminate).
  unfold utf8_char. destruct (c <? 0x80) eqn:E1; [apply N.ltb_lt in E1; repeat constructor; unfold is_byte; lia|].
  destruct (c <? 0x800) eqn:E2.
  { apply N.ltb_lt in E2. assert (c / 64 < 32) by (apply N.div_lt_upper_bound; lia). pose proof (M c). repeat constructor; unfold is_byte; lia. }
  destruct (c <? 0x10000) eqn:E3.
  { apply N.ltb_lt in E3. assert (c / 4096 < 16) by (apply N.div_lt_upper_bound; lia). pose proof (M c). pose proof (M (c / 64)). repeat constructor; unfold is_byte; lia. }
  assert (c / 262144 < 8) by (apply N.div_lt_upper_bound; lia). pose proof (M c). pose proof (M (c / 64)). pose proof (M (c / 4096)). repeat constructor; unfold is_byte; lia.
Qed.
Theorem C68_rust_hex_of_string : forall s wrap, Forall (fun c => c < 0x110000) s -> wrap < 2 ^ 32 - 1 ->
  exists v ls, all_bytes v /\ utf8_read v = Some s /\ concat ls = v /\ (wrap = 0 -> ls = [v]) /\ (0 < wrap -> lines_ok wrap ls) /\
    rs_binstr2hstr s wrap = ROk (join 10 (map hex_text ls)).
Proof.
  intros s wrap H Hw. pose proof (utf8_bytes s H) as HB. exists (rs_str2bin s).
  destruct (C68_rust_hex_encode (rs_str2bin s) wrap HB ltac:(lia)) as (A & B & _). destruct (N.eq_0_gt_0_cases wrap) as [E0|E0].
  - exists [rs_str2bin s]. split; [exact HB|]. split; [now apply C68_rust_str2bin_utf8|]. split; [cbn [concat]; now rewrite app_nil_r|].
    split; [reflexivity|]. split; [intros; lia|]. unfold rs_binstr2hstr. rewrite (A E0). reflexivity.
  - destruct (B E0 ltac:(left; exact Hw)) as (ls & E & C & L). exists ls. split; [exact HB|]. split; [now apply C68_rust_str2bin_utf8|]. split; [exact C|].
    split; [intros; lia|]. split; [intros _; exact L|exact E].
Qed.
Example C68_hex_of_string_case : rs_binstr2hstr [0x20AC; 0x41] 2 = ROk (codes "e282
ac41"%string).
Proof. vm_compute. reflexivity. Qed.
Lemma is_hex_ascii : forall s, Forall is_hex s -> ascii s.
Proof.
  intros s H. unfold ascii. eapply Forall_impl; [|exact H]. intros c Hc.
  destruct (rs_digit16_spec c) as [(_ & _ & L & _)|(X & _)]; [exact L|contradiction].
Qed.

(** Every text: pairs of hexadecimal characters of either case, or InvalidArgument. *)
Theorem C68_rust_hex_decode : forall s,
  (Nat.even (length s) = true /\ Forall is_hex s ->
     exists v, rs_hstr2bin s = ROk v /\ all_bytes v /\ (2 * length v)%nat = length s /\ hex_text v = lower s) /\
  (~ (Nat.even (length s) = true /\ Forall is_hex s) -> rs_hstr2bin s = RErr RInvalidArgument).
Proof.
  intros s. destruct (rs_hstr2bin_loop_ok _ s (le_n _)) as [A B]. unfold rs_hstr2bin. split.
  - intros [He HF]. rewrite rs_str2bin_ascii by (now apply is_hex_ascii).
    assert (E : (length s mod 2)%nat = 0%nat). { apply Nat.even_spec in He. destruct He as [m ->]. rewrite Nat.mul_comm. apply Nat.mod_mul. lia. }
    rewrite E. cbn [Nat.eqb negb]. auto.
  - intros H. destruct (negb (length (rs_str2bin s) mod 2 =? 0)%nat); auto.
Qed.

Theorem C68_rust_hex_round_trip : forall v, all_bytes v ->
  exists text, rs_bin2hstr v 0 = ROk text /\ rs_hstr2bin text = ROk v.
Proof.
  intros v HB. exists (hex_text v). split; [now apply rs_hstr_nowrap|].
  assert (HH : Forall is_hex (hex_text v)).
  { apply Forall_forall. intros c Hc. apply in_flat_map in Hc. destruct Hc as (b & Hb & Hc).
    unfold all_bytes in HB. rewrite Forall_forall in HB. specialize (HB b Hb). destruct (byte_parts b HB) as (P1 & P2 & _).
    destruct Hc as [<-|[<-|[]]]; [apply (hexc_ok _ P1)|apply (hexc_ok _ P2)]. }
  assert (He : Nat.even (length (hex_text v)) = true) by (rewrite hex_text_length, Nat.even_mul; reflexivity).
  destruct (proj1 (C68_rust_hex_decode (hex_text v)) (conj He HH)) as (v' & E & HB' & L & T).
  rewrite E. f_equal.
  assert (TL : lower (hex_text v) = hex_text v).
  { clear - HB. induction HB as [|b v Hb HB IH]; [reflexivity|]. rewrite hex_text_cons. cbn [app]. rewrite lower_cons, (lower_cons (hexc (b mod 16))), IH.
    destruct (byte_parts b Hb) as (P1 & P2 & _). destruct (hexc_ok _ P1) as (_ & _ & _ & -> & _). destruct (hexc_ok _ P2) as (_ & _ & _ & -> & _). reflexivity. }
  rewrite TL in T. clear - T HB HB'. revert v HB T. induction HB' as [|b v' Hb HB' IH]; intros [|c v] HB T; try reflexivity; try discriminate.
  inversion HB; subst. rewrite !hex_text_cons in T. cbn [app] in T. injection T as T1 T2 T3.
  destruct (byte_parts b Hb) as (P1 & P2 & P3). destruct (byte_parts c) as (Q1 & Q2 & Q3); auto.
  f_equal; [|now apply IH].
  assert (I : forall x y, x < 16 -> y < 16 -> hexc x = hexc y -> x = y).
  { intros x y Hx Hy E. destruct (hexc_ok _ Hx) as (_ & E1 & _). destruct (hexc_ok _ Hy) as (_ & E2 & _). congruence. }
  apply I in T1; auto. apply I in T2; auto. lia.
Qed.

(** The C++ functions, wherever they do not run into undefined behaviour. *)
Theorem C68_rust_hex_is_cpp : forall v wrap text, all_bytes v -> wrap < 2 ^ 32 ->
  (bin2hstr v wrap = Ok text -> rs_bin2hstr v wrap = ROk text) /\
  (ascii text -> N.of_nat (length text) < 2 ^ 31 ->
     match hstr2bin text with Ok b => rs_hstr2bin text = ROk b | _ => rs_hstr2bin text = RErr RInvalidArgument end).
Proof.
  intros v wrap text HB HW. split.
  - unfold bin2hstr, rs_bin2hstr. intros H.
    assert (G : forall v c t, c <= wrap -> bin2hstr_loop wrap c v = Ok t -> rs_bin2hstr_loop wrap c v = ROk t).
    { clear v HB text H. induction v as [|b v IH]; intros c t Hc H; cbn [bin2hstr_loop rs_bin2hstr_loop] in *; [now apply Ok_inj in H; subst|].
      destruct (0 <? wrap) eqn:E0.
      - apply N.ltb_lt in E0. destruct (INT_MAX <? c + 1) eqn:E1; [discriminate|]. apply N.ltb_ge in E1. unfold INT_MAX in E1.
        rewrite (proj2 (N.leb_gt (2 ^ 32) (c + 1))) by lia. destruct (wrap <? c + 1) eqn:E2.
        + apply bind_ok in H. destruct H as (tl & H & Ht). rewrite (IH 1 tl) by (auto; lia). apply Ok_inj in Ht. now subst t.
        + apply N.ltb_ge in E2. apply bind_ok in H. destruct H as (tl & H & Ht). rewrite (IH (c + 1) tl) by (auto; lia). apply Ok_inj in Ht. now subst t.
      - apply bind_ok in H. destruct H as (tl & H & Ht). rewrite (IH c tl) by auto. apply Ok_inj in Ht. now subst t. }
    apply G; [lia|exact H].
  - intros HA HL. destruct (C02_hex_decoder text HA HL) as [A B]. destruct (C68_rust_hex_decode text) as [A' B'].
    assert (D : {Nat.even (length text) = true /\ Forall is_hex text} + {~ (Nat.even (length text) = true /\ Forall is_hex text)}).
    { destruct (Nat.even (length text)); [|right; intros [X _]; discriminate].
      destruct (Forall_dec is_hex is_hex_dec text); [left; auto|right; tauto]. }
    destruct D as [D|D].
    + destruct (A D) as (b & Eb & _ & Lb & Tb). destruct (A' D) as (b' & Eb' & _ & Lb' & Tb'). rewrite Eb, Eb'. f_equal.
      destruct (A D) as (b1 & Eb1 & Bb1 & _). rewrite Eb in Eb1. apply Ok_inj in Eb1. subst b1.
      destruct (A' D) as (b2 & Eb2 & Bb2 & _). rewrite Eb' in Eb2. apply ROk_inj' in Eb2. subst b2.
      destruct (C68_rust_hex_round_trip b Bb1) as (t1 & F1 & G1). destruct (C68_rust_hex_round_trip b' Bb2) as (t2 & F2 & G2).
      unfold rs_bin2hstr in F1, F2. rewrite rs_hstr_nowrap in F1, F2 by auto. apply ROk_inj' in F1, F2. subst t1 t2. congruence.
    + rewrite (B D), (B' D). reflexivity.
Qed.

(** ** C69: mnemonics *)

Lemma rs_white : forall c, rs_is_whitespace c = is_uwhite c.
Proof.
  intros c. unfold is_uwhite, unicode_white. cbn [existsb]. unfold rs_is_whitespace.
  destruct ((9 <=? c) && (c <=? 13)) eqn:E1.
  { apply andb_true_iff in E1. destruct E1 as [E1 E2]. apply N.leb_le in E1, E2.
    assert (H : c = 9 \/ c = 10 \/ c = 11 \/ c = 12 \/ c = 13) by lia.
    destruct H as [->|[->|[->|[->| ->]]]]; reflexivity. }
  destruct ((0x2000 <=? c) && (c <=? 0x200A)) eqn:E2.
  { apply andb_true_iff in E2. destruct E2 as [E2 E3]. apply N.leb_le in E2, E3.
    assert (H : c = 0x2000 \/ c = 0x2001 \/ c = 0x2002 \/ c = 0x2003 \/ c = 0x2004 \/ c = 0x2005 \/ c = 0x2006 \/ c = 0x2007 \/ c = 0x2008 \/ c = 0x2009 \/ c = 0x200A) by lia.
    destruct H as [->|[->|[->|[->|[->|[->|[->|[->|[->|[->| ->]]]]]]]]]]; reflexivity. }
  assert (N1 : forall k, 9 <= k <= 13 -> (c =? k) = false).
  { intros k Hk. apply N.eqb_neq. intros ->. rewrite (proj2 (N.leb_le 9 k)), (proj2 (N.leb_le k 13)) in E1 by lia. discriminate. }
  assert (N2 : forall k, 0x2000 <= k <= 0x200A -> (c =? k) = false).
  { intros k Hk. apply N.eqb_neq. intros ->. rewrite (proj2 (N.leb_le 0x2000 k)), (proj2 (N.leb_le k 0x200A)) in E2 by lia. discriminate. }
  rewrite (N1 9), (N1 10), (N1 11), (N1 12), (N1 13) by lia. rewrite (N2 0x2000), (N2 0x2001), (N2 0x2002), (N2 0x2003), (N2 0x2004), (N2 0x2005), (N2 0x2006), (N2 0x2007), (N2 0x2008), (N2 0x2009), (N2 0x200a) by lia. cbn [orb]. now rewrite !orb_assoc, !orb_false_r.
Qed.
Lemma ufields_ne : forall s, exists f fs, ufields s = f :: fs.
Proof.
  induction s as [|c s (f & fs & E)]; [do 2 eexists; reflexivity|]. cbn [ufields]. rewrite E. destruct (is_uwhite c); do 2 eexists; reflexivity.
Qed.
Lemma rs_split_spec : forall s w, rs_split_ws w s =
  match ufields s with
  | f :: fs => filter (fun f => match f with [] => false | _ => true end) ((w ++ f) :: fs)
  | [] => []
  end.
Proof.
  induction s as [|c s IH]; intros w; cbn [rs_split_ws ufields].
  - rewrite app_nil_r. destruct w; reflexivity.
  - rewrite rs_white. destruct (is_uwhite c).
    + rewrite IH. destruct (ufields_ne s) as (f & fs & ->). cbn [app]. rewrite app_nil_r. destruct w; cbn [filter]; reflexivity.
    + rewrite IH. destruct (ufields_ne s) as (f & fs & ->). now rewrite <- app_assoc.
Qed.
Lemma rs_split_words : forall s, rs_split_ws [] s = uwords s.
Proof. intros s. rewrite rs_split_spec. unfold uwords. destruct (ufields_ne s) as (f & fs & ->). reflexivity. Qed.

Lemma rs_drain_eq : forall f cur buf out r, buf < 10 -> drain f cur buf out = Ok r -> rs_drain f cur buf out = ROk r.
Proof.
  induction f as [|f IH]; intros cur buf out r Hb H; cbn [drain rs_drain] in *; [discriminate|].
  destruct (2 <? buf) eqn:E; [|now apply Ok_inj in H; subst].
  rewrite (proj2 (N.leb_gt 32 (4 * (buf - 2)))) by lia.
  rewrite N.shiftl_1_l, N.shiftr_div_pow2. apply IH; [lia|exact H].
Qed.
Lemma dstate_small : forall ns cur buf out, dstate ns cur buf out -> cur < 256 /\ buf <= 2.
Proof.
  intros ns cur buf out (done & pend & _ & _ & _ & Hp & [(-> & -> & ->)|[(x & -> & -> & ->)|(x & y & -> & -> & ->)]]); split; try lia.
  - inversion Hp; subst. lia.
  - inversion Hp as [|? ? ? Hq]; subst. inversion Hq; subst. lia.
Qed.
Lemma rs_decode_spec : forall ws ns cur buf out, dstate ns cur buf out ->
  match indices ws with
  | None => rs_decode_loop ws cur buf out = RErr RInvalidArgument
  | Some ds => exists cur' buf' out', rs_decode_loop ws cur buf out = ROk (cur', buf', out') /\
      dstate (ns ++ flat_map nibbles3 ds) cur' buf' out'
  end.
Proof.
  induction ws as [|w r IH]; intros ns cur buf out HD; cbn [indices rs_decode_loop].
  - do 3 eexists. split; [reflexivity|]. cbn [flat_map]. now rewrite app_nil_r.
  - rewrite word_lookup_spec.
    destruct (index_of wordlist w) as [v|] eqn:Ei; [|reflexivity]. destruct (index_word _ _ Ei) as [Hv _].
    destruct (drain_spec ns cur buf out v HD Hv) as (cur' & buf' & out' & Ed & HD'). destruct (dstate_small _ _ _ _ HD) as [S1 S2].
    assert (Es : u32 (N.shiftl cur 12) = cur * 4096).
    { rewrite N.shiftl_mul_pow2. unfold u32. change (2 ^ 12) with 4096. apply N.mod_small. change (2 ^ 32) with 4294967296. lia. }
    rewrite Es. rewrite (proj2 (N.leb_gt (2 ^ 32) _)) by lia. assert (Hb3 : buf + 3 < 10) by lia. rewrite (rs_drain_eq _ _ _ _ _ Hb3 Ed). cbn [rbind].
    specialize (IH (ns ++ nibbles3 v) cur' buf' out' HD'). destruct (indices r) as [ds|]; [|exact IH].
    destruct IH as (c2 & b2 & o2 & E2 & D2). exists c2, b2, o2. split; auto. cbn [flat_map]. now rewrite app_assoc.
Qed.
Lemma mod2_even : forall n, negb (n mod 2 =? 0)%nat = negb (Nat.even n).
Proof.
  intros n. destruct (Nat.even n) eqn:E; f_equal.
  - apply Nat.even_spec in E. destruct E as [m ->]. rewrite Nat.mul_comm, Nat.mod_mul by lia. reflexivity.
  - rewrite <- Nat.negb_odd in E. apply negb_false_iff, Nat.odd_spec in E. destruct E as [m ->]. apply Nat.eqb_neq.
    rewrite Nat.add_comm, Nat.mul_comm, Nat.mod_add by lia. discriminate.
Qed.

(** What the decoder does with every text. *)
Theorem C69_rust_mnemonic_decoder : forall text,
  rs_mnemonic2bin text =
  if Nat.even (length (uwords text)) then
    match indices (uwords text) with
    | Some ds => ROk (pack (flat_map nibbles3 ds))
    | None => RErr RInvalidArgument
    end
  else RErr RInvalidArgument.
Proof.
  intros text. unfold rs_mnemonic2bin. rewrite rs_split_words, mod2_even. destruct (Nat.even (length (uwords text))); [|reflexivity]. cbn [negb].
  assert (H0 : dstate [] 0 0 []). { exists [], []. repeat split; auto. }
  pose proof (rs_decode_spec (uwords text) [] 0 0 [] H0) as HD.
  destruct (indices (uwords text)) as [ds|]; [|now rewrite HD].
  destruct HD as (cur & buf & out & E & HDS). pose proof (dstate_small _ _ _ _ HDS) as [S1 _]. destruct HDS as (done & pend & En & He & Eo & Hp & Hc).
  rewrite E. cbn [rbind app] in *. rewrite En, pack_app', <- Eo by auto.
  assert (Ec : N.land (u8 cur) 255 = cur).
  { change 255 with (N.ones 8). rewrite N.land_ones. unfold u8. change (2 ^ 8) with 256. rewrite N.mod_mod by lia. now apply N.mod_small. }
  rewrite Ec.
  destruct Hc as [(-> & -> & ->)|[(x & -> & -> & ->)|(x & y & -> & -> & ->)]].
  - cbn. now rewrite app_nil_r.
  - reflexivity.
  - reflexivity.
Qed.

Lemma rget_word : forall d, d < 4096 -> rget wordlist (N.to_nat d) = ROk (word d).
Proof. intros d Hd. unfold word. apply rget_nth. rewrite wordlist_length. lia. Qed.
Lemma rget_mid : forall (pre rest : list N) k x, nth_error rest k = Some x -> rget (pre ++ rest) (length pre + k) = ROk x.
Proof. intros. unfold rget. rewrite nth_error_app2 by lia. replace (length pre + k - length pre)%nat with k by lia. now rewrite H. Qed.
Definition rsep (nibble : N) : list N := if nibble =? 0 then [] else [32].

Lemma rs_enc_step : forall f vec nibble s b1 b2 idx,
  nibble < N.of_nat (length vec) * 2 ->
  rget vec (N.to_nat (nibble / 2)) = ROk b1 -> rget vec (N.to_nat (nibble / 2 + 1)) = ROk b2 ->
  idx = (if nibble mod 2 =? 0 then b1 * 16 + b2 / 16 else b1 mod 16 * 256 + b2) -> idx < 4096 ->
  rs_bin2mnemonic_loop (S f) vec nibble s = rs_bin2mnemonic_loop f vec (nibble + 3) (s ++ rsep nibble ++ word idx).
Proof.
  intros f vec nibble s b1 b2 idx H1 G1 G2 Ei Hi. cbn [rs_bin2mnemonic_loop].
  rewrite (proj2 (N.ltb_lt _ _) H1). rewrite N.shiftr_div_pow2. change (2 ^ 1) with 2. rewrite G1. cbn [rbind].
  assert (Hlt : nibble / 2 + 1 < N.of_nat (length vec)).
  { unfold rget in G2. assert (nth_error vec (N.to_nat (nibble / 2 + 1)) <> None) as Hn by (intros X; rewrite X in G2; discriminate). apply nth_error_Some in Hn. lia. }
  rewrite (proj2 (N.ltb_lt _ _) Hlt). rewrite G2. cbn [rbind].
  assert (E : (if nibble mod 2 =? 0 then N.shiftl b1 4 + N.shiftr b2 4 else N.shiftl (N.land b1 15) 8 + b2) = idx).
  { rewrite Ei. change 15 with (N.ones 4). rewrite N.land_ones, !N.shiftl_mul_pow2, N.shiftr_div_pow2. reflexivity. }
  rewrite E, rget_word by auto. cbn [rbind]. f_equal. unfold rsep. destruct (nibble =? 0); cbn [negb app]; now rewrite <- ?app_assoc.
Qed.

Lemma rs_enc_loop : forall m k pre rest fuel s, length pre = (3 * k)%nat -> length rest = (3 * m)%nat ->
  all_bytes rest -> (2 * m < fuel)%nat ->
  rs_bin2mnemonic_loop fuel (pre ++ rest) (6 * N.of_nat k) s = ROk (s ++ sepjoin (rsep (6 * N.of_nat k)) (map word (pack3 (nibs rest)))).
Proof.
  induction m as [|m IH]; intros k pre rest fuel s HP HR HB HF; destruct fuel as [|fuel]; try lia.
  - destruct rest; [|cbn in HR; lia]. cbn [rs_bin2mnemonic_loop]. rewrite app_nil_r.
    rewrite (proj2 (N.ltb_ge _ _)) by lia. cbn [nibs flat_map pack3 map sepjoin]. now rewrite app_nil_r.
  - destruct fuel as [|fuel]; [lia|].
    destruct rest as [|a [|b [|c rest]]]; cbn [length] in HR; try lia.
    inversion HB as [|? ? Ha HB1]; subst. inversion HB1 as [|? ? Hb HB2]; subst. inversion HB2 as [|? ? Hc HB3]; subst.
    destruct (byte_parts a Ha) as (A1 & A2 & A3). destruct (byte_parts b Hb) as (B1 & B2 & B3). destruct (byte_parts c Hc) as (C1 & C2 & C3).
    pose proof (app_length pre (a :: b :: c :: rest)) as LA. cbn [length] in LA.
    assert (E1 : 6 * N.of_nat k / 2 = N.of_nat (length pre)). { symmetry. apply (N.div_unique _ _ _ 0); lia. }
    assert (M1 : (6 * N.of_nat k) mod 2 = 0). { symmetry. apply (N.mod_unique _ _ (3 * N.of_nat k)); lia. }
    assert (E2 : (6 * N.of_nat k + 3) / 2 = N.of_nat (length pre) + 1). { symmetry. apply (N.div_unique _ _ _ 1); lia. }
    assert (M2 : (6 * N.of_nat k + 3) mod 2 = 1). { symmetry. apply (N.mod_unique _ _ (3 * N.of_nat k + 1)); lia. }
    set (d1 := a * 16 + b / 16). set (d2 := (b mod 16) * 256 + c).
    rewrite (rs_enc_step _ _ _ _ a b d1); [|lia| | | |].
    2:{ rewrite E1. replace (N.to_nat (N.of_nat (length pre))) with (length pre + 0)%nat by lia. now apply rget_mid. }
    2:{ rewrite E1. replace (N.to_nat (N.of_nat (length pre) + 1)) with (length pre + 1)%nat by lia. now apply rget_mid. }
    2:{ rewrite M1. reflexivity. }
    2:{ unfold d1. unfold is_byte in *. lia. }
    rewrite (rs_enc_step _ _ _ _ b c d2); [|lia| | | |].
    2:{ rewrite E2. replace (N.to_nat (N.of_nat (length pre) + 1)) with (length pre + 1)%nat by lia. now apply rget_mid. }
    2:{ rewrite E2. replace (N.to_nat (N.of_nat (length pre) + 1 + 1)) with (length pre + 2)%nat by lia. now apply rget_mid. }
    2:{ rewrite M2. reflexivity. }
    2:{ unfold d2. unfold is_byte in *. lia. }
    replace (6 * N.of_nat k + 3 + 3) with (6 * N.of_nat (S k)) by lia.
    replace (pre ++ a :: b :: c :: rest) with ((pre ++ [a; b; c]) ++ rest) by (now rewrite <- app_assoc).
    rewrite (IH (S k)); try lia; [|rewrite app_length; cbn [length]; lia|exact HB3].
    change (nibs (a :: b :: c :: rest)) with (a / 16 :: a mod 16 :: b / 16 :: b mod 16 :: c / 16 :: c mod 16 :: nibs rest).
    cbn [pack3 map]. rewrite !sepjoin_cons.
    replace (256 * (a / 16) + 16 * (a mod 16) + b / 16) with d1 by (unfold d1; lia).
    replace (256 * (b mod 16) + 16 * (c / 16) + c mod 16) with d2 by (unfold d2; lia).
    assert (R1 : rsep (6 * N.of_nat k + 3) = [32]) by (unfold rsep; rewrite (proj2 (N.eqb_neq _ _)) by lia; reflexivity).
    assert (R2 : rsep (6 * N.of_nat (S k)) = [32]) by (unfold rsep; rewrite (proj2 (N.eqb_neq _ _)) by lia; reflexivity).
    rewrite R1, R2. now rewrite <- !app_assoc.
Qed.

Lemma rs_enc_spec : forall v, all_bytes v ->
  rs_bin2mnemonic v = if (length v mod 3 =? 0)%nat then ROk (join 32 (map word (pack3 (nibs v)))) else RErr RInvalidArgument.
Proof.
  intros v HB. unfold rs_bin2mnemonic. destruct (length v mod 3 =? 0)%nat eqn:E; cbn [negb]; auto.
  apply Nat.eqb_eq in E. apply Nat.mod_divides in E; [|lia]. destruct E as [m Em].
  pose proof (rs_enc_loop m 0 [] v (S (length v * 2)) [] eq_refl Em HB) as H. cbn [app] in H. change (6 * N.of_nat 0) with 0 in H.
  rewrite H by lia. change (rsep 0) with (@nil N). now rewrite sepjoin_nil.
Qed.

(** The words of a text of plain words joined by blanks. *)
Lemma ufields_plain_app : forall w s, Forall (fun c => is_uwhite c = false) w -> ufields (w ++ s) =
  match ufields s with f :: fs => (w ++ f) :: fs | [] => [] end.
Proof.
  intros w s H. induction H as [|c w Hc H IH]; cbn [app ufields].
  - destruct (ufields_ne s) as (f & fs & ->). reflexivity.
  - rewrite Hc, IH. destruct (ufields_ne s) as (f & fs & ->). reflexivity.
Qed.
Definition uplain (w : list N) : Prop := w <> [] /\ Forall (fun c => is_uwhite c = false) w.
Lemma uwords_join : forall ws, Forall uplain ws -> uwords (join 32 ws) = ws.
Proof.
  intros ws H. induction H as [|w ws [Hn Hw] H IH]; [reflexivity|]. destruct ws as [|w2 ws].
  - cbn [join]. unfold uwords. rewrite <- (app_nil_r w) at 1. rewrite ufields_plain_app by auto. cbn [ufields]. rewrite app_nil_r.
    destruct w; [contradiction|reflexivity].
  - change (join 32 (w :: w2 :: ws)) with (w ++ 32 :: join 32 (w2 :: ws)). unfold uwords in *.
    rewrite ufields_plain_app by auto. change (ufields (32 :: join 32 (w2 :: ws))) with ([] :: ufields (join 32 (w2 :: ws))).
    cbn [filter]. rewrite ?app_nil_r, IH. destruct w; [contradiction|reflexivity].
Qed.
Lemma wordlist_uplain : Forall uplain wordlist.
Proof.
  assert (E : forallb (fun w => negb (match w with [] => true | _ => false end) && forallb (fun c => negb (is_uwhite c)) w) wordlist = true)
    by (vm_compute; reflexivity).
  rewrite forallb_forall in E. apply Forall_forall. intros w Hw. apply E in Hw. apply andb_true_iff in Hw. destruct Hw as [H1 H2].
  split; [destruct w; [discriminate|discriminate]|]. rewrite forallb_forall in H2. apply Forall_forall. intros c Hc. apply H2 in Hc. now apply negb_true_iff.
Qed.
Lemma map_word_uplain : forall ds, Forall (fun d => d < 4096) ds -> Forall uplain (map word ds).
Proof.
  intros ds H. apply Forall_forall. intros w Hw. apply in_map_iff in Hw. destruct Hw as (d & <- & Hd). rewrite Forall_forall in H.
  pose proof wordlist_uplain as W. rewrite Forall_forall in W. apply W. apply word_in. auto.
Qed.

(** Round trip, for byte strings of every length (also the empty one). *)
Theorem C69_rust_mnemonic_round_trip : forall v, all_bytes v ->
  ((length v mod 3 = 0)%nat -> exists ws, rs_bin2mnemonic v = ROk (join 32 ws) /\
      Forall (fun w => In w wordlist) ws /\ (3 * length ws = 2 * length v)%nat /\ rs_mnemonic2bin (join 32 ws) = ROk v) /\
  ((length v mod 3 <> 0)%nat -> rs_bin2mnemonic v = RErr RInvalidArgument).
Proof.
  intros v HB. rewrite rs_enc_spec by auto. split.
  - intros Hm. rewrite (proj2 (Nat.eqb_eq _ _) Hm). apply Nat.mod_divides in Hm; [|lia]. destruct Hm as [m Em].
    destruct (pack3_inv (2 * m) (nibs v)) as (P1 & P2 & P3). { rewrite nibs_length. lia. } { now apply nibs_bound. }
    exists (map word (pack3 (nibs v))). split; [reflexivity|].
    split. { apply Forall_forall. intros w Hw. apply in_map_iff in Hw. destruct Hw as (d & <- & Hd). rewrite Forall_forall in P2. apply word_in. auto. }
    split. { rewrite map_length, P3. lia. }
    rewrite C69_rust_mnemonic_decoder, uwords_join by (now apply map_word_uplain). rewrite map_length, P3.
    rewrite Nat.even_mul. cbn [Nat.even orb]. rewrite indices_words by auto. now rewrite P1, pack_nibs.
  - intros Hm. now rewrite (proj2 (Nat.eqb_neq _ _) Hm).
Qed.

(** Every accepted text is, up to white space, the one mnemonic of its value. *)
Theorem C69_rust_mnemonic_canonical : forall text v, rs_mnemonic2bin text = ROk v ->
  all_bytes v /\ (length v mod 3 = 0)%nat /\ rs_bin2mnemonic v = ROk (join 32 (uwords text)).
Proof.
  intros text v H. rewrite C69_rust_mnemonic_decoder in H. destruct (Nat.even (length (uwords text))) eqn:He; [|discriminate].
  destruct (indices (uwords text)) as [ds|] eqn:Ei; [|discriminate]. apply ROk_inj' in H. subst v.
  destruct (indices_some _ _ Ei) as (H1 & H2 & H3). pose proof (flat3_bound ds H1) as HF. pose proof (flat3_length ds) as LF.
  apply Nat.even_spec in He. destruct He as [m Em].
  destruct (nibs_pack (length (flat_map nibbles3 ds)) (flat_map nibbles3 ds)) as (N1 & N2 & N3); auto.
  { rewrite LF, H3, Em. replace (3 * (2 * m))%nat with (2 * (3 * m))%nat by lia. rewrite Nat.even_mul. reflexivity. }
  assert (Hm : (length (pack (flat_map nibbles3 ds)) mod 3 = 0)%nat).
  { rewrite LF, H3, Em in N3. replace (length (pack (flat_map nibbles3 ds))) with (m * 3)%nat by lia. apply Nat.mod_mul. lia. }
  split; auto. split; auto. rewrite rs_enc_spec by auto. rewrite Hm. cbn [Nat.eqb]. rewrite N1, pack3_flat, H2 by auto. reflexivity.
Qed.

(** Against the C++ library: same mnemonics; the decoders agree on texts of words
    joined by single blanks and on every ASCII text with an even number of words the C++
    decoder takes. *)
Lemma ascii_words : forall s, ascii s -> uwords s = words s.
Proof.
  intros s H. unfold uwords, words. f_equal. induction H as [|c s Hc H IH]; [reflexivity|]. cbn [ufields fields]. rewrite IH.
  assert (E : is_uwhite c = is_white c).
  { assert (X : Bool.eqb (is_uwhite c) (is_white c) = true) by (revert c Hc; apply (below_b _ 128); vm_compute; reflexivity). now apply eqb_prop in X. }
  now rewrite E.
Qed.
Theorem C69_rust_mnemonic_is_cpp :
  (forall v, all_bytes v -> 2 * N.of_nat (length v) < 2 ^ 31 ->
     match bin2mnemonic v with Ok t => rs_bin2mnemonic v = ROk t | Exn _ => rs_bin2mnemonic v = RErr RInvalidArgument | UB => False end) /\
  (forall ws, ws <> [] -> Forall (fun w => w <> [] /\ ascii w /\ Forall (fun c => is_white c = false) w) ws ->
     match mnemonic2bin (join 32 ws) with Ok v => rs_mnemonic2bin (join 32 ws) = ROk v | Exn _ => rs_mnemonic2bin (join 32 ws) = RErr RInvalidArgument | UB => False end) /\
  (forall text v, ascii text -> mnemonic2bin text = Ok v -> Nat.even (length (words text)) = true -> rs_mnemonic2bin text = ROk v).
Proof.
  split; [|split].
  - intros v HB HL. rewrite enc_spec, rs_enc_spec by auto. destruct (length v mod 3 =? 0)%nat; reflexivity.
  - intros ws Hn HW.
    assert (HP : Forall plain ws) by (eapply Forall_impl; [|exact HW]; intros w (A & _ & B); split; auto).
    assert (HA : ascii (join 32 ws)).
    { clear Hn HP. induction HW as [|w ws (_ & A & _) HW IH]; [constructor|]. destruct ws as [|w2 ws]; [exact A|].
      change (join 32 (w :: w2 :: ws)) with (w ++ 32 :: join 32 (w2 :: ws)). apply Forall_app. split; auto. constructor; [lia|exact IH]. }
    rewrite C05_mnemonic_decoder, C69_rust_mnemonic_decoder, ascii_words, words_join, blanks_join by auto.
    assert (Ev : Nat.even (length ws) = negb (Nat.even (length ws - 1))).
    { destruct ws as [|w ws]; [contradiction|]. cbn [length]. rewrite Nat.sub_succ, Nat.sub_0_r. now rewrite Nat.even_succ, <- Nat.negb_even. }
    rewrite Ev. destruct (Nat.even (length ws - 1)); cbn [negb]; [reflexivity|]. destruct (indices ws); reflexivity.
  - intros text v HA H He. rewrite C05_mnemonic_decoder in H. destruct (Nat.even (blanks text)); [discriminate|].
    rewrite C69_rust_mnemonic_decoder, ascii_words, He by auto. destruct (indices (words text)); [|discriminate]. apply Ok_inj in H. now subst.
Qed.

(** ** Instances *)
Example rust_hex_case : rs_hstr2bin (codes "0aFf"%string) = ROk [10; 255] /\ rs_hstr2bin [0xE9] = RErr RInvalidArgument /\
  rs_bin2hstr [1; 171; 255] 2 = ROk (codes "01ab
ff"%string).
Proof. repeat split; vm_compute; reflexivity. Qed.
Example rust_mnemonic_case : rs_bin2mnemonic [0; 0; 1] = ROk (codes "aback abbey"%string) /\
  rs_mnemonic2bin (codes "aback"%string ++ [0x2003] ++ codes "abbey "%string) = ROk [0; 0; 1] /\
  rs_mnemonic2bin [] = ROk [] /\ rs_mnemonic2bin (codes "aback "%string) = RErr RInvalidArgument.
Proof. repeat split; vm_compute; reflexivity. Qed.
