(** The model's Keccak permutation and sponge equal FIPS 202 (SpecKeccak.v): C32, C33. *)
From Coq Require Import List ZArith NArith Arith Lia Bool.
From Verif Require Import Base Bytes Keccak KeccakLemmas SpecKeccak.
Import ListNotations.
Open Scope N_scope.

(** One round: the first half of the unrolled loop body. *)
Definition keccak_round (rc : N) (state : list N) : list N :=
  match state with
  | [Aba; Abe; Abi; Abo; Abu; Aga; Age; Agi; Ago; Agu; Aka; Ake; Aki; Ako; Aku; Ama; Ame; Ami; Amo; Amu; Asa; Ase; Asi; Aso; Asu] =>
    let BCa := xor (xor (xor (xor Aba Aga) Aka) Ama) Asa in
    let BCe := xor (xor (xor (xor Abe Age) Ake) Ame) Ase in
    let BCi := xor (xor (xor (xor Abi Agi) Aki) Ami) Asi in
    let BCo := xor (xor (xor (xor Abo Ago) Ako) Amo) Aso in
    let BCu := xor (xor (xor (xor Abu Agu) Aku) Amu) Asu in
    let Da := xor BCu (rol BCe 1) in
    let De := xor BCa (rol BCi 1) in
    let Di := xor BCe (rol BCo 1) in
    let Do := xor BCi (rol BCu 1) in
    let Du := xor BCo (rol BCa 1) in
    let Aba := xor Aba Da in
    let BCa := Aba in
    let Age := xor Age De in
    let BCe := rol Age 44 in
    let Aki := xor Aki Di in
    let BCi := rol Aki 43 in
    let Amo := xor Amo Do in
    let BCo := rol Amo 21 in
    let Asu := xor Asu Du in
    let BCu := rol Asu 14 in
    let Eba := xor BCa (land (not64 BCe) BCi) in
    let Eba := xor Eba rc in
    let Ebe := xor BCe (land (not64 BCi) BCo) in
    let Ebi := xor BCi (land (not64 BCo) BCu) in
    let Ebo := xor BCo (land (not64 BCu) BCa) in
    let Ebu := xor BCu (land (not64 BCa) BCe) in
    let Abo := xor Abo Do in
    let BCa := rol Abo 28 in
    let Agu := xor Agu Du in
    let BCe := rol Agu 20 in
    let Aka := xor Aka Da in
    let BCi := rol Aka 3 in
    let Ame := xor Ame De in
    let BCo := rol Ame 45 in
    let Asi := xor Asi Di in
    let BCu := rol Asi 61 in
    let Ega := xor BCa (land (not64 BCe) BCi) in
    let Ege := xor BCe (land (not64 BCi) BCo) in
    let Egi := xor BCi (land (not64 BCo) BCu) in
    let Ego := xor BCo (land (not64 BCu) BCa) in
    let Egu := xor BCu (land (not64 BCa) BCe) in
    let Abe := xor Abe De in
    let BCa := rol Abe 1 in
    let Agi := xor Agi Di in
    let BCe := rol Agi 6 in
    let Ako := xor Ako Do in
    let BCi := rol Ako 25 in
    let Amu := xor Amu Du in
    let BCo := rol Amu 8 in
    let Asa := xor Asa Da in
    let BCu := rol Asa 18 in
    let Eka := xor BCa (land (not64 BCe) BCi) in
    let Eke := xor BCe (land (not64 BCi) BCo) in
    let Eki := xor BCi (land (not64 BCo) BCu) in
    let Eko := xor BCo (land (not64 BCu) BCa) in
    let Eku := xor BCu (land (not64 BCa) BCe) in
    let Abu := xor Abu Du in
    let BCa := rol Abu 27 in
    let Aga := xor Aga Da in
    let BCe := rol Aga 36 in
    let Ake := xor Ake De in
    let BCi := rol Ake 10 in
    let Ami := xor Ami Di in
    let BCo := rol Ami 15 in
    let Aso := xor Aso Do in
    let BCu := rol Aso 56 in
    let Ema := xor BCa (land (not64 BCe) BCi) in
    let Eme := xor BCe (land (not64 BCi) BCo) in
    let Emi := xor BCi (land (not64 BCo) BCu) in
    let Emo := xor BCo (land (not64 BCu) BCa) in
    let Emu := xor BCu (land (not64 BCa) BCe) in
    let Abi := xor Abi Di in
    let BCa := rol Abi 62 in
    let Ago := xor Ago Do in
    let BCe := rol Ago 55 in
    let Aku := xor Aku Du in
    let BCi := rol Aku 39 in
    let Ama := xor Ama Da in
    let BCo := rol Ama 41 in
    let Ase := xor Ase De in
    let BCu := rol Ase 2 in
    let Esa := xor BCa (land (not64 BCe) BCi) in
    let Ese := xor BCe (land (not64 BCi) BCo) in
    let Esi := xor BCi (land (not64 BCo) BCu) in
    let Eso := xor BCo (land (not64 BCu) BCa) in
    let Esu := xor BCu (land (not64 BCa) BCe) in
    [Eba; Ebe; Ebi; Ebo; Ebu; Ega; Ege; Egi; Ego; Egu; Eka; Eke; Eki; Eko; Eku; Ema; Eme; Emi; Emo; Emu; Esa; Ese; Esi; Eso; Esu]
  | _ => state
  end.

Lemma two_rounds : forall rc0 rc1 s, length s = 25%nat ->
  keccak_two_rounds rc0 rc1 s = keccak_round rc1 (keccak_round rc0 s).
Proof.
  intros rc0 rc1 s H. do 25 (destruct s as [|? s]; [discriminate H|]). destruct s; [|discriminate H]. reflexivity.
Qed.

Lemma round_length : forall rc s, length s = 25%nat -> length (keccak_round rc s) = 25%nat.
Proof.
  intros rc s H. do 25 (destruct s as [|? s]; [discriminate H|]). destruct s; [|discriminate H]. reflexivity.
Qed.

(** ** Lanes *)
Open Scope Z_scope.
Definition lane (s : list N) (x y : Z) : N := nth (Z.to_nat (5 * y + x)) s 0%N.
Definition tb (a : N) (z : Z) : bool := N.testbit a (Z.to_N z).
Definition view (s : list N) : array := fun x y z => tb (lane s x y) z.

(** Rotation amounts. *)
Definition rot (x y : Z) : N :=
  nth (Z.to_nat (5 * y + x)) [0; 1; 62; 28; 27; 36; 44; 6; 55; 20; 3; 10; 43; 25; 39; 41; 45; 15; 21; 8; 18; 2; 61; 56; 14]%N 0%N.
Definition l_theta (L : Z -> Z -> N) : Z -> Z -> N :=
  let C x := xor (xor (xor (xor (L x 0) (L x 1)) (L x 2)) (L x 3)) (L x 4) in
  let D x := xor (C ((x - 1) mod 5)) (rol (C ((x + 1) mod 5)) 1) in
  fun x y => xor (L x y) (D x).
Definition l_rho (L : Z -> Z -> N) : Z -> Z -> N :=
  fun x y => if (x =? 0) && (y =? 0) then L x y else rol (L x y) (rot x y).
Definition l_pi (L : Z -> Z -> N) : Z -> Z -> N := fun x y => L ((x + 3 * y) mod 5) x.
Definition l_chi (L : Z -> Z -> N) : Z -> Z -> N :=
  fun x y => xor (L x y) (land (not64 (L ((x + 1) mod 5) y)) (L ((x + 2) mod 5) y)).
Definition l_iota (rc : N) (L : Z -> Z -> N) : Z -> Z -> N :=
  fun x y => if (x =? 0) && (y =? 0) then xor (L x y) rc else L x y.

Lemma five : forall x, 0 <= x < 5 -> x = 0 \/ x = 1 \/ x = 2 \/ x = 3 \/ x = 4.
Proof. lia. Qed.

Lemma round_lanes : forall rc s x y, length s = 25%nat -> 0 <= x < 5 -> 0 <= y < 5 ->
  lane (keccak_round rc s) x y = l_iota rc (l_chi (l_pi (l_rho (l_theta (lane s))))) x y.
Proof.
  intros rc s x y H Hx Hy. do 25 (destruct s as [|? s]; [discriminate H|]). destruct s; [|discriminate H].
  apply five in Hx. apply five in Hy.
  destruct Hx as [->|[->|[->|[->| ->]]]]; destruct Hy as [->|[->|[->|[->| ->]]]]; reflexivity.
Qed.

(** ** Bits *)
Definition word64 (a : N) : Prop := (a < 2 ^ 64)%N.

Lemma word_tb : forall a n, word64 a -> (64 <= n)%N -> N.testbit a n = false.
Proof.
  intros a n Ha Hn. destruct (N.eq_dec a 0) as [->|Hz]; [apply N.bits_0|]. apply N.bits_above_log2.
  apply N.log2_lt_pow2; [lia|]. eapply N.lt_le_trans; [exact Ha|]. apply N.pow_le_mono_r; lia.
Qed.
Lemma tb_word : forall a, (forall n, (64 <= n)%N -> N.testbit a n = false) -> word64 a.
Proof.
  intros a H. unfold word64. replace a with (a mod 2 ^ 64)%N; [apply N.mod_lt; apply N.pow_nonzero; lia|].
  apply N.bits_inj. intros n. destruct (N.lt_ge_cases n 64).
  - now rewrite N.mod_pow2_bits_low. - now rewrite N.mod_pow2_bits_high, H.
Qed.
Lemma ones64_tb : forall n, N.testbit ones64 n = (n <? 64)%N.
Proof.
  intros n. change ones64 with (N.ones 64). destruct (n <? 64)%N eqn:E.
  - apply N.ltb_lt in E. now apply N.ones_spec_low. - apply N.ltb_ge in E. now apply N.ones_spec_high.
Qed.
Lemma xor_word : forall a b, word64 a -> word64 b -> word64 (xor a b).
Proof. intros a b Ha Hb. apply tb_word. intros n Hn. unfold xor. now rewrite N.lxor_spec, !word_tb. Qed.
Lemma not_word : forall a, word64 a -> word64 (not64 a).
Proof. intros a Ha. apply tb_word. intros n Hn. unfold not64. rewrite N.lxor_spec, ones64_tb, word_tb by auto. now rewrite (proj2 (N.ltb_ge _ _) Hn). Qed.
Lemma land_word : forall a b, word64 b -> word64 (land a b).
Proof. intros a b Hb. apply tb_word. intros n Hn. unfold land. rewrite N.land_spec, (word_tb b) by auto. apply andb_false_r. Qed.
Lemma rol_word : forall a k, word64 a -> (k <= 64)%N -> word64 (rol a k).
Proof.
  intros a k Ha Hk. apply tb_word. intros n Hn. unfold rol. rewrite N.lxor_spec, N.land_spec, ones64_tb, N.shiftr_spec by lia.
  rewrite (proj2 (N.ltb_ge _ _) Hn), andb_false_r, word_tb by (auto; lia). reflexivity.
Qed.
Lemma tb_xor : forall a b z, tb (xor a b) z = xorb (tb a z) (tb b z).
Proof. intros. apply N.lxor_spec. Qed.
Lemma tb_land : forall a b z, tb (land a b) z = tb a z && tb b z.
Proof. intros. apply N.land_spec. Qed.
Lemma tb_not : forall a z, 0 <= z < 64 -> tb (not64 a) z = xorb (tb a z) true.
Proof. intros a z Hz. unfold tb, not64. rewrite N.lxor_spec, ones64_tb. rewrite (proj2 (N.ltb_lt _ _)) by lia. reflexivity. Qed.
Lemma tb_rol : forall a k z, word64 a -> (0 < k < 64)%N -> 0 <= z < 64 -> tb (rol a k) z = tb a ((z - Z.of_N k) mod 64).
Proof.
  intros a k z Ha Hk Hz. unfold tb, rol. rewrite N.lxor_spec, N.land_spec, ones64_tb, N.shiftr_spec by lia.
  rewrite (proj2 (N.ltb_lt _ _)), andb_true_r by lia.
  destruct (Z.lt_ge_cases z (Z.of_N k)) as [Hl|Hg].
  - rewrite N.shiftl_spec_low by lia. rewrite xorb_false_l. f_equal.
    replace ((z - Z.of_N k) mod 64) with (z + 64 - Z.of_N k); [lia|].
    apply (Z.mod_unique_pos _ _ (-1)); lia.
  - rewrite N.shiftl_spec_high by lia. rewrite (word_tb a (_ + _)) by (auto; lia). rewrite xorb_false_r. f_equal.
    rewrite Z.mod_small by lia. lia.
Qed.

(** Arrays that agree on all valid coordinates. *)
Definition eqa (A B : array) : Prop := forall x y z, 0 <= x < 5 -> 0 <= y < 5 -> 0 <= z < 64 -> A x y z = B x y z.
Definition lanes_ok (L : Z -> Z -> N) : Prop := forall x y, 0 <= x < 5 -> 0 <= y < 5 -> word64 (L x y).
Definition lview (L : Z -> Z -> N) : array := fun x y z => tb (L x y) z.

Ltac rng := match goal with |- 0 <= _ mod _ < _ => apply Z.mod_pos_bound; lia | _ => lia end.

Lemma theta_bits : forall L, lanes_ok L -> eqa (lview (l_theta L)) (theta (lview L)).
Proof.
  intros L HL x y z Hx Hy Hz. unfold lview, l_theta, theta. rewrite !tb_xor. f_equal.
  rewrite tb_rol by (try rng; repeat apply xor_word; apply HL; rng). rewrite !tb_xor. reflexivity.
Qed.
Lemma theta_ok : forall L, lanes_ok L -> lanes_ok (l_theta L).
Proof.
  intros L HL x y Hx Hy. unfold l_theta. apply xor_word; [apply HL; rng|].
  apply xor_word; [repeat apply xor_word; apply HL; rng|].
  apply rol_word; [repeat apply xor_word; apply HL; rng|lia].
Qed.

Fixpoint roff (n : nat) (t x y x' y' : Z) {struct n} : option Z :=
  match n with
  | O => None
  | S n' =>
      match roff n' (t + 1) y ((2 * x + 3 * y) mod 5) x' y' with
      | Some o => Some o
      | None => if (x' =? x) && (y' =? y) then Some ((t + 1) * (t + 2) / 2) else None
      end
  end.
Lemma rho_loop_off : forall n t x y A A' x' y' z,
  rho_loop n t x y A A' x' y' z =
  match roff n t x y x' y' with Some o => A x' y' ((z - o) mod 64) | None => A' x' y' z end.
Proof.
  induction n; intros t x y A A' x' y' z; [reflexivity|]. cbn [rho_loop roff]. rewrite IHn.
  destruct (roff n (t + 1) y ((2 * x + 3 * y) mod 5) x' y'); [reflexivity|].
  destruct ((x' =? x) && (y' =? y)) eqn:E; [|reflexivity].
  apply andb_true_iff in E. destruct E as [E1 E2]. apply Z.eqb_eq in E1. apply Z.eqb_eq in E2. now subst.
Qed.
Lemma roff_table : forall x y, 0 <= x < 5 -> 0 <= y < 5 ->
  (x = 0 /\ y = 0 /\ roff 24 0 1 0 x y = None) \/
  (exists o, roff 24 0 1 0 x y = Some o /\ o mod 64 = Z.of_N (rot x y) /\ (0 < rot x y < 64)%N /\ (x =? 0) && (y =? 0) = false).
Proof.
  assert (C : forallb (fun x => forallb (fun y =>
     let x := Z.of_nat x in let y := Z.of_nat y in
     if (x =? 0) && (y =? 0) then match roff 24 0 1 0 x y with None => true | Some _ => false end
     else match roff 24 0 1 0 x y with
          | Some o => (o mod 64 =? Z.of_N (rot x y)) && (0 <? rot x y)%N && (rot x y <? 64)%N
          | None => false end) (seq 0 5)) (seq 0 5) = true) by (vm_compute; reflexivity).
  intros x y Hx Hy. rewrite forallb_forall in C. specialize (C (Z.to_nat x)). rewrite in_seq in C. specialize (C ltac:(lia)).
  rewrite forallb_forall in C. specialize (C (Z.to_nat y)). rewrite in_seq in C. specialize (C ltac:(lia)).
  cbv zeta in C. rewrite !Z2Nat.id in C by lia.
  destruct ((x =? 0) && (y =? 0)) eqn:E.
  - left. apply andb_true_iff in E. destruct E as [E1 E2]. apply Z.eqb_eq in E1. apply Z.eqb_eq in E2.
    destruct (roff 24 0 1 0 x y); [discriminate|]. auto.
  - right. destruct (roff 24 0 1 0 x y) as [o|]; [|discriminate]. exists o.
    rewrite !andb_true_iff in C. destruct C as [[C1 C2] C3]. apply Z.eqb_eq in C1. apply N.ltb_lt in C2. apply N.ltb_lt in C3. auto.
Qed.
Lemma rho_bits : forall L, lanes_ok L -> eqa (lview (l_rho L)) (rho (lview L)).
Proof.
  intros L HL x y z Hx Hy Hz. unfold rho. rewrite rho_loop_off. unfold lview, l_rho.
  destruct (roff_table x y Hx Hy) as [(-> & -> & ->)|(o & -> & Ho & Hr & ->)]; [reflexivity|].
  rewrite tb_rol by auto. f_equal. rewrite <- Ho. rewrite Zminus_mod_idemp_r. reflexivity.
Qed.
Lemma rho_ok : forall L, lanes_ok L -> lanes_ok (l_rho L).
Proof.
  intros L HL x y Hx Hy. unfold l_rho. destruct (roff_table x y Hx Hy) as [(-> & -> & _)|(o & _ & _ & Hr & ->)].
  - now apply HL.
  - apply rol_word; [now apply HL|lia].
Qed.
Lemma pi_bits : forall L, eqa (lview (l_pi L)) (pi (lview L)).
Proof. intros L x y z Hx Hy Hz. reflexivity. Qed.
Lemma pi_ok : forall L, lanes_ok L -> lanes_ok (l_pi L).
Proof. intros L HL x y Hx Hy. apply HL; rng. Qed.
Lemma chi_bits : forall L, eqa (lview (l_chi L)) (chi (lview L)).
Proof. intros L x y z Hx Hy Hz. unfold lview, l_chi, chi. now rewrite tb_xor, tb_land, tb_not. Qed.
Lemma chi_ok : forall L, lanes_ok L -> lanes_ok (l_chi L).
Proof. intros L HL x y Hx Hy. apply xor_word; [|apply land_word]; apply HL; rng. Qed.
Lemma iota_bits : forall ir rc L, (forall z, 0 <= z < 64 -> tb rc z = RC ir z) -> eqa (lview (l_iota rc L)) (iota ir (lview L)).
Proof.
  intros ir rc L H x y z Hx Hy Hz. unfold lview, l_iota, iota. destruct ((x =? 0) && (y =? 0)); [|reflexivity].
  rewrite tb_xor. f_equal. auto.
Qed.
Lemma iota_ok : forall rc L, word64 rc -> lanes_ok L -> lanes_ok (l_iota rc L).
Proof.
  intros rc L Hr HL x y Hx Hy. unfold l_iota. destruct ((x =? 0) && (y =? 0)); [apply xor_word|]; auto.
Qed.

(** The specification's steps depend on the valid coordinates only. *)
Lemma theta_eqa : forall A B, eqa A B -> eqa (theta A) (theta B).
Proof. intros A B H x y z Hx Hy Hz. unfold theta. rewrite !H by rng. reflexivity. Qed.
Lemma rho_eqa : forall A B, eqa A B -> eqa (rho A) (rho B).
Proof.
  intros A B H x y z Hx Hy Hz. unfold rho. rewrite !rho_loop_off. destruct (roff _ _ _ _ _ _); apply H; rng.
Qed.
Lemma pi_eqa : forall A B, eqa A B -> eqa (pi A) (pi B).
Proof. intros A B H x y z Hx Hy Hz. unfold pi. apply H; rng. Qed.
Lemma chi_eqa : forall A B, eqa A B -> eqa (chi A) (chi B).
Proof. intros A B H x y z Hx Hy Hz. unfold chi. rewrite !H by rng. reflexivity. Qed.
Lemma iota_eqa : forall ir A B, eqa A B -> eqa (iota ir A) (iota ir B).
Proof. intros ir A B H x y z Hx Hy Hz. unfold iota. rewrite !H by rng. reflexivity. Qed.
Lemma eqa_trans : forall A B C, eqa A B -> eqa B C -> eqa A C.
Proof. intros A B C H1 H2 x y z Hx Hy Hz. now rewrite H1, H2. Qed.
Lemma Rnd_eqa : forall ir A B, eqa A B -> eqa (Rnd A ir) (Rnd B ir).
Proof. intros. unfold Rnd. now apply iota_eqa, chi_eqa, pi_eqa, rho_eqa, theta_eqa. Qed.

Definition words (s : list N) : Prop := length s = 25%nat /\ Forall word64 s.
Lemma words_lanes : forall s, words s -> lanes_ok (lane s).
Proof.
  intros s [H F] x y Hx Hy. unfold lane. rewrite Forall_forall in F. apply F. apply nth_In. lia.
Qed.
Lemma lanes_words : forall s, length s = 25%nat -> lanes_ok (lane s) -> words s.
Proof.
  intros s H L. split; auto. apply Forall_forall. intros w Hw. apply (In_nth _ _ 0%N) in Hw.
  destruct Hw as (i & Hi & <-). specialize (L (Z.of_nat i mod 5) (Z.of_nat i / 5)). unfold lane in L.
  replace (Z.to_nat (5 * (Z.of_nat i / 5) + Z.of_nat i mod 5)) with i in L.
  - apply L; [rng|]. split; [apply Z.div_pos; lia|]. apply Z.div_lt_upper_bound; lia.
  - rewrite <- Z.div_mod by lia. lia.
Qed.

Lemma round_spec : forall ir rc s, words s -> word64 rc -> (forall z, 0 <= z < 64 -> tb rc z = RC ir z) ->
  words (keccak_round rc s) /\ eqa (view (keccak_round rc s)) (Rnd (view s) ir).
Proof.
  intros ir rc s Hs Hw Hrc. pose proof (words_lanes s Hs) as HL. pose proof (proj1 Hs) as Hlen. split.
  - apply lanes_words; [now apply round_length|]. intros x y Hx Hy. rewrite round_lanes by auto.
    apply iota_ok; auto using chi_ok, pi_ok, rho_ok, theta_ok.
  - unfold Rnd. eapply eqa_trans; [|apply iota_eqa, chi_eqa, pi_eqa, rho_eqa, (theta_bits _ HL)].
    eapply eqa_trans; [|apply iota_eqa, chi_eqa, pi_eqa, rho_bits, theta_ok, HL].
    eapply eqa_trans; [|apply iota_eqa, chi_eqa, pi_bits].
    eapply eqa_trans; [|apply iota_eqa, chi_bits].
    eapply eqa_trans; [|apply (iota_bits ir rc); exact Hrc].
    intros x y z Hx Hy Hz. unfold view, lview. now rewrite round_lanes.
Qed.

Lemma constants_ok : forall ir, (ir < 24)%nat ->
  word64 (nth ir KeccakF_RoundConstants 0%N) /\ forall z, 0 <= z < 64 -> tb (nth ir KeccakF_RoundConstants 0%N) z = RC ir z.
Proof.
  assert (C : forallb (fun ir => (nth ir KeccakF_RoundConstants 0 <? 2 ^ 64)%N &&
     forallb (fun k => Bool.eqb (tb (nth ir KeccakF_RoundConstants 0%N) (Z.of_nat k)) (RC ir (Z.of_nat k))) (seq 0 64)) (seq 0 24) = true)
    by (vm_compute; reflexivity).
  intros ir Hi. rewrite forallb_forall in C. specialize (C ir). rewrite in_seq in C. specialize (C (conj (Nat.le_0_l _) Hi)).
  apply andb_true_iff in C. destruct C as [C1 C2]. split; [now apply N.ltb_lt|].
  intros z Hz. rewrite forallb_forall in C2. specialize (C2 (Z.to_nat z)). rewrite in_seq in C2.
  specialize (C2 ltac:(lia)). apply eqb_prop in C2. now rewrite Z2Nat.id in C2 by lia.
Qed.

Lemma rounds_spec : forall n ir rcs s A, length rcs = (2 * n)%nat ->
  words s -> eqa (view s) A ->
  (forall i, (i < 2 * n)%nat -> word64 (nth i rcs 0%N) /\ forall z, 0 <= z < 64 -> tb (nth i rcs 0%N) z = RC (ir + i) z) ->
  words (keccak_rounds rcs s) /\ eqa (view (keccak_rounds rcs s)) (fold_left Rnd (seq ir (2 * n)) A).
Proof.
  induction n; intros ir rcs s A Hl Hs HA Hc.
  - destruct rcs; [|discriminate]. cbn. auto.
  - destruct rcs as [|r0 [|r1 rcs]]; try (cbn in Hl; lia).
    replace (2 * S n)%nat with (S (S (2 * n)))%nat by lia. cbn [seq fold_left keccak_rounds].
    rewrite two_rounds by apply Hs.
    destruct (Hc 0%nat ltac:(lia)) as [W0 C0]. cbn [nth] in *. rewrite Nat.add_0_r in C0.
    destruct (Hc 1%nat ltac:(lia)) as [W1 C1]. cbn [nth] in *. rewrite Nat.add_1_r in C1.
    destruct (round_spec ir r0 s Hs W0 C0) as [S1 E1].
    destruct (round_spec (S ir) r1 _ S1 W1 C1) as [S2 E2].
    apply IHn.
    + cbn in Hl. lia.
    + exact S2.
    + eapply eqa_trans; [exact E2|]. apply Rnd_eqa. eapply eqa_trans; [exact E1|]. now apply Rnd_eqa.
    + intros i Hi. specialize (Hc (S (S i)) ltac:(lia)). cbn [nth] in Hc. now rewrite !Nat.add_succ_r in Hc.
Qed.
