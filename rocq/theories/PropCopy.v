(** C78: copies of XmssFast objects. *)
(** Concrete cases for the hypotheses below: CasesXmss.v and CasesMisc.v. *)
From Coq Require Import List NArith Arith Lia Bool.
From Verif Require Import Base Bytes Keccak KeccakLemmas Sha256 HashAddress Wots XmssCommon AlgsXmss AlgsXmssFast Descriptor
  SpecXmss SpecApi SpecForge SpecCopy XmssObj XmssRefine WotsProofs TreeProofs BasicProofs BdsSched BdsProofs BdsSetup FastProofs DescrProofs
  VerifyProofs PropObj PropKeys PropDomain PropWots PropVerify PropForge PropRust2 FastCopy CopyProofs.
From Verif Require Export SpecTerms SpecTerms2.
Import ListNotations.
Open Scope nat_scope.

(** ** Worlds *)
Lemma with_off_self : forall st, with_off st (b_stackoffset st) = st.
Proof. now intros []. Qed.
Lemma with_off_twice : forall st a b, with_off (with_off st a) b = with_off st b.
Proof. reflexivity. Qed.

Lemma world_run_app : forall a b w, world_run w (a ++ b) =
  ('(w1, xs) <- world_run w a ;; '(w2, ys) <- world_run w1 b ;; Ok (w2, xs ++ ys)).
Proof.
  induction a as [|x a IH]; intros b w; cbn [app world_run bind].
  - destruct (world_run w b) as [[w2 ys]| |]; reflexivity.
  - destruct (world_step w x) as [[w1 o]| |]; cbn [bind]; auto. rewrite IH.
    destruct (world_run w1 a) as [[w2 xs]| |]; cbn [bind]; auto.
    destruct (world_run w2 b) as [[w3 ys]| |]; cbn [bind]; auto. now rewrite app_assoc.
Qed.

(** Calls on object 0, whose pointers lead to vectors 0. *)
Lemma call0 : forall b h bs hs c y o, h_ptr h = 0 -> step (mkXF (h_base h) (with_off b (h_off h))) c = Ok (y, o) ->
  world_step (mkW (Some b :: bs) (Some h :: hs)) (ACall 0 c) =
  Ok (mkW (Some (xf_state y) :: bs) (Some (mkH (xf_base y) (b_stackoffset (xf_state y)) 0 (h_own h)) :: hs), [o]).
Proof.
  intros b h bs hs c y o Hp E. cbn [world_step w_objs w_bufs nth_error]. rewrite Hp. cbn [nth_error]. rewrite E. reflexivity.
Qed.
Lemma call1 : forall b h0 h bs hs c y o, h_ptr h = 0 -> step (mkXF (h_base h) (with_off b (h_off h))) c = Ok (y, o) ->
  world_step (mkW (Some b :: bs) (h0 :: Some h :: hs)) (ACall 1 c) =
  Ok (mkW (Some (xf_state y) :: bs) (h0 :: Some (mkH (xf_base y) (b_stackoffset (xf_state y)) 0 (h_own h)) :: hs), [o]).
Proof.
  intros b h0 h bs hs c y o Hp E. cbn [world_step w_objs w_bufs nth_error]. rewrite Hp. cbn [nth_error]. rewrite E. reflexivity.
Qed.

Lemma run0 : forall cs b h bs hs y os, h_ptr h = 0 -> run (mkXF (h_base h) (with_off b (h_off h))) cs = Ok (y, os) ->
  exists b', world_run (mkW (Some b :: bs) (Some h :: hs)) (map (ACall 0) cs) =
    Ok (mkW (Some b' :: bs) (Some (mkH (xf_base y) (b_stackoffset (xf_state y)) 0 (h_own h)) :: hs), os) /\
    with_off b' (b_stackoffset (xf_state y)) = xf_state y.
Proof.
  induction cs as [|c cs IH]; intros b h bs hs y os Hp E; cbn [run map world_run] in *.
  - apply Ok_inj, pair_equal_spec in E. destruct E as [<- <-]. exists b. cbn [xf_base xf_state with_off b_stackoffset].
    split; [|reflexivity]. destruct h. cbn in *. now subst.
  - destruct (step (mkXF (h_base h) (with_off b (h_off h))) c) as [[y1 o]| |] eqn:E1; try discriminate. cbn [bind] in E.
    destruct (run y1 cs) as [[y2 os2]| |] eqn:E2; try discriminate. cbn [bind] in E.
    apply Ok_inj, pair_equal_spec in E. destruct E as [<- <-].
    rewrite (call0 _ _ _ _ _ _ _ Hp E1). cbn [bind].
    destruct (IH (xf_state y1) (mkH (xf_base y1) (b_stackoffset (xf_state y1)) 0 (h_own h)) bs hs y2 os2 eq_refl) as (b' & E3 & W).
    { cbn [h_base h_off]. rewrite with_off_self. now destruct y1. }
    rewrite E3. cbn [bind app h_own]. exists b'. auto.
Qed.

(** ** Collisions between leaves *)
Lemma l_last_spec : forall hf ps o f h l, 2 <= length l -> length l <= S f ->
  exists x a b, l_last hf ps f o h l = Some (x, a, b) /\ l_root hf ps f o h l = rand_hash hf ps 1 o x 0 a b /\ x < h + f.
Proof.
  induction f as [|f IH]; intros h l H2 HS; [lia|].
  destruct l as [|a [|b [|d t]]]; cbn [length] in H2; try lia.
  - exists h, a, b. split; [reflexivity|]. split; [|lia].
    cbn [l_root l_level]. destruct f; reflexivity.
  - remember (a :: b :: d :: t) as l. 
    assert (E1 : l_last hf ps (S f) o h l = l_last hf ps f o (S h) (l_level hf ps o h 0 l)) by (subst l; reflexivity).
    assert (E2 : l_root hf ps (S f) o h l = l_root hf ps f o (S h) (l_level hf ps o h 0 l)) by (subst l; reflexivity).
    rewrite E1, E2.
    assert (L3 : 3 <= length l) by (subst l; cbn [length]; lia).
    destruct (IH (S h) (l_level hf ps o h 0 l)) as (x & u & v & G1 & G2 & G3).
    + rewrite l_level_length. apply Nat.div_le_lower_bound; lia.
    + rewrite l_level_length. transitivity (length l - 1); [|lia]. apply Nat.div_le_upper_bound; lia.
    + exists x, u, v. repeat split; auto. lia.
Qed.

Lemma leaf_coll : forall hf wp seed i j, 2 <= snd (fst wp) + snd wp -> (N.of_nat (snd (fst wp) + snd wp) < 2 ^ 32)%N ->
  (N.of_nat i < 2 ^ 32)%N -> (N.of_nat j < 2 ^ 32)%N -> i <> j ->
  leaf hf (2 ^ fst (fst wp)) (snd (fst wp) + snd wp) (key_seed seed) (key_pub seed) i =
  leaf hf (2 ^ fst (fst wp)) (snd (fst wp) + snd wp) (key_seed seed) (key_pub seed) j ->
  found hf (leaf_collision hf wp seed i j).
Proof.
  intros hf wp seed i j H2 HL Hi Hj Hne E. unfold leaf_collision, leaf, compress in *.
  set (len := snd (fst wp) + snd wp) in *. set (ps := key_pub seed) in *.
  set (pi := ots_pk hf (2 ^ fst (fst wp)) len (key_seed seed) ps i) in *.
  set (pj := ots_pk hf (2 ^ fst (fst wp)) len (key_seed seed) ps j) in *.
  assert (Li : length pi = len) by (unfold pi, ots_pk; now rewrite map_length, seq_length).
  assert (Lj : length pj = len) by (unfold pj, ots_pk; now rewrite map_length, seq_length).
  rewrite Li, Lj in E.
  destruct (l_last_spec hf ps i len 0 pi) as (x & a & b & G1 & G2 & G3); try lia.
  destruct (l_last_spec hf ps j len 0 pj) as (y & a' & b' & K1 & K2 & K3); try lia.
  rewrite G1, K1. rewrite G2, K2 in E.
  assert (Na : adr 1 (N.of_nat i) (N.of_nat x) 0 0 <> adr 1 (N.of_nat j) (N.of_nat y) 0 0).
  { intros EA. apply adr_inj in EA; try lia; try reflexivity. }
  destruct (bytes_eqb_spec (PRF hf ps (adr 1 (N.of_nat i) (N.of_nat x) 0 0)) (PRF hf ps (adr 1 (N.of_nat j) (N.of_nat y) 0 0))) as [EP|NP].
  - eexists. split; [reflexivity|]. split; cbn [fst snd]; [|rewrite <- !PRF_raw; exact EP].
    unfold PRF_input. intros EI. do 2 (apply app_inv_head in EI). auto.
  - eexists. split; [reflexivity|]. split; cbn [fst snd]; [|rewrite <- !H_raw; exact E].
    unfold H_input. intros EI. apply app_inv_head in EI. apply (f_equal (firstn 32)) in EI.
    rewrite !(firstn_app_exact _ 32) in EI by apply PRF_length. auto.
Qed.

Lemma lxor1_inj : forall a b, Nat.lxor a 1 = Nat.lxor b 1 -> a = b.
Proof. intros a b E. apply (f_equal (fun x => Nat.lxor x 1)) in E. now rewrite !Nat.lxor_assoc, !Nat.lxor_nilpotent, !Nat.lxor_0_r in E. Qed.

(** ** Verification of signatures with a foreign path *)
Section Foreign.
  Variables (hash : N) (hf : hashfn) (height : nat) (seed : list N) (fmt : N).
  Hypothesis HS : supported hash hf 16 w16 height seed.
  Let c := mkCfg hf hash 16 fmt height seed.
  Let HC : cfg_ok c w16 := cfg_of _ _ _ _ _ _ fmt HS.
  Local Notation ss := (key_seed seed).
  Local Notation ps := (key_pub seed).
  Local Notation nd := (node hf 16 67 ss ps).

  Lemma height_32 : forall i, i < 2 ^ height -> (N.of_nat i < 2 ^ 32)%N.
  Proof.
    intros i Hi. pose proof (pow_H_bound c w16 HC) as Hp. cbn [c_height c] in Hp.
    change (2 ^ 32)%N with 4294967296%N. change (2 ^ 30)%N with 1073741824%N in *.
    assert (N.of_nat i < 2 ^ N.of_nat height)%N; [|lia]. rewrite <- (N2Nat.id (2 ^ N.of_nat height)), pow_N_nat. lia.
  Qed.

  (** An accepted signature with index [i]: its path is the genuine one. *)
  Lemma foreign_path : forall i msg path, i < 2 ^ height -> length path = height -> cells32 path -> Forall all_bytes path ->
    let s := front c w16 i msg ++ concat path in
    all_bytes s /\ sig_index s = N.of_nat i /\ sig_R s = randomizer hf (key_prf seed) i /\ length s = length (ref_sig hf w16 height seed i msg) /\
    exists b, verify msg s (c_pk c w16 0) 16 = Ok b /\
      (b = true -> (exists xy, extract hf w16 height seed msg s = Some xy /\ collision hf xy) \/ path = auth_path hf 16 67 ss ps height i).
  Proof.
    intros i msg path Hi Lp Cp Bp s.
    pose proof (front_length c w16 i msg) as LF. cbn [w16 fst snd] in LF.
    assert (HB : all_bytes s).
    { unfold s. apply all_bytes_app. split; [|now apply concat_bytes].
      pose proof (ref_sig_bytes hf w16 height seed i msg) as B. change (ref_sig hf w16 height seed i msg) with (c_sig c w16 i msg) in B.
      rewrite c_sig_front in B. now apply all_bytes_app in B. }
    assert (H32 := height_32 i Hi).
    assert (HX : sig_index s = N.of_nat i).
    { unfold sig_index, s, front. rewrite <- !app_assoc, (firstn_app_exact _ 4) by apply to_byte_length. now apply from_be_to_byte4. }
    assert (HR : sig_R s = randomizer hf (key_prf seed) i).
    { unfold sig_R, s, front. rewrite <- !app_assoc, (skipn_app_exact _ 4) by apply to_byte_length.
      apply firstn_app_exact. apply PRF_length. }
    assert (HP : sig_path w16 height s = path).
    { unfold sig_path, s. cbn [w16 fst snd]. rewrite (skipn_app_exact _ (36 + 32 * (64 + 3))) by exact LF.
      rewrite cells_chunks, <- Lp. apply chunks_concat. intros x Hx. unfold cells32 in Cp. rewrite Forall_forall in Cp. auto. }
    assert (HL : length s = length (ref_sig hf w16 height seed i msg)).
    { change (ref_sig hf w16 height seed i msg) with (c_sig c w16 i msg). rewrite c_sig_front. unfold s. rewrite !app_length. f_equal.
      rewrite (concat_cells_length path 32), (concat_cells_length (auth_path _ _ _ _ _ _ _) 32), auth_path_length, Lp; auto.
      - intros x Hx. eapply auth_path_cells; [|exact Hx]. cbn. lia.
      - intros x Hx. unfold cells32 in Cp. rewrite Forall_forall in Cp. auto. }
    split; [exact HB|]. split; [exact HX|]. split; [exact HR|]. split; [exact HL|].
    destruct (pk_parts c w16 0 HC) as (P1 & P2 & P3 & P4).
    destruct (C26_verify_total 16 w16 msg s (c_pk c w16 0)) as (b & Eb & _).
    - reflexivity. - apply (c_pk_bytes c w16 HC).
    - left. rewrite P4. pose proof (hash_id_small _ _ (co_hash _ _ HC)). cbn [c c_hash] in *. rewrite N.mod_small; lia.
    - exists b. split; [exact Eb|]. intros ->.
      destruct (C45_authpath_bound [] seed height hash hf fmt 16 w16 HS) as (x & Ex & HA).
      assert (x = c_obj c w16 0). { apply Ok_inj. rewrite <- Ex. apply (XmssBasic_new_spec c w16 HC). }
      subst x. specialize (HA msg s HB Eb). cbv zeta in HA. rewrite HX, Nat2N.id, HP in HA.
      destruct HA as [HA|(_ & _ & HA)]; [left; exact HA|right; exact HA].
  Qed.
End Foreign.

(** ** C78: using only the newest copy *)


Fixpoint only_calls (l : list (option op)) : list op :=
  match l with [] => [] | Some c :: r => c :: only_calls r | None :: r => only_calls r end.

Theorem C78_newest_copy_follows_reference : forall junk seed height hash hf fmt, supported hash hf 16 w16 height seed ->
  exists x, XmssFast_new junk seed (N.of_nat height) hash fmt = Ok x /\
    forall l, exists w y, world_run (world_of x) (newest 0 l) = Ok (w, snd (ref_run height (ref_sig hf w16 height seed) 0 (only_calls l))) /\
      obj_at w (length l - length (only_calls l)) = Some y /\
      getIndex (xf_base y) = fst (ref_run height (ref_sig hf w16 height seed) 0 (only_calls l)) /\
      getPK (xf_base y) = getPK (xf_base x).
Proof.
  intros junk seed height hash hf fmt HS. pose proof (cfg_of _ _ _ _ _ _ fmt HS) as HC.
  destruct (XmssFast_new_spec junk seed height hash hf fmt HS) as (x & E & HI). exists x. split; auto.
  set (c := mkCfg hf hash 16 fmt height seed) in *. set (sg := ref_sig hf w16 height seed).
  assert (Epk : forall i z, fast_inv c w16 i z -> getPK (xf_base z) = c_pk c w16 0).
  { intros i z (Eb & _). rewrite Eb. fold (c_pk c w16 i). now rewrite !(getPK_shape c w16 HC). }
  assert (G : forall l n w x0 i, fast_inv c w16 i x0 -> length (w_objs w) = S n -> obj_at w n = Some x0 ->
     (exists h, nth_error (w_objs w) n = Some (Some h) /\ h_own h < length (w_bufs w)) ->
     exists w' y, world_run w (newest n l) = Ok (w', snd (ref_run height sg i (only_calls l))) /\
       obj_at w' (n + (length l - length (only_calls l))) = Some y /\ fast_inv c w16 (fst (ref_run height sg i (only_calls l))) y).
  { induction l as [|[a|] l IH]; intros n w x0 i HI0 HL HO (h & Hh & Hown); cbn [newest only_calls world_run ref_run].
    - exists w, x0. cbn [length]. rewrite Nat.add_0_r. auto.
    - destruct (step_spec c w16 HC x0 i a HI0) as (x1 & E1 & HI1 & _).
      change (c_height c) with height in *. change (c_sig c w16) with sg in *.
      unfold obj_at in HO. rewrite Hh in HO. destruct (nth_error (w_bufs w) (h_ptr h)) as [[b|]|] eqn:Eb; try discriminate.
      injection HO as <-. cbn [world_step]. rewrite Hh, Eb, E1. cbn [bind].
      assert (Hn : n < length (w_objs w)) by lia. assert (Hp : h_ptr h < length (w_bufs w)) by (apply nth_error_Some; congruence).
      set (w1 := mkW _ _).
      destruct (IH n w1 x1 (fst (ref_step height sg i a)) HI1) as (w' & y & R1 & R2 & R3).
      { unfold w1. cbn [w_objs]. now rewrite upd_length. }
      { unfold obj_at, w1. cbn [w_objs w_bufs]. rewrite nth_error_upd_same by exact Hn. cbn [h_ptr]. rewrite nth_error_upd_same by exact Hp.
        cbn [h_base h_off]. rewrite with_off_self. now destruct x1. }
      { unfold w1. cbn [w_objs w_bufs]. rewrite nth_error_upd_same by exact Hn. eexists. split; [reflexivity|]. cbn [h_own]. now rewrite upd_length. }
      rewrite R1. cbn [bind]. destruct (ref_step height sg i a) as [i1 o1]. cbn [fst snd] in *.
      destruct (ref_run height sg i1 (only_calls l)) as [i2 os]. cbn [fst snd app] in *. exists w', y.
      cbn [length]. auto.
    - cbn [world_step]. rewrite Hh. destruct (nth_error (w_bufs w) (h_own h)) as [own|] eqn:Eo; [|apply nth_error_None in Eo; lia].
      cbn [bind]. set (w1 := mkW _ _).
      destruct (IH (S n) w1 x0 i HI0) as (w' & y & R1 & R2 & R3).
      { unfold w1. cbn [w_objs]. rewrite app_length. cbn [length]. lia. }
      { unfold obj_at, w1 in *. cbn [w_objs w_bufs]. rewrite nth_error_app2 by lia. replace (S n - length (w_objs w)) with 0 by lia. cbn [nth_error h_ptr].
        rewrite Hh in HO. destruct (nth_error (w_bufs w) (h_ptr h)) as [[b|]|] eqn:Eb; try discriminate.
        rewrite nth_error_app1 by (apply nth_error_Some; congruence). rewrite Eb. exact HO. }
      { unfold w1. cbn [w_objs w_bufs]. rewrite nth_error_app2 by lia. replace (S n - length (w_objs w)) with 0 by lia. cbn [nth_error].
        eexists. split; [reflexivity|]. cbn [h_own]. rewrite app_length. cbn [length]. lia. }
      rewrite R1. cbn [bind app]. exists w', y. split; [reflexivity|]. split; [|exact R3].
      cbn [length]. assert (LL : length (only_calls l) <= length l).
      { clear. induction l as [|[a|] l IH]; cbn [only_calls length]; lia. }
      replace (n + (S (length l) - length (only_calls l))) with (S n + (length l - length (only_calls l))) by lia. exact R2. }
  intros l. destruct (G l 0 (world_of x) x 0%N HI) as (w & y & R1 & R2 & R3).
  - reflexivity.
  - unfold obj_at, world_of. cbn. rewrite with_off_self. now destruct x.
  - cbn. eexists. split; [reflexivity|]. cbn. lia.
  - exists w, y. split; [exact R1|]. split; [exact R2|]. split.
    + exact (inv_getIndex hash hf height seed fmt HS _ y R3).
    + now rewrite (Epk _ _ R3), (Epk _ _ HI).
Qed.

(** ** C78: the original moves on, the copy signs *)
Section Stale.
  Variables (hash : N) (hf : hashfn) (height : nat) (seed : list N) (fmt : N).
  Hypothesis HS : supported hash hf 16 w16 height seed.
  Let c := mkCfg hf hash 16 fmt height seed.
  Let HC : cfg_ok c w16 := cfg_of _ _ _ _ _ _ fmt HS.
  Local Notation sg := (ref_sig hf w16 height seed).

  Lemma stale_front : forall i i' msg,
    stale_sig hf w16 height seed i i' msg = front c w16 i msg ++ concat (auth_path hf 16 67 (key_seed seed) (key_pub seed) height i').
  Proof.
    intros. unfold stale_sig. change (ref_sig hf w16 height seed) with (c_sig c w16). rewrite !c_sig_front.
    rewrite (firstn_app_exact _ (path_start w16)) by (rewrite front_length; reflexivity).
    rewrite (skipn_app_exact _ (path_start w16)) by (rewrite front_length; reflexivity). reflexivity.
  Qed.

  (** Original at [i], copied, original moves to [i']. *)
  Lemma two_objects : forall x cs1 cs2, fast_inv c w16 0 x ->
    let i := fst (ref_run height sg 0 cs1) in
    let i' := fst (ref_run height sg i cs2) in
    exists b own y h1, world_run (world_of x) (map (ACall 0) cs1 ++ [ACopy 0] ++ map (ACall 0) cs2) =
      Ok (mkW [Some b; own] [Some (mkH (xf_base y) (b_stackoffset (xf_state y)) 0 0); Some h1],
          snd (ref_run height sg 0 (cs1 ++ cs2))) /\
      h_ptr h1 = 0 /\ h_own h1 = 1 /\ h_base h1 = c_obj c w16 i /\ with_off b (b_stackoffset (xf_state y)) = xf_state y /\ fast_inv c w16 i' y.
  Proof.
    intros x cs1 cs2 HI i i'. 
    destruct (run_spec c w16 HC cs1 x 0 HI) as (x1 & R1 & HI1). change (c_height c) with height in *. change (c_sig c w16) with sg in *. fold i in HI1.
    destruct (run_spec c w16 HC cs2 x1 i HI1) as (x2 & R2 & HI2). change (c_height c) with height in *. change (c_sig c w16) with sg in *. fold i' in HI2.
    destruct (run0 cs1 (xf_state x) (mkH (xf_base x) (b_stackoffset (xf_state x)) 0 0) [] [] x1 (snd (ref_run height sg 0 cs1)) eq_refl) as (b1 & E1 & W1).
    { cbn [h_base h_off]. rewrite with_off_self. destruct x. exact R1. }
    destruct (run0 cs2 b1 (mkH (xf_base x1) (b_stackoffset (xf_state x1)) 0 0) [Some b1]
               [Some (mkH (xf_base x1) (b_stackoffset (xf_state x1)) 0 1)] x2 (snd (ref_run height sg i cs2)) eq_refl) as (b2 & E2 & W2).
    { cbn [h_base h_off]. rewrite W1. destruct x1. exact R2. }
    exists b2, (Some b1), x2, (mkH (xf_base x1) (b_stackoffset (xf_state x1)) 0 1).
    split.
    - unfold world_of. rewrite world_run_app, E1. cbn [bind h_own]. rewrite world_run_app. cbn [world_run world_step w_objs w_bufs nth_error h_own h_ptr h_base h_off app length bind].
      rewrite E2. cbn [bind app h_own]. rewrite ref_run_app. reflexivity.
    - cbn [h_ptr h_own h_base]. split; [reflexivity|]. split; [reflexivity|]. split; [apply HI1|]. split; [exact W2|exact HI2].
  Qed.
End Stale.

Theorem C78_stale_copy_signature : forall junk seed height hash hf fmt, supported hash hf 16 w16 height seed ->
  exists x, XmssFast_new junk seed (N.of_nat height) hash fmt = Ok x /\
    forall cs1 cs2,
      let sg := ref_sig hf w16 height seed in
      let i := fst (ref_run height sg 0 cs1) in
      let i' := fst (ref_run height sg i cs2) in
      exists w, world_run (world_of x) (map (ACall 0) cs1 ++ [ACopy 0] ++ map (ACall 0) cs2) = Ok (w, snd (ref_run height sg 0 (cs1 ++ cs2))) /\
        ((i' < 2 ^ N.of_nat height)%N -> forall msg w' os, world_step w (ACall 1 (OpSign msg)) = Ok (w', os) ->
          let s := stale_sig hf w16 height seed (N.to_nat i) (N.to_nat i') msg in
          os = [ObsSig s] /\ sig_index s = i /\ sig_R s = sig_R (sg (N.to_nat i) msg) /\
          exists b, verify msg s (getPK (xf_base x)) 16 = Ok b /\
            (b = true -> i = i' \/
               (exists xy, extract hf w16 height seed msg s = Some xy /\ collision hf xy) \/
               (exists xy, leaf_collision hf w16 seed (Nat.lxor (N.to_nat i) 1) (Nat.lxor (N.to_nat i') 1) = Some xy /\ collision hf xy))).
Proof.
  intros junk seed height hash hf fmt HS. pose proof (cfg_of _ _ _ _ _ _ fmt HS) as HC.
  destruct (XmssFast_new_spec junk seed height hash hf fmt HS) as (x & E & HI). exists x. split; auto.
  intros cs1 cs2 sg i i'. destruct (two_objects hash hf height seed fmt HS x cs1 cs2 HI) as (b & own & y & h1 & R & Hp & _ & Hb & Wb & HI2).
  fold sg in R, Hb, HI2. fold i in Hb, HI2. fold i' in HI2.
  eexists. split; [exact R|]. intros Hlt msg w' os Hstep s.
  set (c := mkCfg hf hash 16 fmt height seed) in *.
  assert (Hle : (i <= i')%N) by apply ref_run_mono.
  destruct (sign_any c w16 HC i msg (with_off b (h_off h1))) as (a2 & _ & Es). { cbn [c c_height]. lia. }
  assert (Eauth : concat (firstn height (b_auth (with_off b (h_off h1)))) =
                  concat (auth_path hf 16 67 (key_seed seed) (key_pub seed) height (N.to_nat i'))).
  { change (b_auth (with_off b (h_off h1))) with (b_auth (with_off b (b_stackoffset (xf_state y)))). rewrite Wb. f_equal.
    destruct HI2 as (_ & _ & HB). specialize (HB Hlt). exact (auth_concat c w16 HC _ _ HB). }
  change (c_height c) with height in Es. rewrite Eauth in Es.
  rewrite <- (stale_front hash hf height seed fmt) in Es. fold s in Es.
  cbn [world_step w_objs w_bufs nth_error] in Hstep. rewrite Hp in Hstep. cbn [nth_error] in Hstep. rewrite Hb in Hstep.
  rewrite Es in Hstep.
  assert (Eos : os = [ObsSig s]).
  { match type of Hstep with bind (bind ?q _) _ = _ => destruct q as [st'|e|] end; cbn [bind] in Hstep; try discriminate.
    apply Ok_inj, pair_equal_spec in Hstep. now destruct Hstep as [_ <-]. }
  split; [exact Eos|].
  assert (Hi : N.to_nat i < 2 ^ height) by (rewrite <- pow_N_nat; lia).
  assert (Hi' : N.to_nat i' < 2 ^ height) by (rewrite <- pow_N_nat; lia).
  set (path := auth_path hf 16 67 (key_seed seed) (key_pub seed) height (N.to_nat i')) in *.
  assert (Cp : cells32 path). { apply Forall_forall. intros v Hv. eapply auth_path_cells; [|exact Hv]. lia. }
  assert (Bp : Forall all_bytes path).
  { apply Forall_forall. intros v Hv. unfold path, auth_path in Hv. apply in_map_iff in Hv. destruct Hv as (k & <- & _). apply node_bytes. }
  destruct (foreign_path hash hf height seed fmt HS (N.to_nat i) msg path Hi (auth_path_length _ _ _ _ _ _ _) Cp Bp) as (_ & F2 & F3 & _ & bb & F4 & F5).
  assert (Es2 : s = front c w16 (N.to_nat i) msg ++ concat path) by apply (stale_front hash hf height seed fmt).
  change (mkCfg hf hash 16 fmt height seed) with c in F2, F3, F4, F5. rewrite <- Es2 in F2, F3, F4, F5.
  split; [now rewrite F2, N2Nat.id|].
  split.
  { rewrite F3. symmetry. change (sg (N.to_nat i) msg) with (owner_sig hf w16 height seed (N.to_nat i) (randomizer hf (key_prf seed) (N.to_nat i)) msg).
    destruct (owner_parts hf 16 w16 height seed (N.to_nat i) (randomizer hf (key_prf seed) (N.to_nat i)) msg eq_refl) as (_ & O2 & _); auto.
    - apply PRF_length. - eapply height_32; eauto. }
  exists bb. split.
  { destruct HI as (Eb & _). rewrite Eb. exact F4. }
  intros Eb. destruct (F5 Eb) as [F|F]; [right; left; exact F|].
  destruct (N.eq_dec i i') as [|Hne]; [now left|]. right. right.
  apply (f_equal (fun l => nth 0 l [])) in F. unfold path, auth_path in F.
  destruct HS as (H1 & H2 & H3 & H4). rewrite !nth_map_seq in F by lia. cbn [Nat.pow] in F. rewrite !Nat.div_1_r in F. cbn [node] in F.
  assert (Hx : forall k, k < 2 ^ height -> (N.of_nat (Nat.lxor k 1) < 2 ^ 32)%N).
  { intros k Hk. apply (height_32 hash hf height seed fmt (conj H1 (conj H2 (conj H3 H4)))). 
    assert (P2 : exists r, 2 ^ height = 2 * r) by (exists (2 ^ (height - 1)); rewrite <- pow2_S; f_equal; lia). destruct P2 as [r Er].
    rewrite lxor_1. destruct (Nat.odd k) eqn:Eo; [lia|].
    destruct (not_odd_even k Eo) as [z ->]. lia. }
  apply leaf_coll; auto.
  - cbn. lia. - reflexivity.
  - intros EE. apply lxor1_inj in EE. lia.
Qed.

(** ** C78: one signature by a copy of a fresh object *)
Lemma upd_twice : forall A (l : list A) i a b, upd (upd l i a) i b = upd l i b.
Proof. induction l as [|x l IH]; intros [|i] a b; cbn [upd]; auto. now rewrite IH. Qed.

Lemma th_ok_cells : forall hf ss ps p m t r P st st', th_ok hf ss ps p m t r P st ->
  b_treehash st' = b_treehash st -> b_stack st' = b_stack st -> b_stacklevels st' = b_stacklevels st -> b_stackoffset st' = b_stackoffset st ->
  th_ok hf ss ps p m t r P st'.
Proof. intros hf ss ps p m t r P st st' [] E1 E2 E3 E4. constructor; rewrite ?E1, ?E2, ?E3, ?E4; auto. Qed.

Lemma auth_path_split : forall hf w len ss ps height i, 2 <= height ->
  auth_path hf w len ss ps height i =
  node hf w len ss ps 0 (Nat.lxor i 1) :: node hf w len ss ps 1 (Nat.lxor (i / 2) 1) :: skipn 2 (auth_path hf w len ss ps height i).
Proof.
  intros hf w len ss ps [|[|k]] i Hh; try lia. unfold auth_path.
  cbn [seq map skipn]. change (2 ^ 0) with 1. change (2 ^ 1) with 2. now rewrite Nat.div_1_r.
Qed.

Section Fresh.
  Variables (hash : N) (hf : hashfn) (height : nat) (seed : list N) (fmt : N).
  Hypothesis HS : supported hash hf 16 w16 height seed.
  Let c := mkCfg hf hash 16 fmt height seed.
  Let HC : cfg_ok c w16 := cfg_of _ _ _ _ _ _ fmt HS.
  Local Notation sg := (ref_sig hf w16 height seed).
  Local Notation ss := (key_seed seed).
  Local Notation ps := (key_pub seed).
  Local Notation nd := (node hf 16 67 ss ps).
  Local Notation ap := (auth_path hf 16 67 ss ps height).

  Lemma pow_16 : (16 <= 2 ^ N.of_nat height)%N /\ 16 <= 2 ^ height.
  Proof.
    pose proof HS as (_ & _ & Hh & _). split.
    - change 16%N with (2 ^ 4)%N. apply N.pow_le_mono_r; lia.
    - change 16 with (2 ^ 4). apply Nat.pow_le_mono_r; lia.
  Qed.

  (** The path of leaf 2 with its second node hashed from leaf 0 twice. *)
  Definition crossed_path : list (list N) :=
    firstn 1 (ap 2) ++ [rand_hash hf ps 2 0 0 0 (nd 0 0) (nd 0 0)] ++ skipn 2 (ap 2).

  Lemma ap_split : forall i, ap i = nd 0 (Nat.lxor i 1) :: nd 1 (Nat.lxor (i / 2) 1) :: skipn 2 (ap i).
  Proof.
    intros i. pose proof HS as (_ & _ & Hh & _). apply auth_path_split. lia.
  Qed.

  Lemma crossed_front : forall msg, crossed_sig hf w16 seed height msg = front c w16 2 msg ++ concat crossed_path.
  Proof.
    intros msg. unfold crossed_sig, crossed_path. change (ref_sig hf w16 height seed 2 msg) with (c_sig c w16 2 msg). rewrite c_sig_front.
    pose proof (front_length c w16 2 msg) as LF. cbn [w16 fst snd] in LF.
    change (auth_path (c_hf c) (2 ^ fst (fst w16)) (snd (fst w16) + snd w16) (key_seed (c_seed c)) (key_pub (c_seed c)) (c_height c) 2) with (ap 2).
    pose proof (ap_split 2) as Ea. set (r := skipn 2 (ap 2)) in *. clearbody r.
    assert (L0 : length (nd 0 (Nat.lxor 2 1)) = 32) by (apply node_length; lia).
    assert (L1 : length (nd 1 (Nat.lxor (2 / 2) 1)) = 32) by (apply node_length; lia).
    rewrite Ea. set (a0 := nd 0 (Nat.lxor 2 1)) in *. set (a1 := nd 1 (Nat.lxor (2 / 2) 1)) in *.
    cbn [concat firstn app]. change (path_start w16) with 2180. change (36 + 32 * (64 + 3)) with 2180 in LF.
    set (f := front c w16 2 msg) in *.
    replace (f ++ a0 ++ a1 ++ concat r) with ((f ++ a0) ++ a1 ++ concat r) at 1 by now rewrite <- !app_assoc.
    rewrite (firstn_app_exact _ (2180 + 32)) by (rewrite app_length, L0, LF; reflexivity).
    replace (f ++ a0 ++ a1 ++ concat r) with ((f ++ a0 ++ a1) ++ concat r) by now rewrite <- !app_assoc.
    rewrite (skipn_app_exact _ (2180 + 64)) by (rewrite !app_length, L0, L1, LF; reflexivity).
    rewrite <- !app_assoc. reflexivity.
  Qed.

  Lemma fresh_run : forall junk, exists x, XmssFast_new junk seed (N.of_nat height) hash fmt = Ok x /\ fast_inv c w16 0 x /\
    forall m0 m1 m2 m3, exists w,
      world_run (world_of x) [ACopy 0; ACall 0 (OpSign m0); ACall 1 (OpSign m1); ACall 0 (OpSign m2); ACall 0 (OpSign m3)] =
        Ok (w, [ObsSig (sg 0 m0); ObsSig (stale_sig hf w16 height seed 0 1 m1); ObsSig (sg 1 m2); ObsSig (crossed_sig hf w16 seed height m3)]).
  Proof.
    intros junk. destruct (initialize_tree_full c w16 HC junk) as (x & Ex & HI & HT0). exists x. split.
    { unfold XmssFast_new, check_seed. pose proof HS as (_ & _ & Hh & _ & Hl). rewrite Hl. cbn [Nat.eqb negb].
      rewrite (proj2 (N.ltb_ge _ _)) by lia. exact Ex. }
    split; [exact HI|]. intros m0 m1 m2 m3. destruct pow_16 as [P16 Q16].
    destruct HI as (Eb & _ & HB0). specialize (HB0 ltac:(cbn [c c_height]; lia)). cbn [N.to_nat] in HB0.
    destruct x as [bx S0]. cbn [xf_base xf_state] in *. subst bx.
    destruct (cfg_mq c w16 HC) as (M1 & M2 & M3 & M4). cbn [c c_height] in M1, M2, M3, M4, HB0, HT0, P16, Q16.
    change (x_h (c_params c) = height - 2 + 2) in M3.
    destruct (wots_ok_facts _ (cfg_wots c w16 HC)) as (Hw & _ & _ & Hlen & _).
    set (p := c_params c) in *. set (mm := height - 2) in *. set (qq := mm / 2) in *.
    change (c_seed c) with seed in *. change (c_hf c) with hf in *. change (x_k p = 2) with (x_k p = 2).
    assert (LA : length (b_auth S0) = mm + 2) by apply HB0. assert (LK : length (b_keep S0) = (mm + 2) / 2) by apply HB0.
    assert (Etn : forall j i, tnode hf ss ps p j i = nd j i) by reflexivity.
    assert (Kpos : 0 < (mm + 2) / 2) by (apply Nat.div_str_pos; lia).
    (* original signs with key 0 *)
    destruct (sign_any c w16 HC 0 m0 S0 ltac:(cbn [c c_height]; lia)) as (a0 & A0 & Es0).
    change (c_height c) with height in Es0. rewrite (proj2 (N.ltb_lt _ _)) in Es0 by lia. cbn [N.to_nat] in Es0.
    pose proof (bds_step_idle0 hf ss ps p mm qq M1 M2 M3 eq_refl Hw Hlen S0 a0 _ A0 LA LK HT0) as Est0.
    destruct (bds_step_spec hf ss ps p mm qq M1 M2 M3 eq_refl Hw Hlen 0 S0 a0 A0 ltac:(rewrite M4; lia) HB0) as (S1 & Est1 & HB1).
    change (0 + 1) with 1 in HB1.
    assert (E1 : S1 = mkBDS (b_stack S0) (b_stackoffset S0) (b_stacklevels S0) (upd (b_auth S0) 0 (nd 0 0))
              (upd (b_keep S0) 0 (nth 0 (b_auth S0) [])) (b_treehash S0) (b_retain S0)).
    { apply Ok_inj. rewrite <- Est1. exact Est0. }
    change (bds_step (c_hf c) (c_params c)) with (bds_step hf p) in Es0. change (key_seed (c_seed c)) with ss in Es0. change (key_pub (c_seed c)) with ps in Es0.
    rewrite Est1 in Es0. cbn [bind] in Es0. change (0 + 1)%N with 1%N in Es0.
    assert (Ea0 : firstn height (b_auth S0) = ap 0) by exact (auth_concat c w16 HC _ _ HB0).
    rewrite Ea0 in Es0. 
    assert (Eg0 : front c w16 0 m0 ++ concat (ap 0) = sg 0 m0) by (symmetry; exact (c_sig_front c w16 0 m0)). rewrite Eg0 in Es0.
    (* copy signs with key 0 *)
    destruct (sign_any c w16 HC 0 m1 S1 ltac:(cbn [c c_height]; lia)) as (a1 & A1 & Es1).
    change (c_height c) with height in Es1. rewrite (proj2 (N.ltb_lt _ _)) in Es1 by lia. cbn [N.to_nat] in Es1.
    assert (HT1 : th_ok hf ss ps p mm 0 (fun _ => 0) (fun _ => []) S1) by (rewrite E1; eapply th_ok_cells; eauto).
    assert (LA1 : length (b_auth S1) = mm + 2) by (rewrite E1; cbn [b_auth]; now rewrite upd_length).
    assert (LK1 : length (b_keep S1) = (mm + 2) / 2) by (rewrite E1; cbn [b_keep]; now rewrite upd_length).
    pose proof (bds_step_idle0 hf ss ps p mm qq M1 M2 M3 eq_refl Hw Hlen S1 a1 _ A1 LA1 LK1 HT1) as Est2.
    change (bds_step (c_hf c) (c_params c)) with (bds_step hf p) in Es1. change (key_seed (c_seed c)) with ss in Es1. change (key_pub (c_seed c)) with ps in Es1.
    rewrite Est2 in Es1. cbn [bind] in Es1. change (0 + 1)%N with 1%N in Es1.
    assert (Ea1 : firstn height (b_auth S1) = ap 1) by exact (auth_concat c w16 HC _ _ HB1).
    rewrite Ea1, <- (stale_front hash hf height seed fmt) in Es1.
    assert (Ean : b_auth S1 = upd (b_auth S0) 0 (nd 0 0)) by now rewrite E1.
    assert (Eau : upd (b_auth S1) 0 (nd 0 0) = b_auth S1) by (rewrite Ean; apply upd_twice).
    assert (En0 : nth 0 (b_auth S1) [] = nd 0 0) by (rewrite Ean; apply nth_upd_same; lia).
    change (tnode hf ss ps p 0 0) with (nd 0 0) in Es1. rewrite Eau, En0 in Es1.
    set (S2 := mkBDS (b_stack S1) (b_stackoffset S1) (b_stacklevels S1) (b_auth S1) (upd (b_keep S1) 0 (nd 0 0)) (b_treehash S1) (b_retain S1)) in *.
    (* original signs with key 1 *)
    destruct (sign_any c w16 HC 1 m2 S2 ltac:(cbn [c c_height]; lia)) as (a2 & A2 & Es2).
    change (c_height c) with height in Es2. rewrite (proj2 (N.ltb_lt _ _)) in Es2 by lia. change (N.to_nat 1) with 1 in Es2.
    assert (W2 : weak_ok hf ss ps p mm qq 1 S2).
    { apply bds_weak in HB1. destruct HB1 as [B1 B2 B3 (r & P & B4 & B5)]. constructor; cbn [S2 b_auth b_keep b_retain]; auto.
      - now rewrite upd_length.
      - exists r, P. split; [eapply th_ok_cells; eauto|exact B5]. }
    destruct (bds_step_weak hf ss ps p mm qq M1 M2 M3 eq_refl Hw Hlen 1 1 0 S2 a2 A2 ltac:(rewrite M4; lia) eq_refl W2) as (S3 & Est3 & W3 & Au3).
    change (1 + 1) with 2 in W3, Au3.
    change (bds_step (c_hf c) (c_params c)) with (bds_step hf p) in Es2. change (key_seed (c_seed c)) with ss in Es2. change (key_pub (c_seed c)) with ps in Es2.
    rewrite Est3 in Es2. cbn [bind] in Es2. change (1 + 1)%N with 2%N in Es2.
    change (b_auth S2) with (b_auth S1) in Es2. rewrite Ea1 in Es2.
    assert (Eg2 : front c w16 1 m2 ++ concat (ap 1) = sg 1 m2) by (symmetry; exact (c_sig_front c w16 1 m2)). rewrite Eg2 in Es2.
    (* original signs with key 2 *)
    destruct (sign_any c w16 HC 2 m3 S3 ltac:(cbn [c c_height]; lia)) as (a3 & A3 & Es3).
    change (c_height c) with height in Es3. rewrite (proj2 (N.ltb_lt _ _)) in Es3 by lia. change (N.to_nat 2) with 2 in Es3.
    destruct (bds_step_weak hf ss ps p mm qq M1 M2 M3 eq_refl Hw Hlen 2 0 1 S3 a3 A3 ltac:(rewrite M4; lia) eq_refl W3) as (S4 & Est4 & _ & _).
    change (bds_step (c_hf c) (c_params c)) with (bds_step hf p) in Es3. change (key_seed (c_seed c)) with ss in Es3. change (key_pub (c_seed c)) with ps in Es3.
    rewrite Est4 in Es3. cbn [bind] in Es3. change (2 + 1)%N with 3%N in Es3.
    assert (Ea3 : firstn height (b_auth S3) = crossed_path).
    { assert (L3 : length (b_auth S3) = height) by (rewrite (wo_auth _ _ _ _ _ _ _ _ W3); lia). rewrite firstn_all2 by lia.
      assert (LS : length (skipn 2 (ap 2)) = height - 2) by (rewrite skipn_length, auth_path_length; reflexivity).
      unfold crossed_path. rewrite (ap_split 2). cbn [firstn app].
      change (skipn 2 (?a :: ?b :: ?r)) with r.
      apply nth_ext with (d := []) (d' := []); [rewrite L3; cbn [length]; lia|].
      intros n Hn. rewrite L3 in Hn. apply nth_error_nth. rewrite (Au3 n ltac:(lia)).
      destruct n as [|[|n]].
      - reflexivity.
      - cbn [Nat.ltb Nat.leb Nat.eqb]. unfold joined. cbn [Nat.eqb]. change (1 - 1) with 0. change (0 / 2) with 0. change (1 / 2 ^ 1) with 0.
        change (b_auth S2) with (b_auth S1). rewrite En0. cbn [S2 b_keep]. rewrite nth_upd_same by lia. reflexivity.
      - cbn [Nat.ltb Nat.leb Nat.eqb nth]. change (b_auth S2) with (b_auth S1).
        rewrite nth_skipn. f_equal.
        transitivity (nth (S (S n)) (ap 1) []).
        + rewrite <- Ea1. symmetry. f_equal. apply firstn_all2. rewrite LA1. lia.
        + unfold auth_path. rewrite !nth_map_seq by lia. f_equal. f_equal.
          assert (P4 : 4 <= 2 ^ S (S n)) by (change 4 with (2 ^ 2); apply Nat.pow_le_mono_r; lia).
          change (2 + n) with (S (S n)). rewrite !Nat.div_small by lia. reflexivity. }
    rewrite Ea3, <- crossed_front in Es3.
    (* the program *)
    unfold world_of. cbn [xf_state xf_base].
    assert (Ec : forall r, world_run (mkW [Some S0] [Some (mkH (c_obj c w16 0) (b_stackoffset S0) 0 0)]) (ACopy 0 :: r) =
      ('(w, xs) <- world_run (mkW [Some S0; Some S0] [Some (mkH (c_obj c w16 0) (b_stackoffset S0) 0 0); Some (mkH (c_obj c w16 0) (b_stackoffset S0) 0 1)]) r ;; Ok (w, xs))).
    { intros r. cbn [world_run world_step w_objs w_bufs nth_error h_own h_ptr h_base h_off app length bind]. reflexivity. }
    rewrite Ec. clear Ec.
    assert (Hoff1 : b_stackoffset S1 = b_stackoffset S0) by now rewrite E1.
    cbn [world_run].
    rewrite (call0 S0 (mkH (c_obj c w16 0) (b_stackoffset S0) 0 0) [Some S0] [Some (mkH (c_obj c w16 0) (b_stackoffset S0) 0 1)] _ _ _ eq_refl)
      by (cbn [h_base h_off]; rewrite with_off_self; exact Es0).
    cbn [bind xf_state xf_base h_own].
    rewrite (call1 S1 _ (mkH (c_obj c w16 0) (b_stackoffset S0) 0 1) [Some S0] [] _ _ _ eq_refl)
      by (cbn [h_base h_off]; rewrite <- Hoff1, with_off_self; exact Es1).
    cbn [bind xf_state xf_base h_own].
    rewrite (call0 S2 (mkH (c_obj c w16 1) (b_stackoffset S1) 0 0) [Some S0] _ _ _ _ eq_refl)
      by (cbn [h_base h_off]; change (b_stackoffset S1) with (b_stackoffset S2); rewrite with_off_self; exact Es2).
    cbn [bind xf_state xf_base h_own].
    rewrite (call0 S3 (mkH (c_obj c w16 2) (b_stackoffset S3) 0 0) [Some S0] _ _ _ _ eq_refl)
      by (cbn [h_base h_off]; rewrite with_off_self; exact Es3).
    cbn [bind app]. eexists. reflexivity.
  Qed.
End Fresh.

Theorem C78_copy_corrupts_original : forall junk seed height hash hf fmt, supported hash hf 16 w16 height seed ->
  exists x, XmssFast_new junk seed (N.of_nat height) hash fmt = Ok x /\
    forall m0 m1 m2 m3,
      let sg := ref_sig hf w16 height seed in
      let bad1 := stale_sig hf w16 height seed 0 1 m1 in
      let bad3 := crossed_sig hf w16 seed height m3 in
      (exists w, world_run (world_of x)
         [ACopy 0; ACall 0 (OpSign m0); ACall 1 (OpSign m1); ACall 0 (OpSign m2); ACall 0 (OpSign m3)] =
         Ok (w, [ObsSig (sg 0 m0); ObsSig bad1; ObsSig (sg 1 m2); ObsSig bad3])) /\
      (* the one-time key 0 has signed both m0 and m1 *)
      sig_index (sg 0 m0) = 0%N /\ sig_index bad1 = 0%N /\
      (* and the library does not accept the wrong signatures, unless it found a collision *)
      (exists b1, verify m1 bad1 (getPK (xf_base x)) 16 = Ok b1 /\
         (b1 = true -> (exists xy, extract hf w16 height seed m1 bad1 = Some xy /\ collision hf xy) \/
                       (exists xy, leaf_collision hf w16 seed 1 0 = Some xy /\ collision hf xy))) /\
      (exists b3, verify m3 bad3 (getPK (xf_base x)) 16 = Ok b3 /\
         (b3 = true -> (exists xy, extract hf w16 height seed m3 bad3 = Some xy /\ collision hf xy) \/
                       (exists xy, twin_collision hf w16 seed = Some xy /\ collision hf xy))).
Proof.
  intros junk seed height hash hf fmt HS. pose proof (cfg_of _ _ _ _ _ _ fmt HS) as HC.
  destruct (fresh_run hash hf height seed fmt HS junk) as (x & E & HI & HR). exists x. split; [exact E|].
  intros m0 m1 m2 m3 sg bad1 bad3. split; [apply HR|].
  set (c := mkCfg hf hash 16 fmt height seed) in *. destruct (pow_16 hash hf height seed HS) as [P16 Q16].
  set (ap := auth_path hf 16 67 (key_seed seed) (key_pub seed) height).
  assert (Cp : forall i, cells32 (ap i)). { intros i. apply Forall_forall. intros v Hv. eapply auth_path_cells; [|exact Hv]. lia. }
  assert (Bp : forall i, Forall all_bytes (ap i)).
  { intros i. apply Forall_forall. intros v Hv. unfold ap, auth_path in Hv. apply in_map_iff in Hv. destruct Hv as (k & <- & _). apply node_bytes. }
  destruct HI as (Eb & _). rewrite Eb. fold (c_pk c w16 0).
  assert (Hh4 : 4 <= height) by (destruct HS as (_ & _ & Hh & _); lia).
  destruct (foreign_path hash hf height seed fmt HS 0 m0 (ap 0) ltac:(lia) (auth_path_length _ _ _ _ _ _ _) (Cp 0) (Bp 0)) as (_ & X1 & _).
  destruct (foreign_path hash hf height seed fmt HS 0 m1 (ap 1) ltac:(lia) (auth_path_length _ _ _ _ _ _ _) (Cp 1) (Bp 1)) as (_ & Y1 & _ & _ & b1 & Y2 & Y3).
  rewrite <- (stale_front hash hf height seed fmt) in Y1, Y2, Y3. fold bad1 in Y1, Y2, Y3.
  pose proof (ap_split hash hf height seed HS 2) as Es. pose proof (ap_split hash hf height seed HS 1) as Es1. pose proof (ap_split hash hf height seed HS 0) as Es0.
  split. { change (sg 0 m0) with (c_sig c w16 0 m0). rewrite c_sig_front. exact X1. }
  split; [exact Y1|]. split.
  { exists b1. split; [exact Y2|]. intros Hb. destruct (Y3 Hb) as [F|F]; [now left|right].
    fold ap in Es0, Es1. change (Nat.lxor 1 1) with 0 in Es1. change (Nat.lxor 0 1) with 1 in Es0.
    rewrite Es1 in F. fold ap in F. rewrite Es0 in F. injection F as F _.
    apply (leaf_coll hf w16 seed 1 0); try lia; try reflexivity; cbn; try lia. symmetry. exact F. }
  destruct (foreign_path hash hf height seed fmt HS 2 m3 (crossed_path hf height seed) ltac:(lia)) as (_ & _ & _ & _ & b3 & Z2 & Z3).
  - unfold crossed_path. rewrite !app_length, firstn_length, skipn_length, auth_path_length. cbn [length]. lia.
  - unfold crossed_path, cells32. apply Forall_app. split; [|apply Forall_app; split].
    + apply (Forall_forall (fun v => length v = 32)). intros v Hv. specialize (Cp 2). unfold cells32 in Cp. rewrite Forall_forall in Cp. apply Cp. 
      rewrite <- (firstn_skipn 1 (ap 2)). apply in_or_app. now left.
    + constructor; [apply keyed_length|constructor].
    + apply (Forall_forall (fun v => length v = 32)). intros v Hv. specialize (Cp 2). unfold cells32 in Cp. rewrite Forall_forall in Cp. apply Cp.
      rewrite <- (firstn_skipn 2 (ap 2)). apply in_or_app. now right.
  - unfold crossed_path. apply Forall_app. split; [|apply Forall_app; split].
    + apply (Forall_forall all_bytes). intros v Hv. specialize (Bp 2). rewrite Forall_forall in Bp. apply Bp.
      rewrite <- (firstn_skipn 1 (ap 2)). apply in_or_app. now left.
    + constructor; [apply keyed_bytes|constructor].
    + apply (Forall_forall all_bytes). intros v Hv. specialize (Bp 2). rewrite Forall_forall in Bp. apply Bp.
      rewrite <- (firstn_skipn 2 (ap 2)). apply in_or_app. now right.
  - rewrite <- (crossed_front hash hf height seed fmt HS) in Z2, Z3. fold bad3 in Z2, Z3.
    exists b3. split; [exact Z2|]. intros Hb. destruct (Z3 Hb) as [F|F]; [now left|right].
    unfold crossed_path in F. fold ap in F, Es. rewrite Es in F. cbn [firstn app] in F. apply (f_equal (fun l => nth 1 l [])) in F. cbn [nth] in F.
    change (Nat.lxor (2 / 2) 1) with 0 in F. cbn [node Nat.mul plus] in F.
    unfold twin_collision. cbn [w16 fst snd]. change (2 ^ 4) with 16. change (64 + 3) with 67.
    destruct (bytes_eqb_spec (leaf hf 16 67 (key_seed seed) (key_pub seed) 0) (leaf hf 16 67 (key_seed seed) (key_pub seed) 1)) as [EL|NL].
    + apply (leaf_coll hf w16 seed 0 1); try lia; try reflexivity; cbn; try lia. exact EL.
    + eexists. split; [reflexivity|]. split; cbn [fst snd]; [|rewrite <- !H_raw; symmetry; exact F].
      intros EI. apply H_input_inj in EI; try (apply (node_length hf 16 67 _ _ 0); lia). destruct EI as [_ EI]. congruence.
Qed.

(** ** C78: a copy that outlives its original, and one that does not *)

(** Object [n] is alive and its pointers lead to its own vectors [p]. *)
Definition has (w : world) (n p : nat) (x : xfast) : Prop :=
  exists h b, nth_error (w_objs w) n = Some (Some h) /\ nth_error (w_bufs w) p = Some (Some b) /\
    h_ptr h = p /\ h_own h = p /\ x = mkXF (h_base h) (with_off b (h_off h)).

Lemma call_has : forall w n p x c y o, has w n p x -> step x c = Ok (y, o) ->
  exists w', world_step w (ACall n c) = Ok (w', [o]) /\ has w' n p y /\
    (forall n' p' x', n' <> n -> p' <> p -> has w n' p' x' -> has w' n' p' x').
Proof.
  intros w n p x c y o (h & b & Hn & Hb & Hp & Ho & ->) E. eexists. cbn [world_step]. rewrite Hn, Hp, Hb, E. cbn [bind].
  split; [reflexivity|]. split.
  - do 2 eexists. cbn [w_objs w_bufs].
    rewrite !nth_error_upd_same by (apply nth_error_Some; congruence).
    split; [reflexivity|]. split; [reflexivity|]. cbn [h_ptr h_own h_base h_off]. rewrite with_off_self. destruct y. auto.
  - intros n' p' x' N1 N2 (h' & b' & Hn' & Hb' & R). exists h', b'. cbn [w_objs w_bufs].
    rewrite !nth_error_upd_other by auto. auto.
Qed.
Lemma destroy_has : forall w n h, nth_error (w_objs w) n = Some (Some h) ->
  exists w', world_step w (ADestroy n) = Ok (w', []) /\
    (forall n' p' x', n' <> n -> p' <> h_own h -> has w n' p' x' -> has w' n' p' x').
Proof.
  intros w n h Hn. eexists. cbn [world_step]. rewrite Hn. split; [reflexivity|].
  intros n' p' x' N1 N2 (h' & b' & Hn' & Hb' & R). exists h', b'. cbn [w_objs w_bufs].
  rewrite !nth_error_upd_other by auto. auto.
Qed.

Section Two.
  Variables (c : key_cfg).
  Hypothesis HC : cfg_ok c w16.
  Local Notation sg := (c_sig c w16).
  Local Notation height := (c_height c).

  Lemma run_has : forall cs w n p i x, has w n p x -> fast_inv c w16 i x ->
    exists w', world_run w (map (ACall n) cs) = Ok (w', snd (ref_run height sg i cs)).
  Proof.
    induction cs as [|a cs IH]; intros w n p i x HA HI; cbn [map world_run ref_run].
    - exists w. reflexivity.
    - destruct (step_spec c w16 HC x i a HI) as (x1 & E1 & HI1 & _).
      destruct (call_has _ _ _ _ _ _ _ HA E1) as (w1 & E2 & HA1 & _). rewrite E2. cbn [bind].
      destruct (IH w1 n p _ x1 HA1 HI1) as (w2 & E3). rewrite E3. cbn [bind].
      destruct (ref_step height sg i a) as [i1 o1]. cbn [fst snd] in *. destruct (ref_run height sg i1 cs). exists w2. reflexivity.
  Qed.

  Lemma run_two : forall (l : list (bool * op)) w p0 p1 i0 i1 x0 x1, p0 <> p1 -> has w 0 p0 x0 -> has w 1 p1 x1 -> fast_inv c w16 i0 x0 -> fast_inv c w16 i1 x1 ->
    exists w' os, world_run w (map (fun x : bool * op => ACall (if fst x then 1 else 0) (snd x)) l) = Ok (w', os) /\ length os = length l /\
      obs_of false l os = snd (ref_run height sg i0 (calls_of false l)) /\
      obs_of true l os = snd (ref_run height sg i1 (calls_of true l)) /\
      exists y0 y1, has w' 0 p0 y0 /\ has w' 1 p1 y1 /\
        fast_inv c w16 (fst (ref_run height sg i0 (calls_of false l))) y0 /\ fast_inv c w16 (fst (ref_run height sg i1 (calls_of true l))) y1.
  Proof.
    induction l as [|[who a] l IH]; intros w p0 p1 i0 i1 x0 x1 Hne H0 H1 I0 I1.
    - exists w, []. cbn. repeat split; auto. exists x0, x1. auto.
    - cbn [map world_run fst snd]. destruct who.
      + destruct (step_spec c w16 HC x1 i1 a I1) as (x2 & E1 & I2 & _).
        destruct (call_has _ _ _ _ _ _ _ H1 E1) as (w1 & E2 & A1 & A2). rewrite E2. cbn [bind].
        destruct (IH w1 p0 p1 i0 _ x0 x2 Hne (A2 0 p0 x0 ltac:(lia) Hne H0) A1 I0 I2) as (w' & os & R1 & R2 & R3 & R4 & R5).
        rewrite R1. cbn [bind app]. do 2 eexists. split; [reflexivity|].
        unfold obs_of, calls_of in *. cbn [combine filter fst snd Bool.eqb map length ref_run] in *.
        destruct (ref_step height sg i1 a) as [j o]. cbn [fst snd] in *.
        destruct (ref_run height sg j _) as [j2 o2]. cbn [fst snd] in *. split; [lia|]. split; [exact R3|]. split; [now f_equal|exact R5].
      + destruct (step_spec c w16 HC x0 i0 a I0) as (x2 & E1 & I2 & _).
        destruct (call_has _ _ _ _ _ _ _ H0 E1) as (w1 & E2 & A1 & A2). rewrite E2. cbn [bind].
        destruct (IH w1 p0 p1 _ i1 x2 x1 Hne A1 (A2 1 p1 x1 ltac:(lia) (not_eq_sym Hne) H1) I2 I1) as (w' & os & R1 & R2 & R3 & R4 & R5).
        rewrite R1. cbn [bind app]. do 2 eexists. split; [reflexivity|].
        unfold obs_of, calls_of in *. cbn [combine filter fst snd Bool.eqb map length ref_run] in *.
        destruct (ref_step height sg i0 a) as [j o]. cbn [fst snd] in *.
        destruct (ref_run height sg j _) as [j2 o2]. cbn [fst snd] in *. split; [lia|]. split; [now f_equal|]. split; [exact R4|exact R5].
  Qed.
End Two.



Theorem C78_copy_outlives_original : forall junk seed height hash hf fmt, supported hash hf 16 w16 height seed ->
  exists x, XmssFast_new junk seed (N.of_nat height) hash fmt = Ok x /\
    forall cs1,
      let sg := ref_sig hf w16 height seed in
      let i := fst (ref_run height sg 0 cs1) in
      exists w, world_run (world_of x) (map (ACall 0) cs1 ++ [ACopy 0; ADestroy 0]) = Ok (w, snd (ref_run height sg 0 cs1)) /\
        (* a call on the copy that has to advance is a use after free *)
        (forall c, advances height i c = true -> world_step w (ACall 1 c) = UB) /\
        (* any other call is answered correctly *)
        (forall cs, (forall c, In c cs -> advances height i c = false) ->
           exists w', world_run w (map (ACall 1) cs) = Ok (w', snd (ref_run height sg i cs)) /\ fst (ref_run height sg i cs) = i).
Proof.
  intros junk seed height hash hf fmt HS. pose proof (cfg_of _ _ _ _ _ _ fmt HS) as HC.
  destruct (XmssFast_new_spec junk seed height hash hf fmt HS) as (x & E & HI). exists x. split; auto.
  intros cs1 sg i. destruct (two_objects hash hf height seed fmt HS x cs1 [] HI) as (b & own & y & h1 & R & Hp & Ho & Hb & Wb & HI2).
  fold sg in R, Hb, HI2. fold i in Hb, HI2. cbn [map ref_run fst app] in R, HI2. rewrite app_nil_r in R.
  set (c := mkCfg hf hash 16 fmt height seed) in *.
  assert (Hle : (i <= 2 ^ N.of_nat height)%N) by (destruct HI2 as (_ & X & _); exact X).
  assert (H30 := pow_H_bound c w16 HC). cbn [c c_height] in H30.
  assert (Hidx : from_be (slice 0 4 (xb_sk (c_obj c w16 i))) = i) by (cbn [c_obj xb_sk]; apply (sk_index c w16 HC); exact Hle).
  assert (Hgi : getIndex (c_obj c w16 i) = i).
  { unfold getIndex. rewrite Hidx. unfold u32. apply N.mod_small.
    change (2 ^ 32)%N with 4294967296%N. change (2 ^ 30)%N with 1073741824%N in *. lia. }
  assert (Hfol : forall a, follows (c_obj c w16 i) a = advances height i a).
  { intros [m|j]; unfold follows, advances; rewrite ?Hgi, Hidx; change (x_h (xb_params (c_obj c w16 i))) with height.
    - rewrite N.leb_refl. apply andb_true_r.
    - apply andb_comm. }
  assert (Est : forall a, advances height i a = false -> ref_step height sg i a = (i, snd (ref_step height sg i a)) /\
     step (mkXF (c_obj c w16 i) no_state) a = Ok (mkXF (c_obj c w16 i) no_state, snd (ref_step height sg i a))).
  { intros [m|j] Ha; unfold advances in Ha.
    - apply N.ltb_ge in Ha. assert (Ei : i = (2 ^ N.of_nat height)%N) by lia.
      cbn [ref_step]. rewrite (proj2 (N.ltb_ge _ _) Ha). cbn [snd]. split; [reflexivity|]. rewrite Ei. apply (sign_spent c w16 HC).
    - assert (Hn : ~ (i < j < 2 ^ N.of_nat height)%N).
      { intros [A B]. apply N.ltb_lt in A, B. rewrite A, B in Ha. discriminate. }
      assert (Ef : fst (ref_step height sg i (OpSetIndex j)) = i).
      { cbn [ref_step]. destruct ((j <? 2 ^ N.of_nat height) && (i <=? j))%N eqn:Eb; [|reflexivity].
        apply andb_true_iff in Eb. destruct Eb as [B1 B2]. apply N.ltb_lt in B1. apply N.leb_le in B2. cbn [fst]. lia. }
      split. { rewrite <- Ef at 2. now destruct (ref_step height sg i (OpSetIndex j)). }
      rewrite (setIndex_any c w16 HC i j no_state Hle Hn). change (c_height c) with height. change (c_sig c w16) with sg. now rewrite Ef. }
  set (w1 := mkW [None; own] [None; Some h1]).
  exists w1. split.
  { change [ACopy 0; ADestroy 0] with ([ACopy 0] ++ [ADestroy 0]). rewrite app_assoc, world_run_app, R. cbn [bind].
    cbn [world_run world_step w_objs w_bufs nth_error h_own upd bind app]. now rewrite app_nil_r. }
  assert (Hcall : forall h a, h_ptr h = 0 -> h_base h = c_obj c w16 i -> advances height i a = false ->
     world_step (mkW [None; own] [None; Some h]) (ACall 1 a) =
     Ok (mkW [None; own] [None; Some (mkH (c_obj c w16 i) (h_off h) 0 (h_own h))], [snd (ref_step height sg i a)])).
  { intros h a H0 H2 Ha. cbn [world_step w_objs w_bufs nth_error]. rewrite H0, H2. cbn [nth_error]. rewrite Hfol, Ha.
    destruct (Est a Ha) as (_ & Es). rewrite Es. reflexivity. }
  split.
  { intros a Ha. unfold w1. cbn [world_step w_objs w_bufs nth_error]. rewrite Hp, Hb. cbn [nth_error]. now rewrite Hfol, Ha. }
  unfold w1. clear w1 R Wb Ho. revert Hp Hb. generalize h1. clear h1.
  intros h1 Hp Hb cs. revert h1 Hp Hb. induction cs as [|a cs IH]; intros h1 Hp Hb Hcs; cbn [map world_run ref_run].
  - eexists. split; reflexivity.
  - assert (Ha : advances height i a = false) by (apply Hcs; now left).
    rewrite (Hcall h1 a Hp Hb Ha). cbn [bind]. destruct (Est a Ha) as (Er & _). rewrite Er. cbn [fst snd].
    destruct (IH (mkH (c_obj c w16 i) (h_off h1) 0 (h_own h1)) eq_refl eq_refl) as (w' & E1 & E2).
    { intros b0 Hb0. apply Hcs. now right. }
    rewrite E1. cbn [bind app]. destruct (ref_run height sg i cs) as [i2 os]. cbn [fst snd] in *. eexists. split; [reflexivity|exact E2].
Qed.

(** Destroying the copy does not disturb the original. *)
Theorem C78_original_outlives_copy : forall junk seed height hash hf fmt, supported hash hf 16 w16 height seed ->
  exists x, XmssFast_new junk seed (N.of_nat height) hash fmt = Ok x /\
    forall cs1 cs2 cs3,
      let sg := ref_sig hf w16 height seed in
      exists w, world_run (world_of x)
          (map (ACall 0) cs1 ++ [ACopy 0] ++ map (ACall 0) cs2 ++ [ADestroy 1] ++ map (ACall 0) cs3) =
        Ok (w, snd (ref_run height sg 0 (cs1 ++ cs2 ++ cs3))).
Proof.
  intros junk seed height hash hf fmt HS. pose proof (cfg_of _ _ _ _ _ _ fmt HS) as HC.
  destruct (XmssFast_new_spec junk seed height hash hf fmt HS) as (x & E & HI). exists x. split; auto.
  intros cs1 cs2 cs3 sg. destruct (two_objects hash hf height seed fmt HS x cs1 cs2 HI) as (b & own & y & h1 & R & Hp & Ho & Hb & Wb & HI2).
  fold sg in R, HI2. set (c := mkCfg hf hash 16 fmt height seed) in *.
  set (w1 := mkW _ _) in R.
  assert (HA : has w1 0 0 y).
  { do 2 eexists. cbn [w1 w_objs w_bufs nth_error]. split; [reflexivity|]. split; [reflexivity|]. cbn [h_ptr h_own h_base h_off].
    rewrite Wb. destruct y. auto. }
  destruct (destroy_has w1 1 h1 eq_refl) as (w2 & E2 & HD).
  specialize (HD 0 0 y ltac:(lia) ltac:(lia) HA).
  destruct (run_has c HC cs3 w2 0 0 _ y HD HI2) as (w3 & E3).
  exists w3. replace (map (ACall 0) cs1 ++ [ACopy 0] ++ map (ACall 0) cs2 ++ [ADestroy 1] ++ map (ACall 0) cs3)
    with ((map (ACall 0) cs1 ++ [ACopy 0] ++ map (ACall 0) cs2) ++ [ADestroy 1] ++ map (ACall 0) cs3) by now rewrite <- !app_assoc.
  rewrite world_run_app, R. cbn [bind]. rewrite world_run_app. cbn [world_run]. rewrite E2. cbn [bind app]. rewrite E3. cbn [bind app].
  rewrite (app_assoc cs1 cs2 cs3), (ref_run_app _ _ (cs1 ++ cs2)). cbn [snd].
  change (c_height c) with height. change (c_sig c w16) with sg. rewrite (ref_run_app _ _ cs1 cs2). cbn [fst]. reflexivity.
Qed.

(** Once its tree has been initialised again, the copy is independent of the original,
    but starts again with the one-time key 0. *)
Theorem C78_reinitialised_copy_is_independent : forall junk seed height hash hf fmt, supported hash hf 16 w16 height seed ->
  exists x, XmssFast_new junk seed (N.of_nat height) hash fmt = Ok x /\
    forall cs1 junk2 (l : list (bool * op)),
      let sg := ref_sig hf w16 height seed in
      let i := fst (ref_run height sg 0 cs1) in
      exists w os, world_run (world_of x)
          (map (ACall 0) cs1 ++ [ACopy 0; AInit 1 junk2] ++ map (fun x : bool * op => ACall (if fst x then 1 else 0) (snd x)) l) =
        Ok (w, snd (ref_run height sg 0 cs1) ++ os) /\ length os = length l /\
        obs_of false l os = snd (ref_run height sg i (calls_of false l)) /\
        obs_of true l os = snd (ref_run height sg 0 (calls_of true l)) /\
        (* and either may be destroyed without disturbing the other *)
        (forall cs, exists w', world_run w (ADestroy 0 :: map (ACall 1) cs) =
           Ok (w', snd (ref_run height sg (fst (ref_run height sg 0 (calls_of true l))) cs))) /\
        (forall cs, exists w', world_run w (ADestroy 1 :: map (ACall 0) cs) =
           Ok (w', snd (ref_run height sg (fst (ref_run height sg i (calls_of false l))) cs))).
Proof.
  intros junk seed height hash hf fmt HS. pose proof (cfg_of _ _ _ _ _ _ fmt HS) as HC.
  destruct (XmssFast_new_spec junk seed height hash hf fmt HS) as (x & E & HI). exists x. split; auto.
  intros cs1 junk2 l sg i. destruct (two_objects hash hf height seed fmt HS x cs1 [] HI) as (b & own & y & h1 & R & Hp & Ho & Hb & Wb & HI2).
  fold sg in R, Hb, HI2. fold i in Hb, HI2. cbn [map ref_run fst app] in R, HI2. rewrite app_nil_r in R.
  set (c := mkCfg hf hash 16 fmt height seed) in *.
  destruct (initialize_tree_spec c w16 HC junk2) as (z & Ez & HIz). cbn [c c_seed c_height c_hash c_fmt c_w] in Ez.
  set (w1 := mkW _ _) in R.
  assert (EI : world_step w1 (AInit 1 junk2) = Ok (mkW [Some b; None; Some (xf_state z)]
      [Some (mkH (xf_base y) (b_stackoffset (xf_state y)) 0 0); Some (mkH (xf_base z) (b_stackoffset (xf_state z)) 2 2)], [])).
  { cbn [world_step w1 w_objs w_bufs nth_error]. unfold xfast_initialize_tree. rewrite Hb. cbn [xf_base c_obj xb_seed xb_height xb_hash xb_fmt].
    cbn [c c_seed c_height c_hash c_fmt]. rewrite Ez. cbn [bind]. now rewrite Ho. }
  set (w2 := mkW _ _) in EI.
  assert (H0 : has w2 0 0 y).
  { do 2 eexists. cbn [w2 w_objs w_bufs nth_error]. split; [reflexivity|]. split; [reflexivity|]. cbn [h_ptr h_own h_base h_off].
    rewrite Wb. destruct y. auto. }
  assert (H1 : has w2 1 2 z).
  { do 2 eexists. cbn [w2 w_objs w_bufs nth_error]. split; [reflexivity|]. split; [reflexivity|]. cbn [h_ptr h_own h_base h_off].
    rewrite with_off_self. destruct z. auto. }
  destruct (run_two c HC l w2 0 2 i 0%N y z ltac:(lia) H0 H1 HI2 HIz) as (w3 & os & R1 & R2 & R3 & R4 & y0 & y1 & A0 & A1 & I0 & I1).
  change (c_height c) with height in *. change (c_sig c w16) with sg in *.
  exists w3, os. split.
  { change [ACopy 0; AInit 1 junk2] with ([ACopy 0] ++ [AInit 1 junk2]). rewrite <- app_assoc, app_assoc, world_run_app, R. cbn [bind].
    rewrite world_run_app. cbn [world_run]. rewrite EI. cbn [bind app]. rewrite R1. reflexivity. }
  split; [exact R2|]. split; [exact R3|]. split; [exact R4|]. split; intros cs.
  - destruct A0 as (h0 & b0 & Hn0 & Hb0 & _ & Ho0 & _). destruct (destroy_has w3 0 h0 Hn0) as (w4 & E4 & HD).
    specialize (HD 1 2 y1 ltac:(lia) ltac:(lia) A1). destruct (run_has c HC cs w4 1 2 _ y1 HD I1) as (w5 & E5).
    exists w5. cbn [world_run]. rewrite E4. cbn [bind]. rewrite E5. reflexivity.
  - destruct A1 as (h0 & b0 & Hn0 & Hb0 & _ & Ho0 & _). destruct (destroy_has w3 1 h0 Hn0) as (w4 & E4 & HD).
    specialize (HD 0 0 y0 ltac:(lia) ltac:(lia) A0). destruct (run_has c HC cs w4 0 0 _ y0 HD I0) as (w5 & E5).
    exists w5. cbn [world_run]. rewrite E4. cbn [bind]. rewrite E5. reflexivity.
Qed.

(** A key the theorems apply to; for it, an advancing call and one that is not. *)
Example C78_case : supported 1 SHAKE_128 16 w16 4 (repeat 7%N 48) /\
  advances 4 3 (OpSign []) = true /\ advances 4 3 (OpSetIndex 9) = true /\ advances 4 3 (OpSetIndex 2) = false /\ advances 4 16 (OpSign []) = false.
Proof. split; [unfold supported; repeat split; cbn; lia|]. repeat split. Qed.
