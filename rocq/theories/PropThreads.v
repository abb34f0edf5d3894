(** C83: threads sharing one XmssFast object. *)
(** Concrete cases for the hypotheses below: CasesXmss.v. *)
From Coq Require Import List NArith Arith Lia Bool.
From Verif Require Import Base Bytes Keccak KeccakLemmas Sha256 HashAddress Wots XmssCommon AlgsXmss AlgsXmssFast Descriptor
  SpecXmss SpecApi SpecForge SpecCopy XmssObj XmssRefine WotsProofs TreeProofs BasicProofs BdsSched BdsProofs BdsSetup FastProofs DescrProofs
  VerifyProofs PropObj PropKeys PropDomain PropWots PropVerify PropForge CopyProofs PropCopy Threads SpecThreads.
Import ListNotations.
Open Scope nat_scope.

(** ** One call, uninterrupted *)
Fixpoint drive (k : nat) (o : xfast) (p : pc) : res (xfast * obs) :=
  match k with
  | O => UB
  | S k' =>
      '(o', r) <- micro o p ;;
      match r with inl p' => drive k' o' p' | inr x => Ok (o', x) end
  end.

Lemma store_load_sk : forall (sk : list N) i, (i < 2 ^ 32)%N -> from_be (slice 0 4 (to_byte 4 i ++ skipn 4 sk)) = i.
Proof. intros sk i Hi. unfold slice. change (skipn 0 ?l) with l. rewrite (PropKeys.firstn_app_exact _ 4) by apply to_byte_length. now apply from_be_to_byte4. Qed.
Lemma skip_store : forall (sk : list N) i, skipn 4 (to_byte 4 i ++ skipn 4 sk) = skipn 4 sk.
Proof. intros. apply PropKeys.skipn_app_exact, to_byte_length. Qed.

(** The steps of [micro], made one after the other, are the call. *)
Lemma drive_is_step : forall o c, drive 7 o (Begin c) = step o c.
Proof.
  intros [b st] [m|j].
  - change (drive 7 (mkXF b st) (Begin (OpSign m))) with (drive 6 (mkXF b st) (GotIndex m (getIndex b))).
    unfold step, xfast_sign. cbn [xf_base].
    assert (Hi : (getIndex b < 2 ^ 32)%N) by (unfold getIndex, u32; apply N.mod_upper_bound; discriminate).
    set (i := getIndex b) in *. change (drive 6 (mkXF b st) (GotIndex m i)) with
      ('(o', r) <- check (mkXF b st) (Some m) i ;; match r with inl p' => drive 5 o' p' | inr x => Ok (o', x) end).
    unfold check, xfast_setIndex, with_hash. cbn [xf_base xf_state].
    destruct (hash_of_id (xb_hash b)) as [hf|] eqn:EH; [|reflexivity].
    assert (HU : forall sk st' r, xmssfast_update hf (xb_params b) (xb_sk b) st i = Ok (sk, st', inr r) ->
       sk = to_byte 4 i ++ skipn 4 (xb_sk b)).
    { intros sk st' r. unfold xmssfast_update. destruct (_ <=? _)%N; [discriminate|]. destruct (_ <? _)%N; [discriminate|].
      match goal with |- context [for_from ?a ?x ?f ?s] => destruct (for_from a x f s) as [s2|e|] end; cbn [bind]; try discriminate. congruence. }
    destruct (xmssfast_update hf (xb_params b) (xb_sk b) st i) as [[[sk1 st1] [e|[]]]|e|]; cbn [bind]; try reflexivity.
    specialize (HU _ _ _ eq_refl). subst sk1.
    change (drive 5 ?o (Checked (Some m) i)) with (drive 4 (store_index o i) (Written m)).
    change (drive 4 ?o (Written m)) with (drive 3 o (Loaded m (load_index o))).
    unfold store_index, load_index. cbn [xf_base xf_state with_sk xb_sk].
    rewrite (store_load_sk _ _ Hi). change (drive 3 ?o (Loaded m i)) with (drive 2 (store_index o (i + 1)) (Bumped m i)).
    unfold store_index. cbn [xf_base xf_state with_sk xb_sk]. rewrite skip_store.
    match goal with |- drive 2 ?o ?p = _ => change (drive 2 o p) with ('(o', r) <- micro o p ;; match r with inl p' => drive 1 o' p' | inr x => Ok (o', x) end) end.
    unfold micro, with_hash, store_index. cbn [xf_base xf_state with_sk xb_sk xb_hash xb_params]. rewrite EH, skip_store.
    unfold xmssfast_Signmsg. rewrite (store_load_sk _ _ Hi). rewrite skip_store.
    destruct (get_seed _ _ _) as [os a]. destruct (wots_sign _ _ _ _ _ _) as [[wsig oa]|e|]; cbn [bind]; try reflexivity.
    match goal with |- context [if ?t then ?x else ?y] => destruct (if t then x else y) as [st2|e|] end; cbn [bind]; reflexivity.
  - change (drive 7 (mkXF b st) (Begin (OpSetIndex j))) with
      ('(o', r) <- check (mkXF b st) None j ;; match r with inl p' => drive 6 o' p' | inr x => Ok (o', x) end).
    unfold step, check, xfast_setIndex, with_hash. cbn [xf_base xf_state].
    destruct (hash_of_id (xb_hash b)) as [hf|] eqn:EH; [|reflexivity].
    assert (HU : forall sk st' r, xmssfast_update hf (xb_params b) (xb_sk b) st j = Ok (sk, st', inr r) ->
       sk = to_byte 4 j ++ skipn 4 (xb_sk b)).
    { intros sk st' r. unfold xmssfast_update. destruct (_ <=? _)%N; [discriminate|]. destruct (_ <? _)%N; [discriminate|].
      match goal with |- context [for_from ?a ?x ?f ?s] => destruct (for_from a x f s) as [s2|e|] end; cbn [bind]; try discriminate. congruence. }
    destruct (xmssfast_update hf (xb_params b) (xb_sk b) st j) as [[[sk1 st1] [e|[]]]|e|]; cbn [bind]; try reflexivity.
    specialize (HU _ _ _ eq_refl). subst sk1. reflexivity.
Qed.

Lemma calls_by_snoc : forall t log e, calls_by t (log ++ [e]) = calls_by t log ++ (if caller e =? t then [call e] else []).
Proof.
  intros t log e. unfold calls_by. rewrite filter_app, map_app. cbn [filter]. now destruct (caller e =? t).
Qed.

Lemma ref_run_snoc : forall h sig l cl, ref_run h sig 0 (l ++ [cl]) =
  (fst (ref_step h sig (fst (ref_run h sig 0 l)) cl), snd (ref_run h sig 0 l) ++ [snd (ref_step h sig (fst (ref_run h sig 0 l)) cl)]).
Proof. intros. rewrite ref_run_app. cbn [ref_run]. destruct (ref_step h sig (fst (ref_run h sig 0 l)) cl) as [i1 x1]. reflexivity. Qed.

Section Locked.
  Variables (hash : N) (hf : hashfn) (height : nat) (seed : list N) (fmt : N).
  Hypothesis HS : supported hash hf 16 w16 height seed.
  Let c := mkCfg hf hash 16 fmt height seed.
  Let HC : cfg_ok c w16 := cfg_of _ _ _ _ _ _ fmt HS.
  Local Notation sg := (ref_sig hf w16 height seed).

  Definition cur (th : thread) : list op := match t_run th with Some (cl, _) => [cl] | None => [] end.
  Record lock_inv (progs : list (list op)) (s : sys) : Prop := mkLI {
    li_log : sequential height sg (s_log s);
    li_len : length (s_threads s) = length progs;
    li_progs : forall t th, nth_error (s_threads s) t = Some th -> nth_error progs t = Some (calls_by t (s_log s) ++ cur th ++ t_todo th);
    li_idle : forall t th, nth_error (s_threads s) t = Some th -> s_holder s <> Some t -> t_run th = None;
    li_obj : let i := fst (ref_run height sg 0 (map call (s_log s))) in
      match s_holder s with
      | None => fast_inv c w16 i (s_obj s)
      | Some t => exists th cl p k o0, nth_error (s_threads s) t = Some th /\ t_run th = Some (cl, p) /\
                    fast_inv c w16 i o0 /\ drive k (s_obj s) p = step o0 cl
      end }.

  Lemma start_inv : forall x progs, fast_inv c w16 0 x -> lock_inv progs (start x progs).
  Proof.
    intros x progs HI. constructor; cbn [start s_log s_threads s_holder s_obj map ref_run fst]; auto.
    - reflexivity.
    - apply map_length.
    - intros t th E. rewrite nth_error_map in E. destruct (nth_error progs t) as [p|]; [|discriminate]. injection E as <-. reflexivity.
    - intros t th E _. rewrite nth_error_map in E. destruct (nth_error progs t) as [p|]; [|discriminate]. injection E as <-. reflexivity.
  Qed.

  (** Work left: upper bound on the steps the threads still have to make. *)
  Definition left_pc (p : pc) : nat :=
    match p with Begin _ => 7 | GotIndex _ _ => 6 | Checked _ _ => 5 | Written _ => 4 | Loaded _ _ => 3 | Bumped _ _ => 2 end.
  Definition left_th (th : thread) : nat := match t_run th with Some (_, p) => left_pc p | None => 0 end + 8 * length (t_todo th).
  Definition work (s : sys) : nat := list_sum (map left_th (s_threads s)).

  Lemma sum_upd : forall l t th th', nth_error l t = Some th -> left_th th' < left_th th ->
    list_sum (map left_th (upd l t th')) < list_sum (map left_th l).
  Proof.
    induction l as [|a l IH]; intros [|t] th th' E Hlt; cbn [upd map list_sum fold_right nth_error] in *; try discriminate.
    - injection E as ->. lia.
    - specialize (IH _ _ _ E Hlt). unfold list_sum in IH. lia.
  Qed.
  Lemma micro_less : forall o p o' p', micro o p = Ok (o', inl p') -> left_pc p' < left_pc p.
  Proof.
    intros o p o' p' E. destruct p as [[m|j]|m i|[m|] i|m|m i|m i]; cbn [micro] in E; unfold check, with_hash in E.
    - apply Ok_inj, pair_equal_spec in E. destruct E as [_ E]. injection E as <-. cbn. lia.
    - destruct (xfast_setIndex o j) as [[o2 [e|n]]|e|]; cbn [bind] in E; try discriminate.
      apply Ok_inj, pair_equal_spec in E. destruct E as [_ E]. injection E as <-. cbn. lia.
    - destruct (xfast_setIndex o i) as [[o2 [e|n]]|e|]; cbn [bind] in E; try discriminate.
      apply Ok_inj, pair_equal_spec in E. destruct E as [_ E]. injection E as <-. cbn. lia.
    - apply Ok_inj, pair_equal_spec in E. destruct E as [_ E]. injection E as <-. cbn. lia.
    - apply Ok_inj, pair_equal_spec in E. destruct E as [_ E]. discriminate.
    - apply Ok_inj, pair_equal_spec in E. destruct E as [_ E]. injection E as <-. cbn. lia.
    - apply Ok_inj, pair_equal_spec in E. destruct E as [_ E]. injection E as <-. cbn. lia.
    - destruct (hash_of_id _) as [hf'|]; [|discriminate]. destruct (xmssfast_Signmsg _ _ _ _ _) as [[[a b] z]|e|]; cbn [bind] in E; discriminate.
  Qed.

  Lemma locked_step : forall progs s t, lock_inv progs s ->
    exists s', sched_step true s t = Ok s' /\ lock_inv progs s' /\
      (s' = s \/ work s' < work s) /\
      (forall th, nth_error (s_threads s) t = Some th ->
         match s_holder s with Some t' => t' = t | None => t_todo th <> [] end -> work s' < work s).
  Proof.
    intros progs s t [L1 L2 L3 L4 L5]. cbn zeta in L5. unfold sched_step.
    destruct (nth_error (s_threads s) t) as [th|] eqn:Et.
    2:{ exists s. split; [reflexivity|]. split; [constructor; auto|]. split; [now left|]. intros th F. discriminate F. }
    assert (Hlt : t < length (s_threads s)) by (apply nth_error_Some; congruence).
    destruct (t_run th) as [[cl p]|] eqn:Er.
    - (* a call under way: this thread holds the mutex *)
      assert (Hh : s_holder s = Some t).
      { destruct (s_holder s) as [t'|] eqn:Eh.
        - destruct (Nat.eq_dec t' t) as [->|Hne]; [reflexivity|]. rewrite (L4 t th Et) in Er by congruence. discriminate.
        - rewrite (L4 t th Et) in Er by congruence. discriminate. }
      rewrite Hh in L5. destruct L5 as (th0 & cl0 & p0 & k & o0 & F1 & F2 & HI & HD).
      assert (th0 = th) by congruence. subst th0. assert (cl0 = cl /\ p0 = p) as [-> ->] by (rewrite Er in F2; injection F2 as -> ->; auto).
      destruct (step_spec c w16 HC o0 _ cl HI) as (y & Ey & HI' & _). change (c_height c) with height in *. change (c_sig c w16) with sg in *.
      set (i := fst (ref_run height sg 0 (map call (s_log s)))) in *.
      rewrite Ey in HD. destruct k as [|k]; cbn [drive] in HD; [discriminate|].
      destruct (micro (s_obj s) p) as [[o' r]|e|] eqn:Em; cbn [bind] in HD |- *; try discriminate.
      destruct r as [p'|x].
      + eexists. split; [reflexivity|]. pose proof (micro_less _ _ _ _ Em) as Hless.
        assert (Hw : left_th (mkT (Some (cl, p')) (t_todo th)) < left_th th) by (unfold left_th; cbn [t_run t_todo]; rewrite Er; lia).
        split; [|split; [right; exact (sum_upd _ _ _ _ Et Hw)|intros; exact (sum_upd _ _ _ _ Et Hw)]].
        constructor; cbn [s_log s_threads s_holder s_obj]; auto.
        * now rewrite upd_length.
        * intros t' th' E'. destruct (Nat.eq_dec t t') as [<-|Hne].
          -- rewrite nth_error_upd_same in E' by exact Hlt. injection E' as <-. unfold cur. cbn [t_run t_todo]. rewrite (L3 t th Et). unfold cur. now rewrite Er.
          -- rewrite nth_error_upd_other in E' by exact Hne. now apply L3.
        * intros t' th' E' Hn. destruct (Nat.eq_dec t t') as [<-|Hne]; [congruence|].
          rewrite nth_error_upd_other in E' by exact Hne. now apply (L4 t').
        * rewrite Hh. exists (mkT (Some (cl, p')) (t_todo th)), cl, p', k, o0. rewrite nth_error_upd_same by exact Hlt. cbn [t_run].
          split; [reflexivity|]. split; [reflexivity|]. split; [exact HI|]. now rewrite HD, Ey.
      + apply Ok_inj, pair_equal_spec in HD. destruct HD as [<- ->]. eexists. split; [reflexivity|].
        assert (Hw : left_th (mkT None (t_todo th)) < left_th th) by (unfold left_th; cbn [t_run t_todo]; rewrite Er; destruct p; cbn; lia).
        split; [|split; [right; exact (sum_upd _ _ _ _ Et Hw)|intros; exact (sum_upd _ _ _ _ Et Hw)]].
        assert (EQ : ref_run height sg 0 (map call (s_log s ++ [(t, cl, snd (ref_step height sg i cl))])) =
                     (fst (ref_step height sg i cl), snd (ref_run height sg 0 (map call (s_log s))) ++ [snd (ref_step height sg i cl)])).
        { unfold i. rewrite map_app. apply ref_run_snoc. }
        constructor; cbn [s_log s_threads s_holder s_obj].
        * unfold sequential in *. rewrite EQ. cbn [snd]. rewrite map_app, L1. reflexivity.
        * now rewrite upd_length.
        * intros t' th' E'. rewrite calls_by_snoc. cbn [caller fst]. destruct (Nat.eq_dec t t') as [<-|Hne].
          -- rewrite nth_error_upd_same in E' by exact Hlt. injection E' as <-. unfold cur. cbn [t_run t_todo]. rewrite (L3 t th Et). unfold cur. rewrite Er.
             unfold caller. cbn [fst]. rewrite Nat.eqb_refl. now rewrite <- app_assoc.
          -- rewrite nth_error_upd_other in E' by exact Hne. unfold caller. cbn [fst]. rewrite (proj2 (Nat.eqb_neq _ _) Hne), app_nil_r. now apply L3.
        * intros t' th' E' _. destruct (Nat.eq_dec t t') as [<-|Hne].
          -- rewrite nth_error_upd_same in E' by exact Hlt. injection E' as <-. reflexivity.
          -- rewrite nth_error_upd_other in E' by exact Hne. apply (L4 t' th' E'). rewrite Hh. congruence.
        * cbn zeta. rewrite EQ. cbn [fst]. exact HI'.
    - destruct (t_todo th) as [|cl rest] eqn:Ed.
      { exists s. split; [reflexivity|]. split; [constructor; auto|]. split; [now left|]. intros th' F. injection F as <-.
        destruct (s_holder s) as [t'|] eqn:Eh; [|intros X; now rewrite Ed in X].
        intros ->. exfalso. destruct L5 as (th0 & cl0 & p0 & k & o0 & F1 & F2 & _). congruence. }
      destruct (s_holder s) as [t'|] eqn:Eh.
      { exists s. split; [reflexivity|]. split; [constructor; auto; rewrite Eh; auto|]. split; [now left|]. intros th' F. injection F as <-. intros ->.
        exfalso. destruct L5 as (th0 & cl0 & p0 & k & o0 & F1 & F2 & _). congruence. }
      eexists. split; [reflexivity|].
      assert (Hw : left_th (mkT (Some (cl, Begin cl)) rest) < left_th th) by (unfold left_th; cbn [t_run t_todo]; rewrite Er, Ed; cbn [length left_pc]; lia).
      split; [|split; [right; exact (sum_upd _ _ _ _ Et Hw)|intros; exact (sum_upd _ _ _ _ Et Hw)]].
      constructor; cbn [s_log s_threads s_holder s_obj]; auto.
      + now rewrite upd_length.
      + intros t' th' E'. destruct (Nat.eq_dec t t') as [<-|Hne].
        * rewrite nth_error_upd_same in E' by exact Hlt. injection E' as <-. unfold cur. cbn [t_run t_todo]. rewrite (L3 t th Et). unfold cur. now rewrite Er, Ed.
        * rewrite nth_error_upd_other in E' by exact Hne. now apply L3.
      + intros t' th' E' Hn. destruct (Nat.eq_dec t t') as [<-|Hne]; [congruence|].
        rewrite nth_error_upd_other in E' by exact Hne. apply (L4 t' th' E'). congruence.
      + exists (mkT (Some (cl, Begin cl)) rest), cl, (Begin cl), 7, (s_obj s). rewrite nth_error_upd_same by exact Hlt. cbn [t_run].
        split; [reflexivity|]. split; [reflexivity|]. split; [exact L5|]. apply drive_is_step.
  Qed.
  Lemma locked_run : forall progs ts s, lock_inv progs s -> exists s', sched_run true s ts = Ok s' /\ lock_inv progs s'.
  Proof.
    induction ts as [|t ts IH]; intros s HL; cbn [sched_run]; [eauto|].
    destruct (locked_step progs s t HL) as (s1 & E1 & H1 & _). rewrite E1. cbn [bind]. now apply IH.
  Qed.

  (** Nothing is left to do, or some thread can move. *)
  Lemma can_move : forall progs s, lock_inv progs s ->
    (forall t p, nth_error progs t = Some p -> calls_by t (s_log s) = p) \/
    exists t s', sched_step true s t = Ok s' /\ lock_inv progs s' /\ work s' < work s.
  Proof.
    intros progs s HL. pose proof HL as [L1 L2 L3 L4 L5]. cbn zeta in L5. destruct (s_holder s) as [t|] eqn:Eh.
    - right. destruct L5 as (th & cl & p & k & o0 & F1 & _). destruct (locked_step progs s t HL) as (s' & E & HL' & _ & Hw).
      exists t, s'. split; [exact E|]. split; [exact HL'|]. apply (Hw th F1). now rewrite Eh.
    - assert (D : (forall t th, nth_error (s_threads s) t = Some th -> t_todo th = []) \/
                  exists t th, nth_error (s_threads s) t = Some th /\ t_todo th <> []).
      { clear. induction (s_threads s) as [|th l [IH|(t & th' & E & N)]].
        - left. intros [|t] th E; discriminate E.
        - destruct (t_todo th) as [|cl r] eqn:Ed.
          + left. intros [|t] th' E; cbn [nth_error] in E; [injection E as <-; exact Ed|eauto].
          + right. exists 0, th. split; [reflexivity|]. congruence.
        - right. exists (S t), th'. auto. }
      destruct D as [D|(t & th & E & N)].
      + left. intros t p Ep. destruct (nth_error (s_threads s) t) as [th|] eqn:Et.
        2:{ apply nth_error_None in Et. assert (t < length progs) by (apply nth_error_Some; congruence). lia. }
        pose proof (L3 t th Et) as X. rewrite (D t th Et) in X. unfold cur in X. rewrite (L4 t th Et), !app_nil_r in X by congruence. congruence.
      + right. destruct (locked_step progs s t HL) as (s' & E' & HL' & _ & Hw). exists t, s'. split; [exact E'|]. split; [exact HL'|].
        apply (Hw th E). now rewrite Eh.
  Qed.
  Lemma can_finish : forall progs n s, work s <= n -> lock_inv progs s ->
    exists ts s', sched_run true s ts = Ok s' /\ forall t p, nth_error progs t = Some p -> calls_by t (s_log s') = p.
  Proof.
    induction n as [|n IH]; intros s Hn HL; destruct (can_move progs s HL) as [D|(t & s1 & E & HL1 & Hw)]; try lia.
    - exists [], s. auto.
    - exists [], s. auto.
    - destruct (IH s1 ltac:(lia) HL1) as (ts & s' & E' & D). exists (t :: ts), s'. cbn [sched_run]. rewrite E. cbn [bind]. auto.
  Qed.
End Locked.

(** Callers that take a mutex around every call: under every schedule, what they see is what
    one thread making the same calls in some order would have seen, each thread's calls in
    its own order; the object never gets stuck. *)
Theorem C83_locked_schedules : forall junk seed height hash hf fmt, supported hash hf 16 w16 height seed ->
  exists x, XmssFast_new junk seed (N.of_nat height) hash fmt = Ok x /\
    forall progs sched, exists s, sched_run true (start x progs) sched = Ok s /\
      sequential height (ref_sig hf w16 height seed) (s_log s) /\
      (forall t p, nth_error progs t = Some p -> exists rest, p = calls_by t (s_log s) ++ rest) /\
      (s_holder s = None -> getIndex (xf_base (s_obj s)) = fst (ref_run height (ref_sig hf w16 height seed) 0 (map call (s_log s)))) /\
      (* from here all calls can still be completed *)
      exists sched' s', sched_run true s sched' = Ok s' /\
        forall t p, nth_error progs t = Some p -> calls_by t (s_log s') = p.
Proof.
  intros junk seed height hash hf fmt HS.
  destruct (XmssFast_new_spec junk seed height hash hf fmt HS) as (x & E & HI). exists x. split; auto.
  intros progs sched. pose proof (start_inv hash hf height seed fmt x progs HI) as H0.
  destruct (locked_run hash hf height seed fmt HS progs sched _ H0) as (s & Er & HL). exists s. split; [exact Er|].
  pose proof HL as [L1 L2 L3 L4 L5]. split; [exact L1|]. split; [|split].
  - intros t p Ep. destruct (nth_error (s_threads s) t) as [th|] eqn:Et.
    + pose proof (L3 t th Et) as X. exists (cur th ++ t_todo th). congruence.
    + apply nth_error_None in Et. assert (t < length progs) by (apply nth_error_Some; congruence). lia.
  - intros Eh. cbn zeta in L5. rewrite Eh in L5. exact (inv_getIndex hash hf height seed fmt HS _ _ L5).
  - exact (can_finish hash hf height seed fmt HS progs _ s (Nat.le_refl _) HL).
Qed.

(** So no one-time key signs twice, whichever threads make the calls, and every signature
    verifies. *)
Theorem C83_locked_no_reuse : forall junk seed height hash hf fmt, supported hash hf 16 w16 height seed ->
  exists x, XmssFast_new junk seed (N.of_nat height) hash fmt = Ok x /\
    forall progs sched s, sched_run true (start x progs) sched = Ok s ->
      (forall n1 n2 e1 e2 s1 s2, n1 < n2 -> nth_error (s_log s) n1 = Some e1 -> nth_error (s_log s) n2 = Some e2 ->
         outcome e1 = ObsSig s1 -> outcome e2 = ObsSig s2 -> (sig_index s1 < sig_index s2 < 2 ^ N.of_nat height)%N) /\
      (forall e msg sg, In e (s_log s) -> call e = OpSign msg -> outcome e = ObsSig sg ->
         verify msg sg (getPK (xf_base x)) 16 = Ok true).
Proof.
  intros junk seed height hash hf fmt HS.
  destruct (C83_locked_schedules junk seed height hash hf fmt HS) as (x & E & HA). exists x. split; auto.
  destruct (C21_indices_strictly_increase junk seed height hash hf fmt HS) as (x1 & E1 & H21). assert (x1 = x) by congruence. subst x1.
  destruct (C18_fast_signatures_verify junk seed height hash hf fmt HS) as (x1 & E2 & H18). assert (x1 = x) by congruence. subst x1.
  destruct (new_run hash hf height seed fmt HS junk) as (x1 & E3 & HR). assert (x1 = x) by congruence. subst x1.
  intros progs sched s Er. destruct (HA progs sched) as (s' & Er' & Hq & _). assert (s' = s) by congruence. subst s'.
  destruct (HR (map call (s_log s))) as (y & Ey & _). unfold sequential in Hq. rewrite <- Hq in Ey. split.
  - intros n1 n2 e1 e2 s1 s2 Hlt N1 N2 O1 O2.
    apply (H21 _ _ _ Ey n1 n2 s1 s2 Hlt); [now rewrite nth_error_map, N1, <- O1|now rewrite nth_error_map, N2, <- O2].
  - intros e msg z Hin Hc Ho. apply In_nth_error in Hin. destruct Hin as [n Hn].
    destruct (H18 (map call (s_log s))) as (y' & os & Ey' & _ & _ & HV). assert (os = map outcome (s_log s)) by congruence. subst os.
    apply (HV n msg z); [now rewrite nth_error_map, Hn, <- Hc|now rewrite nth_error_map, Hn, <- Ho].
Qed.

(** ** Without a mutex *)
Section Races.
  Variables (hash : N) (hf : hashfn) (height : nat) (seed : list N) (fmt : N).
  Hypothesis HS : supported hash hf 16 w16 height seed.
  Let c := mkCfg hf hash 16 fmt height seed.
  Let HC : cfg_ok c w16 := cfg_of _ _ _ _ _ _ fmt HS.
  Local Notation sg := (ref_sig hf w16 height seed).
  Local Notation at_ i st := (mkXF (c_obj c w16 i) st).

  Lemma store_at : forall i j st, store_index (at_ i st) j = at_ j st.
  Proof.
    intros i j st. unfold store_index. cbn [xf_base xf_state c_obj xb_sk].
    destruct (sk_parts c w16 HC i) as (_ & _ & _ & _ & P5). rewrite P5. reflexivity.
  Qed.
  Lemma load_at : forall i st, (i <= 2 ^ N.of_nat height)%N -> load_index (at_ i st) = i.
  Proof. intros i st Hi. unfold load_index. cbn [xf_base c_obj xb_sk]. now apply (sk_index c w16 HC). Qed.
  Lemma get_at : forall i, (i <= 2 ^ N.of_nat height)%N -> getIndex (c_obj c w16 i) = i.
  Proof.
    intros i Hi. unfold getIndex. cbn [c_obj xb_sk]. rewrite (sk_index c w16 HC) by exact Hi.
    unfold u32. apply N.mod_small. pose proof (pow_H_bound c w16 HC) as Hp. cbn [c c_height] in Hp.
    change (2 ^ 32)%N with 4294967296%N. change (2 ^ 30)%N with 1073741824%N in *. lia.
  Qed.
  Lemma check_at : forall i st k, (i < 2 ^ N.of_nat height)%N -> check (at_ i st) k i = Ok (at_ i st, inl (Checked k i)).
  Proof.
    intros i st k Hi. unfold check, xfast_setIndex. cbn [xf_base xf_state c_obj xb_hash xb_params xb_sk]. unfold with_hash. rewrite (co_hash _ _ HC).
    unfold xmssfast_update. rewrite (sk_index c w16 HC) by (cbn [c c_height]; lia). change (x_h (c_params c)) with height.
    rewrite (proj2 (N.leb_gt _ _) Hi), N.ltb_irrefl, Nat.sub_diag. reflexivity.
  Qed.
  Lemma check_behind : forall i j st k, (j < i <= 2 ^ N.of_nat height)%N -> check (at_ i st) k j = Ok (at_ i st, inr (ObsExn InvalidArgument)).
  Proof.
    intros i j st k Hj. unfold check, xfast_setIndex. cbn [xf_base xf_state c_obj xb_hash xb_params xb_sk]. unfold with_hash. rewrite (co_hash _ _ HC).
    unfold xmssfast_update. rewrite (sk_index c w16 HC) by (cbn [c c_height]; lia). change (x_h (c_params c)) with height.
    rewrite (proj2 (N.leb_gt _ _)) by lia. rewrite (proj2 (N.ltb_lt _ _)) by lia. reflexivity.
  Qed.
  (** The last step of sign: what it signs with is decided by the index it read. *)
  Lemma bumped_at : forall i m st, (i < 2 ^ N.of_nat height)%N -> exists a, root_adrs a /\
    micro (at_ (i + 1) st) (Bumped m i) =
      (st' <- (if (i <? 2 ^ N.of_nat height - 1)%N then bds_step hf (c_params c) (key_seed seed) (key_pub seed) a (N.to_nat i) st else Ok st) ;;
       Ok (at_ (i + 1) st', inr (ObsSig (front c w16 (N.to_nat i) m ++ concat (firstn height (b_auth st)))))).
  Proof.
    intros i m st Hi. destruct (sign_any c w16 HC i m st) as (a & A & Es); [exact Hi|]. exists a. split; [exact A|].
    rewrite <- drive_is_step in Es.
    change (drive 7 (at_ i st) (Begin (OpSign m))) with (drive 6 (at_ i st) (GotIndex m (getIndex (c_obj c w16 i)))) in Es.
    rewrite get_at in Es by lia.
    change (drive 6 (at_ i st) (GotIndex m i)) with
      ('(o', r) <- check (at_ i st) (Some m) i ;; match r with inl p' => drive 5 o' p' | inr x => Ok (o', x) end) in Es.
    rewrite (check_at i st (Some m) Hi) in Es. cbn [bind] in Es.
    change (drive 5 ?o (Checked (Some m) i)) with (drive 4 (store_index o i) (Written m)) in Es. rewrite store_at in Es.
    change (drive 4 ?o (Written m)) with (drive 3 o (Loaded m (load_index o))) in Es. rewrite load_at in Es by lia.
    change (drive 3 ?o (Loaded m i)) with (drive 2 (store_index o (i + 1)) (Bumped m i)) in Es. rewrite store_at in Es.
    change (drive 2 ?o (Bumped m i)) with ('(o', r) <- micro o (Bumped m i) ;; match r with inl p' => drive 1 o' p' | inr x => Ok (o', x) end) in Es.
    change (c_height c) with height in Es. change (c_hf c) with hf in Es. change (c_seed c) with seed in Es.
    assert (G : forall q : res (xfast * (pc + obs)),
      (exists z, q = Ok z) \/ q = UB \/ (exists e, q = Exn e)) by (intros [z|e|]; eauto).
    match goal with |- ?q = bind ?b _ => destruct b as [st'|e|] end; cbn [bind] in Es |- *.
    - destruct (micro (at_ (i + 1) st) (Bumped m i)) as [[o' [p'|x]]|e|] eqn:Em; cbn [bind] in Es; try discriminate.
      + exfalso. cbn [micro] in Em. unfold with_hash in Em. destruct (hash_of_id _) as [h2|]; [|discriminate].
        destruct (xmssfast_Signmsg _ _ _ _ _) as [[[u v] w]|e|]; cbn [bind] in Em; discriminate.
      + apply Ok_inj, pair_equal_spec in Es. destruct Es as [-> ->]. reflexivity.
    - destruct (micro (at_ (i + 1) st) (Bumped m i)) as [[o' [p'|x]]|e'|] eqn:Em; cbn [bind] in Es; try discriminate.
      + exfalso. cbn [micro] in Em. unfold with_hash in Em. destruct (hash_of_id _) as [h2|]; [|discriminate].
        destruct (xmssfast_Signmsg _ _ _ _ _) as [[[u v] w]|e2|]; cbn [bind] in Em; discriminate.
      + congruence.
    - destruct (micro (at_ (i + 1) st) (Bumped m i)) as [[o' [p'|x]]|e'|] eqn:Em; cbn [bind] in Es; try discriminate.
      + exfalso. cbn [micro] in Em. unfold with_hash in Em. destruct (hash_of_id _) as [h2|]; [|discriminate].
        destruct (xmssfast_Signmsg _ _ _ _ _) as [[[u v] w]|e2|]; cbn [bind] in Em; discriminate.
      + reflexivity.
  Qed.

  Lemma sched_run_app : forall l a b s, sched_run l s (a ++ b) = (s' <- sched_run l s a ;; sched_run l s' b).
  Proof.
    induction a as [|t a IH]; intros b s; cbn [app sched_run]; [reflexivity|].
    destruct (sched_step l s t) as [s'|e|]; cbn [bind]; auto.
  Qed.
  Lemma L_start : forall o ths log t cl rest, nth_error ths t = Some (mkT None (cl :: rest)) ->
    sched_step false (mkSys o None ths log) t = Ok (mkSys o None (upd ths t (mkT (Some (cl, Begin cl)) rest)) log).
  Proof. intros o ths log t cl rest E. unfold sched_step. cbn [s_threads]. rewrite E. reflexivity. Qed.
  Lemma L_move : forall o o' ths log t cl p p' td, nth_error ths t = Some (mkT (Some (cl, p)) td) -> micro o p = Ok (o', inl p') ->
    sched_step false (mkSys o None ths log) t = Ok (mkSys o' None (upd ths t (mkT (Some (cl, p')) td)) log).
  Proof. intros o o' ths log t cl p p' td E Em. unfold sched_step. cbn [s_threads s_obj]. rewrite E. cbn [t_run]. rewrite Em. reflexivity. Qed.
  Lemma L_ret : forall o o' ths log t cl p x td, nth_error ths t = Some (mkT (Some (cl, p)) td) -> micro o p = Ok (o', inr x) ->
    sched_step false (mkSys o None ths log) t = Ok (mkSys o' None (upd ths t (mkT None td)) (log ++ [(t, cl, x)])).
  Proof. intros o o' ths log t cl p x td E Em. unfold sched_step. cbn [s_threads s_obj]. rewrite E. cbn [t_run]. rewrite Em. reflexivity. Qed.

  Section Thread.
    Variables (i : N) (st : bds_state) (ths : list thread) (log : list event) (t : nat) (m : list N) (rest : list op).
    Hypothesis Hi : (i < 2 ^ N.of_nat height)%N.
    Hypothesis Ht : nth_error ths t = Some (mkT None (OpSign m :: rest)).
    Local Notation st_ p := (mkSys (at_ i st) None (upd ths t (mkT (Some (OpSign m, p)) rest)) log).
    Lemma th_lt : t < length ths.
    Proof. apply nth_error_Some. rewrite Ht. discriminate. Qed.
    Lemma th_at : forall a, nth_error (upd ths t a) t = Some a.
    Proof. intros a. apply nth_error_upd_same, th_lt. Qed.
    Lemma to_got : sched_run false (mkSys (at_ i st) None ths log) (repeat t 2) = Ok (st_ (GotIndex m i)).
    Proof.
      cbn [repeat sched_run]. rewrite (L_start _ _ _ _ _ _ Ht). cbn [bind].
      rewrite (L_move (at_ i st) (at_ i st) _ _ _ _ _ (GotIndex m i) _ (th_at _)). { cbn [bind]. now rewrite upd_twice. }
      cbn [micro xf_base]. rewrite get_at by lia. reflexivity.
    Qed.
    Lemma to_checked : sched_run false (mkSys (at_ i st) None ths log) (repeat t 3) = Ok (st_ (Checked (Some m) i)).
    Proof.
      change (repeat t 3) with (repeat t 2 ++ [t]). rewrite sched_run_app, to_got. cbn [bind sched_run].
      rewrite (L_move (at_ i st) (at_ i st) _ _ _ _ _ (Checked (Some m) i) _ (th_at _)). { cbn [bind]. now rewrite upd_twice. }
      exact (check_at i st (Some m) Hi).
    Qed.
    Lemma to_loaded : sched_run false (mkSys (at_ i st) None ths log) (repeat t 5) = Ok (st_ (Loaded m i)).
    Proof.
      change (repeat t 5) with (repeat t 3 ++ [t; t]). rewrite sched_run_app, to_checked. cbn [bind sched_run].
      rewrite (L_move (at_ i st) (at_ i st) _ _ _ _ _ (Written m) _ (th_at _)) by (cbn [micro]; now rewrite store_at). cbn [bind].
      rewrite upd_twice.
      rewrite (L_move (at_ i st) (at_ i st) _ _ _ _ _ (Loaded m i) _ (th_at _)) by (cbn [micro]; now rewrite load_at by lia). cbn [bind].
      now rewrite upd_twice.
    Qed.
    (** A whole call of sign by one thread. *)
    Lemma whole : fast_inv c w16 i (at_ i st) -> exists st', fast_inv c w16 (i + 1) (at_ (i + 1) st') /\
      sched_run false (mkSys (at_ i st) None ths log) (repeat t 7) =
        Ok (mkSys (at_ (i + 1) st') None (upd ths t (mkT None rest)) (log ++ [(t, OpSign m, ObsSig (sg (N.to_nat i) m))])).
    Proof.
      intros HI. destruct (step_spec c w16 HC (at_ i st) i (OpSign m) HI) as (y & Ey & HI' & _).
      change (c_height c) with height in *. change (c_sig c w16) with sg in *. cbn [ref_step] in Ey, HI'.
      rewrite (proj2 (N.ltb_lt _ _) Hi) in Ey, HI'. cbn [fst snd] in Ey, HI'.
      destruct y as [b st']. pose proof HI' as (Eb & _). cbn [xf_base] in Eb. subst b. exists st'. split; [exact HI'|].
      change (repeat t 7) with (repeat t 5 ++ [t; t]). rewrite sched_run_app, to_loaded. cbn [bind sched_run].
      rewrite (L_move (at_ i st) (at_ (i + 1) st) _ _ _ _ _ (Bumped m i) _ (th_at _)) by (cbn [micro]; now rewrite store_at). cbn [bind].
      rewrite upd_twice.
      rewrite (L_ret (at_ (i + 1) st) (at_ (i + 1) st') _ _ _ _ _ (ObsSig (sg (N.to_nat i) m)) _ (th_at _)). { cbn [bind]. now rewrite upd_twice. }
      destruct (sign_any c w16 HC i m st) as (a & A & Es); [exact Hi|].
      destruct (bumped_at i m st Hi) as (a' & A' & Eb).
      (* both come from the same run of the call *)
      rewrite <- drive_is_step in Ey.
      change (drive 7 (at_ i st) (Begin (OpSign m))) with (drive 6 (at_ i st) (GotIndex m (getIndex (c_obj c w16 i)))) in Ey.
      rewrite get_at in Ey by lia.
      change (drive 6 (at_ i st) (GotIndex m i)) with
        ('(o', r) <- check (at_ i st) (Some m) i ;; match r with inl p' => drive 5 o' p' | inr x => Ok (o', x) end) in Ey.
      rewrite (check_at i st (Some m) Hi) in Ey. cbn [bind] in Ey.
      change (drive 5 ?o (Checked (Some m) i)) with (drive 4 (store_index o i) (Written m)) in Ey. rewrite store_at in Ey.
      change (drive 4 ?o (Written m)) with (drive 3 o (Loaded m (load_index o))) in Ey. rewrite load_at in Ey by lia.
      change (drive 3 ?o (Loaded m i)) with (drive 2 (store_index o (i + 1)) (Bumped m i)) in Ey. rewrite store_at in Ey.
      change (drive 2 ?o (Bumped m i)) with ('(o', r) <- micro o (Bumped m i) ;; match r with inl p' => drive 1 o' p' | inr x => Ok (o', x) end) in Ey.
      rewrite Eb in Ey |- *. match goal with |- bind ?b _ = _ => destruct b as [s2|e|] end; cbn [bind] in Ey |- *; try discriminate.
      apply Ok_inj, pair_equal_spec in Ey. destruct Ey as [E1 E2]. rewrite E2. assert (s2 = st') by congruence. now subst s2.
    Qed.
  End Thread.
End Races.

(** Two threads that call sign without a mutex can both sign with the same one-time key:
    at every index there is a schedule after which, if both calls return, they have.  (On a
    fresh object, and at the last index, they do return; at the last index both signatures
    are even valid.) *)
Theorem C83_race_reuses_key : forall junk seed height hash hf fmt, supported hash hf 16 w16 height seed ->
  exists x, XmssFast_new junk seed (N.of_nat height) hash fmt = Ok x /\
    forall before y os m1 m2, run x before = Ok (y, os) ->
      let i := getIndex (xf_base y) in
      let sg := ref_sig hf w16 height seed in
      let race := sched_run false (start y [[OpSign m1]; [OpSign m2]]) (repeat 0 5 ++ repeat 1 5 ++ [0; 1; 0; 1]) in
      (i < 2 ^ N.of_nat height)%N ->
      (forall s, race = Ok s -> exists s2, s_log s = [(0, OpSign m1, ObsSig (sg (N.to_nat i) m1)); (1, OpSign m2, ObsSig s2)] /\
         sig_index (sg (N.to_nat i) m1) = i /\ sig_index s2 = i /\
         firstn (path_start w16) s2 = firstn (path_start w16) (sg (N.to_nat i) m2) /\
         (i = (2 ^ N.of_nat height - 1)%N -> s2 = sg (N.to_nat i) m2)) /\
      (before = [] \/ i = (2 ^ N.of_nat height - 1)%N -> exists s, race = Ok s).
Proof.
  intros junk seed height hash hf fmt HS. pose proof (cfg_of _ _ _ _ _ _ fmt HS) as HC.
  set (c := mkCfg hf hash 16 fmt height seed) in *.
  destruct (initialize_tree_full c w16 HC junk) as (x & Ex & HI0 & HT0).
  assert (E : XmssFast_new junk seed (N.of_nat height) hash fmt = Ok x).
  { unfold XmssFast_new, check_seed. pose proof HS as (_ & _ & Hh & _ & Hl). rewrite Hl. cbn [Nat.eqb negb].
    rewrite (proj2 (N.ltb_ge _ _)) by lia. exact Ex. }
  exists x. split; [exact E|]. intros before y os m1 m2 Er. cbn zeta.
  destruct (new_run hash hf height seed fmt HS junk) as (x1 & E1 & HR). assert (x1 = x) by congruence. subst x1.
  destruct (HR before) as (y1 & Er1 & HI). assert (y1 = y) by congruence. subst y1. clear Er1. fold c in HI.
  pose proof (inv_getIndex hash hf height seed fmt HS _ _ HI) as Ei. rewrite Ei.
  set (i := fst (ref_run height (ref_sig hf w16 height seed) 0 before)) in *. intros Hi.
  pose proof HI as (Eb & _ & HB). specialize (HB Hi). destruct y as [b st]. cbn [xf_base xf_state] in *. subst b.
  set (sg := ref_sig hf w16 height seed) in *.
  set (race := sched_run false _ _).
  assert (Erace : race = (s' <- (o <- micro (mkXF (c_obj c w16 (i + 1)) st) (Bumped m1 i) ;;
                           match snd o with
                           | inl p' => UB
                           | inr r1 => o2 <- micro (fst o) (Bumped m2 i) ;;
                               match snd o2 with
                               | inl p' => UB
                               | inr r2 => Ok (mkSys (fst o2) None [mkT None []; mkT None []] [(0, OpSign m1, r1); (1, OpSign m2, r2)])
                               end
                           end) ;; Ok s')).
  { unfold race, start. cbn [map]. rewrite sched_run_app.
    pose proof (to_loaded hash hf height seed fmt HS i st [mkT None [OpSign m1]; mkT None [OpSign m2]] [] 0 m1 [] Hi eq_refl) as T. fold c in T. rewrite T. clear T. cbn [bind upd].
    rewrite sched_run_app. pose proof (to_loaded hash hf height seed fmt HS i st [mkT (Some (OpSign m1, Loaded m1 i)) []; mkT None [OpSign m2]] [] 1 m2 [] Hi eq_refl) as T. fold c in T. rewrite T. clear T. cbn [bind upd sched_run].
    fold c.
    rewrite (L_move (mkXF (c_obj c w16 i) st) (mkXF (c_obj c w16 (i + 1)) st) [mkT (Some (OpSign m1, Loaded m1 i)) []; mkT (Some (OpSign m2, Loaded m2 i)) []] [] 0 (OpSign m1) (Loaded m1 i) (Bumped m1 i) [] eq_refl)
      by (cbn [micro]; unfold c; now rewrite store_at). cbn [bind upd].
    rewrite (L_move (mkXF (c_obj c w16 (i + 1)) st) (mkXF (c_obj c w16 (i + 1)) st) [mkT (Some (OpSign m1, Bumped m1 i)) []; mkT (Some (OpSign m2, Loaded m2 i)) []] [] 1 (OpSign m2) (Loaded m2 i) (Bumped m2 i) [] eq_refl)
      by (cbn [micro]; unfold c; now rewrite store_at). cbn [bind upd].
    destruct (micro (mkXF (c_obj c w16 (i + 1)) st) (Bumped m1 i)) as [[o1 [p'|r1]]|e|] eqn:Em1; cbn [bind snd fst].
    - exfalso. cbn [micro] in Em1. unfold with_hash in Em1. destruct (hash_of_id _) as [h2|]; [|discriminate].
      destruct (xmssfast_Signmsg _ _ _ _ _) as [[[u v] w]|e2|]; cbn [bind] in Em1; discriminate.
    - rewrite (L_ret _ o1 [mkT (Some (OpSign m1, Bumped m1 i)) []; mkT (Some (OpSign m2, Bumped m2 i)) []] [] 0 (OpSign m1) (Bumped m1 i) r1 [] eq_refl Em1). cbn [bind upd app].
      destruct (micro o1 (Bumped m2 i)) as [[o2 [p'|r2]]|e|] eqn:Em2; cbn [bind snd fst].
      + exfalso. cbn [micro] in Em2. unfold with_hash in Em2. destruct (hash_of_id _) as [h2|]; [|discriminate].
        destruct (xmssfast_Signmsg _ _ _ _ _) as [[[u v] w]|e2|]; cbn [bind] in Em2; discriminate.
      + rewrite (L_ret _ o2 [mkT None []; mkT (Some (OpSign m2, Bumped m2 i)) []] [(0, OpSign m1, r1)] 1 (OpSign m2) (Bumped m2 i) r2 [] eq_refl Em2). reflexivity.
      + unfold sched_step. cbn [s_threads nth_error t_run s_obj]. rewrite Em2. reflexivity.
      + unfold sched_step. cbn [s_threads nth_error t_run s_obj]. rewrite Em2. reflexivity.
    - unfold sched_step. cbn [s_threads nth_error t_run s_obj]. rewrite Em1. reflexivity.
    - unfold sched_step. cbn [s_threads nth_error t_run s_obj]. rewrite Em1. reflexivity. }
  destruct (bumped_at hash hf height seed fmt HS i m1 st Hi) as (a1 & A1 & Eb1). fold c in Eb1. rewrite Eb1 in Erace. clear Eb1.
  assert (Ea : firstn height (b_auth st) = auth_path hf 16 67 (key_seed seed) (key_pub seed) height (N.to_nat i)) by exact (auth_concat c w16 HC _ _ HB).
  assert (Es1 : front c w16 (N.to_nat i) m1 ++ concat (firstn height (b_auth st)) = sg (N.to_nat i) m1).
  { rewrite Ea. symmetry. exact (c_sig_front c w16 (N.to_nat i) m1). }
  rewrite Es1 in Erace.
  assert (Hidx : forall m r, sig_index (front c w16 (N.to_nat i) m ++ r) = i).
  { intros m r. unfold sig_index, front. rewrite <- !app_assoc, (PropKeys.firstn_app_exact _ 4) by apply to_byte_length. rewrite N2Nat.id. apply from_be_to_byte4.
    pose proof (pow_H_bound c w16 HC) as Hp. cbn [c c_height] in Hp. change (2 ^ 32)%N with 4294967296%N. change (2 ^ 30)%N with 1073741824%N in *. lia. }
  split.
  - intros s Es. rewrite Erace in Es.
    match type of Es with context [bind (if ?t then ?p else ?q) _] => destruct (if t then p else q) as [st1|e|] eqn:Ed1; cbn [bind snd fst] in Es; try discriminate end.
    destruct (bumped_at hash hf height seed fmt HS i m2 st1 Hi) as (a2 & A2 & Eb2). fold c in Eb2. rewrite Eb2 in Es.
    match type of Es with context [bind (if ?t then ?p else ?q) _] => destruct (if t then p else q) as [st2|e|] eqn:Ed2; cbn [bind snd fst] in Es; try discriminate end.
    apply Ok_inj in Es. subst s. cbn [s_log]. eexists. split; [reflexivity|]. split; [rewrite <- Es1; apply Hidx|]. split; [apply Hidx|].
    pose proof (front_length c w16 (N.to_nat i) m2) as LF. change (path_start w16) with (36 + 32 * (64 + 3)).
    change (sg (N.to_nat i) m2) with (c_sig c w16 (N.to_nat i) m2). rewrite c_sig_front. split.
    + rewrite !PropKeys.firstn_app_exact by exact LF. reflexivity.
    + intros ->. rewrite (proj2 (N.ltb_ge _ _)) in Ed1 by lia. apply Ok_inj in Ed1. subst st1. change (c_height c) with height. rewrite Ea. reflexivity.
  - intros [->|Elast].
    + cbn [run] in Er. apply Ok_inj, pair_equal_spec in Er. destruct Er as [Exy _]. subst x. cbn [xf_state] in HT0.
      assert (Hi0 : i = 0%N) by reflexivity. clearbody i. subst i. destruct (pow_16 hash hf height seed HS) as [P16 Q16].
      rewrite (proj2 (N.ltb_lt _ _)) in Erace by lia. cbn [N.to_nat] in *.
      destruct (cfg_mq c w16 HC) as (M1 & M2 & M3 & M4). cbn [c c_height] in M1, M2, M3, M4, HB, HT0.
      change (x_h (c_params c) = height - 2 + 2) in M3.
      destruct (wots_ok_facts _ (cfg_wots c w16 HC)) as (Hw & _ & _ & Hlen & _).
      set (p := c_params c) in *. set (mm := height - 2) in *. set (qq := mm / 2) in *.
      change (c_seed c) with seed in *. change (c_hf c) with hf in *.
      assert (LA : length (b_auth st) = mm + 2) by apply HB. assert (LK : length (b_keep st) = (mm + 2) / 2) by apply HB.
      pose proof (bds_step_idle0 hf (key_seed seed) (key_pub seed) p mm qq M1 M2 M3 eq_refl Hw Hlen st a1 _ A1 LA LK HT0) as Est.
      rewrite Est in Erace. cbn [bind snd fst] in Erace.
      set (S1 := mkBDS _ _ _ _ _ _ _) in Erace.
      destruct (bumped_at hash hf height seed fmt HS 0 m2 S1 Hi) as (a2 & A2 & Eb2). fold c in Eb2. fold p in Eb2. rewrite Eb2 in Erace.
      rewrite (proj2 (N.ltb_lt _ _)) in Erace by lia. cbn [N.to_nat] in Erace.
      assert (HT1 : th_ok hf (key_seed seed) (key_pub seed) p mm 0 (fun _ => 0) (fun _ => []) S1) by (eapply th_ok_cells; eauto).
      assert (LA1 : length (b_auth S1) = mm + 2) by (cbn [S1 b_auth]; now rewrite upd_length).
      assert (LK1 : length (b_keep S1) = (mm + 2) / 2) by (cbn [S1 b_keep]; now rewrite upd_length).
      rewrite (bds_step_idle0 hf (key_seed seed) (key_pub seed) p mm qq M1 M2 M3 eq_refl Hw Hlen S1 a2 _ A2 LA1 LK1 HT1) in Erace.
      cbn [bind snd fst] in Erace. eexists. exact Erace.
    + rewrite (proj2 (N.ltb_ge _ _)) in Erace by lia. cbn [bind snd fst] in Erace.
      destruct (bumped_at hash hf height seed fmt HS i m2 st Hi) as (a2 & A2 & Eb2). fold c in Eb2. rewrite Eb2 in Erace.
      rewrite (proj2 (N.ltb_ge _ _)) in Erace by lia. cbn [bind snd fst] in Erace. eexists. exact Erace.
Qed.

(** Another schedule makes sign throw although the key is not spent; a third leaves the
    object with an index that has already been used. *)
Theorem C83_race_other_damage : forall junk seed height hash hf fmt, supported hash hf 16 w16 height seed ->
  exists x, XmssFast_new junk seed (N.of_nat height) hash fmt = Ok x /\
    forall before y os m1 m2, run x before = Ok (y, os) ->
      let i := getIndex (xf_base y) in
      let sg := ref_sig hf w16 height seed in
      (i < 2 ^ N.of_nat height)%N ->
      (exists s, sched_run false (start y [[OpSign m1]; [OpSign m2]]) (repeat 0 2 ++ repeat 1 7 ++ [0]) = Ok s /\
         s_log s = [(1, OpSign m2, ObsSig (sg (N.to_nat i) m2)); (0, OpSign m1, ObsExn InvalidArgument)] /\
         getIndex (xf_base (s_obj s)) = (i + 1)%N) /\
      (exists s, sched_run false (start y [[OpSign m1]; [OpSign m2]]) (repeat 0 3 ++ repeat 1 7 ++ [0]) = Ok s /\
         s_log s = [(1, OpSign m2, ObsSig (sg (N.to_nat i) m2))] /\ getIndex (xf_base (s_obj s)) = i).
Proof.
  intros junk seed height hash hf fmt HS. pose proof (cfg_of _ _ _ _ _ _ fmt HS) as HC.
  set (c := mkCfg hf hash 16 fmt height seed) in *.
  destruct (new_run hash hf height seed fmt HS junk) as (x & E & HR). exists x. split; [exact E|].
  intros before y os m1 m2 Er. cbn zeta. destruct (HR before) as (y1 & Er1 & HI). assert (y1 = y) by congruence. subst y1. clear Er1. fold c in HI.
  pose proof (inv_getIndex hash hf height seed fmt HS _ _ HI) as Ei. rewrite Ei.
  set (i := fst (ref_run height (ref_sig hf w16 height seed) 0 before)) in *. intros Hi.
  pose proof HI as (Eb & _). destruct y as [b st]. cbn [xf_base] in Eb. subst b. unfold start. cbn [map].
  split.
  - rewrite sched_run_app. pose proof (to_got hash hf height seed fmt HS i st [mkT None [OpSign m1]; mkT None [OpSign m2]] [] 0 m1 [] Hi eq_refl) as T. fold c in T. rewrite T. clear T. cbn [bind upd].
    rewrite sched_run_app.
    destruct (whole hash hf height seed fmt HS i st [mkT (Some (OpSign m1, GotIndex m1 i)) []; mkT None [OpSign m2]] [] 1 m2 [] Hi eq_refl HI) as (st' & HI' & Ew).
    fold c in Ew, HI'.
    rewrite Ew. cbn [bind upd sched_run app].
    rewrite (L_ret _ (mkXF (c_obj c w16 (i + 1)) st') [mkT (Some (OpSign m1, GotIndex m1 i)) []; mkT None []] [(1, OpSign m2, ObsSig (ref_sig hf w16 height seed (N.to_nat i) m2))] 0 (OpSign m1) (GotIndex m1 i) (ObsExn InvalidArgument) [] eq_refl)
      by (cbn [micro]; apply (check_behind hash hf height seed fmt HS); lia).
    cbn [bind]. eexists. split; [reflexivity|]. cbn [s_log s_obj app xf_base]. split; [reflexivity|]. apply (get_at hash hf height seed fmt HS). lia.
  - rewrite sched_run_app. pose proof (to_checked hash hf height seed fmt HS i st [mkT None [OpSign m1]; mkT None [OpSign m2]] [] 0 m1 [] Hi eq_refl) as T. fold c in T. rewrite T. clear T. cbn [bind upd].
    rewrite sched_run_app.
    destruct (whole hash hf height seed fmt HS i st [mkT (Some (OpSign m1, Checked (Some m1) i)) []; mkT None [OpSign m2]] [] 1 m2 [] Hi eq_refl HI) as (st' & HI' & Ew).
    fold c in Ew, HI'.
    rewrite Ew. cbn [bind upd sched_run app].
    rewrite (L_move _ (mkXF (c_obj c w16 i) st') [mkT (Some (OpSign m1, Checked (Some m1) i)) []; mkT None []] [(1, OpSign m2, ObsSig (ref_sig hf w16 height seed (N.to_nat i) m2))] 0 (OpSign m1) (Checked (Some m1) i) (Written m1) [] eq_refl)
      by (cbn [micro]; unfold c; now rewrite store_at).
    cbn [bind]. eexists. split; [reflexivity|]. cbn [s_log s_obj app xf_base]. split; [reflexivity|]. apply (get_at hash hf height seed fmt HS). lia.
Qed.
