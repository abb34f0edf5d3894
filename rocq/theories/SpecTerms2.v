(** Terms used in the statements of the property theorems that speak about calls of the
    modelled library: histories on XmssBasic objects, use of copies, logs of hash calls,
    the verdict on an accepted signature. *)
From Coq Require Import List NArith Arith Bool.
From Verif Require Import Base Bytes HashAddress SpecXmss SpecApi SpecDomain SpecForge SpecTweak SpecPlace SpecReuse SpecCopy XmssCommon XmssObj JsWrapper Trace.
Import ListNotations.
Local Open Scope nat_scope.

(** What the library computes for a call. *)
Definition library (hf : hashfn) (c : call) : list N :=
  match c with
  | CallF k x => core_hash hf 0 k x
  | CallH k x => core_hash hf 1 k x
  | CallMsg k x => h_msg hf x k
  | CallPRF k x => prf hf x k
  end.

(** Two objects that no sequence of calls can tell apart. *)
Definition same_wallet (x z : xfast) : Prop :=
  xf_base z = xf_base x /\ js_getIndex z = js_getIndex x /\ js_getPKRaw z = js_getPKRaw x /\ js_getAddress z = js_getAddress x /\
  forall cs, exists x' z' obs, run x cs = Ok (x', obs) /\ run z cs = Ok (z', obs) /\ xf_base x' = xf_base z'.

(** One call on an XmssBasic object (uninitialised memory may differ from call to
    call). *)
Definition basic_step (o : xbase) (c : list N * op) : res (xbase * obs) :=
  match c with
  | (junk, OpSign m) => '(o, s) <- XmssBasic_sign junk o m ;; Ok (o, ObsSig s)
  | (_, OpSetIndex i) => let '(o, k) := base_setIndex o i in Ok (o, ObsIdx k)
  end.

(** A history of such calls. *)
Fixpoint basic_run (o : xbase) (cs : list (list N * op)) : res (xbase * list obs) :=
  match cs with
  | [] => Ok (o, [])
  | c :: rest => '(o, x) <- basic_step o c ;; '(o, xs) <- basic_run o rest ;; Ok (o, x :: xs)
  end.

(** A program that at any time uses only the newest object: [Some c] is a call on it,
    [None] makes a copy of it and goes on with the copy (the older ones stay alive). *)
Fixpoint newest (n : nat) (l : list (option op)) : list act :=
  match l with
  | [] => []
  | Some c :: r => ACall n c :: newest n r
  | None :: r => ACopy n :: newest (S n) r
  end.

(** A log written with the key: of an XmssFast object and a history of calls on it, of an
    XmssBasic object being constructed, or of a signature by one. *)
Inductive key_log (hash w : N) (seed : list N) : nat -> list hcall -> Prop :=
| made_fast : forall junk height fmt o log0 cs o' xs log1, w = 16%N ->
    XmssFast_new_t junk seed (N.of_nat height) hash fmt = Ok (o, log0) -> run_t o cs = Ok ((o', xs), log1) ->
    key_log hash w seed height (log0 ++ log1)
| made_basic : forall junk height fmt o log, XmssBasic_new_t junk seed (N.of_nat height) hash fmt w = Ok (o, log) ->
    key_log hash w seed height log
| made_basic_sign : forall junk junk' height fmt o log0 idx msg o' sig log, height <= 24 -> (idx < 2 ^ N.of_nat height)%N ->
    XmssBasic_new_t junk seed (N.of_nat height) hash fmt w = Ok (o, log0) ->
    XmssBasic_sign_t junk' (fst (base_setIndex o idx)) msg = Ok ((o', sig), log) ->
    key_log hash w seed height log.

(** The verdict on an accepted signature, from the log of key generation and the log of the
    verification: it is the owner's; or the verifier hit the value of a call of key
    generation with other data; or the index is none of the tree and the verifier hit the
    root with a call whose address the owner never uses. *)
Definition verdict (hf : hashfn) (wp : nat * nat * nat) (h : nat) (seed : list N) (log0 logv : list hcall) (msg sig : list N) : Prop :=
  ((sig_index sig < 2 ^ N.of_nat h)%N /\ sig = owner_sig hf wp h seed (N.to_nat (sig_index sig)) (sig_R sig) msg) \/
  ((sig_index sig < 2 ^ N.of_nat h)%N /\
   exists e0 e, In e0 (tweaks log0) /\ In e (tweaks logv) /\ second_preimage hf (key_pub seed) e0 e) \/
  ((2 ^ N.of_nat h <= sig_index sig)%N /\
   exists e, In e (tweaks logv) /\ ~ In (call_adr e) (map call_adr (tweaks log0)) /\ length (call_data e) = 64 /\
     call_value hf (key_pub seed) e = ref_root hf wp h seed).

(** Made by an object with this seed and hash function, of any height and Winternitz
    parameter. *)
Definition from_seed (hash : N) (hf : hashfn) (seed : list N) (idx : N) (s : published) : Prop :=
  exists w h, winternitz w = Some (fst s) /\ signed hash hf w (fst s) seed idx h (snd s).
