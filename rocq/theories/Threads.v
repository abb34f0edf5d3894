(** Several threads calling sign and setIndex of one XmssFast object, with or without a
    mutex held by the caller around every call.  The library itself takes no lock in these
    calls (xmssFast.cpp:68-95), so each call is cut here at its accesses to the shared
    index, the first four bytes of _sk. *)
From Coq Require Import List NArith Arith Bool.
From Verif Require Import Base Bytes Keccak HashAddress Wots XmssCommon AlgsXmss AlgsXmssFast Descriptor SpecApi SpecThreads XmssObj.
Import ListNotations.
Open Scope nat_scope.

(** How far one call has got.  xmssFast.cpp:68-95, algsxmss_fast.c:533-700. *)
Inductive pc : Type :=
| Begin (c : op)                            (* the call has been entered *)
| GotIndex (m : list N) (idx : N)           (* xmssFast.cpp:83: getIndex() has returned idx *)
| Checked (k : option (list N)) (new : N)   (* algsxmss_fast.c:541-580: checks and loop done, index not yet
                                               written; k is the message if sign made the call *)
| Written (m : list N)                      (* xmssFast.cpp:84: setIndex has returned *)
| Loaded (m : list N) (idx : N)             (* algsxmss_fast.c:604-605: idx read from the secret key *)
| Bumped (m : list N) (idx : N).            (* algsxmss_fast.c:620-623: idx + 1 written to the secret key *)

(** algsxmss_fast.c:604-605 and 541-545: the index as stored in the secret key. *)
Definition load_index (o : xfast) : N := from_be (slice 0 4 (xb_sk (xf_base o))).
(** algsxmss_fast.c:584-587 and 620-623: the four bytes written. *)
Definition store_index (o : xfast) (i : N) : xfast :=
  mkXF (with_sk (xf_base o) (to_byte 4 i ++ skipn 4 (xb_sk (xf_base o)))) (xf_state o).

(** xmssfast_update up to and including its loop, algsxmss_fast.c:539-580.  Simplified: the
    loop is one step, although other threads could run between its iterations. *)
Definition check (o : xfast) (k : option (list N)) (new : N) : res (xfast * (pc + obs)) :=
  '(o', r) <- xfast_setIndex o new ;;
  match r with
  | inl e => Ok (o', inr (ObsExn e))
  | inr _ => Ok (mkXF (xf_base o) (xf_state o'), inl (Checked k new))
  end.

(** One step of a call: the object, and either where the call has got to or what it
    returned.  xmssFast.cpp:68-95, algsxmss_fast.c:533-700.  Simplified: everything after
    the index has been written (algsxmss_fast.c:624-700: hashing, copying the
    authentication path, advancing the traversal state) is one step. *)
Definition micro (o : xfast) (p : pc) : res (xfast * (pc + obs)) :=
  match p with
  | Begin (OpSign m) => Ok (o, inl (GotIndex m (getIndex (xf_base o))))
  | Begin (OpSetIndex j) => check o None j
  | GotIndex m i => check o (Some m) i
  | Checked (Some m) i => Ok (store_index o i, inl (Written m))
  | Checked None i => Ok (store_index o i, inr (ObsIdx i))
  | Written m => Ok (o, inl (Loaded m (load_index o)))
  | Loaded m i => Ok (store_index o (i + 1), inl (Bumped m i))
  | Bumped m i =>
      with_hash (xb_hash (xf_base o)) (fun hf =>
        '(_, st, sig) <- xmssfast_Signmsg hf (xb_params (xf_base o)) (xb_sk (xf_base (store_index o i))) (xf_state o) m ;;
        Ok (mkXF (xf_base o) st, inr (ObsSig sig)))
  end.

(** A caller's thread: the call under way, if any, and the calls still to be made. *)
Record thread : Type := mkT { t_run : option (op * pc); t_todo : list op }.

(** The shared object, who holds the callers' mutex, the threads, and the calls that have
    returned, in the order in which they did (thread, call, outcome). *)
Record sys : Type := mkSys {
  s_obj : xfast; s_holder : option nat; s_threads : list thread; s_log : list event }.
Definition start (x : xfast) (progs : list (list op)) : sys := mkSys x None (map (mkT None) progs) [].

(** The scheduler lets thread [t] make one step (caller code around xmssFast.cpp:68-95).
    With [locked], a thread takes the mutex before a call, waiting as long as another
    holds it, and releases it when the call has returned or thrown. *)
Definition sched_step (locked : bool) (s : sys) (t : nat) : res sys :=
  match nth_error (s_threads s) t with
  | None => Ok s
  | Some th =>
      match t_run th with
      | None =>
          match t_todo th with
          | [] => Ok s
          | c :: rest =>
              match (if locked then s_holder s else None) with
              | Some _ => Ok s
              | None => Ok (mkSys (s_obj s) (if locked then Some t else None)
                                  (upd (s_threads s) t (mkT (Some (c, Begin c)) rest)) (s_log s))
              end
          end
      | Some (c, p) =>
          '(o, r) <- micro (s_obj s) p ;;
          match r with
          | inl p' => Ok (mkSys o (s_holder s) (upd (s_threads s) t (mkT (Some (c, p')) (t_todo th))) (s_log s))
          | inr x => Ok (mkSys o None (upd (s_threads s) t (mkT None (t_todo th))) (s_log s ++ [(t, c, x)]))
          end
      end
  end.
Fixpoint sched_run (locked : bool) (s : sys) (ts : list nat) : res sys :=
  match ts with
  | [] => Ok s
  | t :: rest => s' <- sched_step locked s t ;; sched_run locked s' rest
  end.
