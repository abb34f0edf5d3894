(** How the exceptions of the C++ library reach Python and Go: the handlers of
    src/api/pyqrllib.i (dilithium.i and kyber.i have the same lines 1-66), and
    every wrapped call as a function to [res unit] that forgets the value. *)
From Coq Require Import List NArith Arith Bool.
From Verif Require Import Base Bytes Keccak HashAddress Descriptor SpecApi XmssObj Misc Pool PqWrapper.
Import ListNotations.
Open Scope nat_scope.

(** ** Exception classes and handlers *)

(** The classes of <stdexcept>, <new> and <system_error>, and classes outside
    std::exception ([CForeign]).  pyqrllib.i:22-33 distinguishes them. *)
Inductive cpp_class : Type :=
| CException | CLogicError | CInvalidArgument | CDomainError | CLengthError | COutOfRange | CFutureError
| CRuntimeError | CRangeError | COverflowError | CUnderflowError | CSystemError | CBadAlloc | CForeign (n : N).
(** C++11 [std.exceptions], 18.6.2, 19.5.6, 30.6.3: direct base class; used by pyqrllib.i:22-33. *)
Definition base_class (c : cpp_class) : option cpp_class :=
  match c with
  | CException | CForeign _ => None
  | CLogicError | CRuntimeError | CBadAlloc => Some CException
  | CInvalidArgument | CDomainError | CLengthError | COutOfRange | CFutureError => Some CLogicError
  | CRangeError | COverflowError | CUnderflowError | CSystemError => Some CRuntimeError
  end.
(** pyqrllib.i:22-33: equality of classes. *)
Definition class_eq_dec : forall a b : cpp_class, {a = b} + {a <> b}.
Proof. decide equality. apply N.eq_dec. Defined.
(** A handler [catch (const h&)] takes an exception of class c; the hierarchy is
    three deep.  pyqrllib.i:22-33, 46-50. *)
Fixpoint catches (fuel : nat) (h c : cpp_class) {struct fuel} : bool :=
  match fuel with
  | O => false
  | S f => if class_eq_dec h c then true
           else match base_class c with Some b => catches f h b | None => false end
  end.

(** The codes given to SWIG_Error, pyqrllib.i:24, 28, 32. *)
Inductive swig_code : Type := SwigValueError | SwigRuntimeError | SwigUnknownError.
(** pyqrllib.i:16-34 HandleAllExceptions: first handler that takes the exception;
    [None] stands for [catch (...)]. *)
Fixpoint first_handler {R : Type} (hs : list (option cpp_class * R)) (c : cpp_class) : option R :=
  match hs with
  | [] => None
  | (h, r) :: rest =>
      if match h with None => true | Some k => catches 3 k c end then Some r else first_handler rest c
  end.
(** pyqrllib.i:22-33. *)
Definition python_handlers : list (option cpp_class * swig_code) :=
  [(Some CInvalidArgument, SwigValueError); (Some CException, SwigRuntimeError); (None, SwigUnknownError)].
(** pyqrllib.i:44-50: _swig_gopanic. *)
Definition go_handlers : list (option cpp_class * unit) := [(Some CException, tt)].

(** What the caller sees.  [PyEscapes]/[GoAborts]: no handler took the exception. *)
Inductive py_result (A : Type) : Type := PyReturns (a : A) | PyRaises (c : swig_code) | PyEscapes | PyUndefined.
Inductive go_result (A : Type) : Type := GoReturns (a : A) | GoPanics | GoAborts | GoUndefined.
Arguments PyReturns {A} a. Arguments PyRaises {A} c. Arguments PyEscapes {A}. Arguments PyUndefined {A}.
Arguments GoReturns {A} a. Arguments GoPanics {A}. Arguments GoAborts {A}. Arguments GoUndefined {A}.

(** The classes thrown by the library: misc.cpp:142, 147 throw std::runtime_error,
    every other throw expression std::invalid_argument (qrlDescriptor.h:40, 52, 64,
    qrlHelper.h:22, xmssBase.cpp:44-91, 211-240, xmssFast.cpp:32, xmssBasic.cpp:31, 39,
    misc.cpp:51-114, hashing.cpp:32, kyber.cpp:15, 20). *)
Definition thrown_class (e : exn) : cpp_class :=
  match e with InvalidArgument => CInvalidArgument | RuntimeError => CRuntimeError end.

(** pyqrllib.i:36-42 *)
Definition python {A} (r : res A) : py_result A :=
  match r with
  | Ok a => PyReturns a
  | UB => PyUndefined
  | Exn e => match first_handler python_handlers (thrown_class e) with Some c => PyRaises c | None => PyEscapes end
  end.
(** pyqrllib.i:44-50 *)
Definition go {A} (r : res A) : go_result A :=
  match r with
  | Ok a => GoReturns a
  | UB => GoUndefined
  | Exn e => match first_handler go_handlers (thrown_class e) with Some _ => GoPanics | None => GoAborts end
  end.

(** ** The wrapped calls *)
(** pyqrllib.i:91-97 (with -includeall, CMakeLists.txt:357), dilithium.i:73, kyber.i:73. *)
Inductive call : Type :=
(* xmssFast.h:10-23, xmssBasic.h, xmssPool.h:27-36 *)
| NewFast (junk seed : list N) (height hash fmt : N)
| NewFastExtended (junk eseed : list N)
| NewBasic (junk seed : list N) (height hash fmt w : N)
| FastCall (x : xfast) (c : op)
| BasicSign (junk : list N) (o : xbase) (msg : list N)
| BasicSetIndex (o : xbase) (i : N)
| ObjAddress (o : xbase)
| PoolTree (base_seed : list N) (height : N) (junk : list N) (index : N)
(* static members and helpers: xmssBase.h, qrlHelper.h, qrlDescriptor.h *)
| Verify (msg sig pk : list N) (w : N)
| SigSize (height w : N) | HeightOfSize (size w : N)
| AddressOf (pk : list N) | AddressValid (address : list N)
| DescrBytes (b : list N) | DescrSeed (es : list N) | DescrPK (pk : list N)
(* misc.h, hashing.h *)
| ToHex (v : list N) (wrap : N) | FromHex (s : list N)
| ToMnemonic (v : list N) | FromMnemonic (s : list N)
| RandomSeed (dev : device) (n : N) (entropy : list N)
| HashChain (seed : list N) (shift count : N)
| Sha2N (v : list N) (count : N)
(* dilithium.h, kyber.h *)
| DilSign (A : sign_api) (o : dilithium) (m : list N)
| DilOpen (A : sign_api) (out sm pk : list N)
| DilMessage (A : sign_api) (v : list N) | DilSignature (A : sign_api) (v : list N)
| KybFromKeys (A : kem_api) (pk sk : list N)
| KybEnc (A : kem_api) (entropy : list N) (o : kyber) (pk : list N)
| KybDec (A : kem_api) (o : kyber) (ct : list N).

(** pyqrllib.i:36-50: $action, its value forgotten. *)
Definition forget {A} (r : res A) : res unit := bind r (fun _ => Ok tt).
(** pyqrllib.i:36-50: an exception out of a member function. *)
Definition forget_obs {A} (r : res (A * obs)) : res unit :=
  bind r (fun p => match snd p with ObsExn e => Exn e | _ => Ok tt end).
(** pyqrllib.i:91-97, dilithium.i:73, kyber.i:73: the C++ call behind each wrapper. *)
Definition action (c : call) : res unit :=
  match c with
  | NewFast junk seed height hash fmt => forget (XmssFast_new junk seed height hash fmt)
  | NewFastExtended junk es => forget (XmssFast_from_extended_seed junk es)
  | NewBasic junk seed height hash fmt w => forget (XmssBasic_new junk seed height hash fmt w)
  | FastCall x c => forget_obs (step x c)
  | BasicSign junk o msg => forget (XmssBasic_sign junk o msg)
  | BasicSetIndex o i => forget (Ok (base_setIndex o i))
  | ObjAddress o => forget (obj_getAddress o)
  | PoolTree bs h junk i => forget (prepareTree bs h junk i)
  | Verify msg sig pk w => forget (verify msg sig pk w)
  | SigSize h w => forget (getSignatureSize h w)
  | HeightOfSize n w => forget (getHeightFromSigSize n w)
  | AddressOf pk => forget (getAddress pk)
  | AddressValid a => forget (addressIsValid a)
  | DescrBytes b => forget (descr_fromBytes b)
  | DescrSeed es => forget (descr_fromExtendedSeed es)
  | DescrPK pk => forget (descr_fromExtendedPK pk)
  | ToHex v wrap => forget (bin2hstr v wrap)
  | FromHex s => forget (hstr2bin s)
  | ToMnemonic v => forget (bin2mnemonic v)
  | FromMnemonic s => forget (mnemonic2bin s)
  | RandomSeed dev n e => forget (getRandomSeed dev n e)
  | HashChain seed sh n => forget (getHashChainSeed seed sh n)
  | Sha2N v n => forget (sha2_256_n v n)
  | DilSign A o m => forget (dil_sign A o m)
  | DilOpen A out sm pk => forget (dil_sign_open A out sm pk)
  | DilMessage A v => forget (dil_extract_message A v)
  | DilSignature A v => forget (dil_extract_signature A v)
  | KybFromKeys A pk sk => forget (kyb_from_keys A pk sk)
  | KybEnc A e o pk => forget (kyb_encode A e o pk)
  | KybDec A o ct => forget (kyb_decode A o ct)
  end.
