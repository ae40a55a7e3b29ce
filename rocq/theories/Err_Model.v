(** * Err_Model: error information, error guards and the calling conventions

    Models core/coretypes/src/errorinfo_impl.cpp (the whole file),
    core/coretypes/include/coretypes/errorinfo_impl.h:29-153 and the helpers of
    core/coretypes/include/coretypes/ctutils.h:96-448, 505-680 (makeErrorInfo,
    extendErrorInfo, OPENDAQ_RETURN_IF_FAILED, OPENDAQ_RETURN_IF_FAILED_EXCEPT,
    checkErrorInfo, checkErrorInfoExcept, checkErrorGuard, errorFromException,
    daqTry).

    Simplifications: allocation never fails; the reference counts of the error
    objects are left out; a place in a source file is one text (file name and
    line already joined, errorinfo_impl.cpp:295-301, 631-637); printf
    parameters of messages are already substituted; the source object of
    an error is left out of the holder part. *)
From Coq Require Import String Ascii List ZArith NArith Bool Lia.
Import ListNotations.
Open Scope N_scope.

(** errors.h:33 OPENDAQ_SUCCESS *)
Definition okCode : N := 0.
(** errors.h:39 OPENDAQ_IGNORED *)
Definition ignoredCode : N := 6.
(** errors.h: OPENDAQ_ERR_GENERALERROR = OPENDAQ_ERROR_CODE(0x14) *)
Definition generalError : N := 2147483668.
(** errors.h: OPENDAQ_ERR_FROZEN *)
Definition frozenCode : N := 2147483671.

(** errors.h:28 OPENDAQ_FAILED: the top bit of the 32-bit code. *)
Definition failed (c : N) : bool := N.testbit c 31.

(** Build options: [dbg] = NDEBUG not defined, [grd] =
    OPENDAQ_ENABLE_ERROR_GUARD (CMakeLists.txt:115-122); [dflt] =
    ErrorCodeMessage (ctutils.h:170-181), [what0] = the text of the exception
    thrown for a code without message (error_code_to_exception.h:46-53,
    69-72). *)
Record cfg := Cfg {
  dbg : bool;
  grd : bool;
  dflt : N -> string;
  what0 : N -> string
}.

(** A frozen ErrorInfoImpl (errorinfo_impl.h:62-70): code, previous code,
    message and place in the source. *)
Record info := Info {
  i_code : N;
  i_prev : N;
  i_msg : option string;
  i_where : option string
}.

(** ErrorGuardImpl (errorinfo_impl.h:89-111): [s_id] identifies the object,
    [None] is the InitialErrorGuard (errorinfo_impl.cpp:21-35); [s_infos] is
    errorInfoList, newest first. *)
Record scope := Scope {
  s_id : option nat;
  s_where : option string;
  s_infos : list info
}.

(** ErrorInfoHolder::errorScopeList (errorinfo_impl.h:148) of one thread, top
    first; a missing list and an empty list are the same state. *)
Definition holder := list scope.

Definition withInfos (s : scope) (l : list info) : scope :=
  Scope (s_id s) (s_where s) l.

Definition isInitial (s : scope) : bool :=
  match s_id s with None => true | Some _ => false end.

(** errorinfo_impl.cpp:84-96 getOrCreateBack: the sentinel is created when no
    scope is active. *)
Definition getOrCreateBack (h : holder) : scope * holder :=
  match h with
  | [] => (Scope None None [], [])
  | s :: r => (s, r)
  end.

(** errorinfo_impl.cpp:110-114, 395-399 setErrorInfo *)
Definition setErrorInfo (i : info) (h : holder) : holder :=
  let (s, r) := getOrCreateBack h in
  withInfos s (i :: s_infos s) :: r.

(** errorinfo_impl.cpp:116-120, 401-418 extendErrorInfo; the flag says that
    std::runtime_error was thrown. *)
Definition extendErrorInfo (i : info) (h : holder) : bool * holder :=
  let (s, r) := getOrCreateBack h in
  match s_infos s with
  | [] => (true, s :: r)
  | l :: _ =>
      if i_code l =? i_prev i
      then (false, withInfos s (i :: s_infos s) :: r)
      else (true, s :: r)
  end.

(** errorinfo_impl.cpp:420-438 clearLastErrorInfo *)
Fixpoint clearLast (l : list info) : list info :=
  match l with
  | [] => []
  | i :: r => if i_prev i =? okCode then r else clearLast r
  end.

(** errorinfo_impl.cpp:122-134 clearErrorInfo; the sentinel is dropped when
    it becomes empty (:98-108). *)
Definition clearErrorInfo (h : holder) : holder :=
  match h with
  | [] => []
  | s :: r =>
      let l := clearLast (s_infos s) in
      if isInitial s && (match l with [] => true | _ => false end)
      then r
      else withInfos s l :: r
  end.

(** errorinfo_impl.cpp:595-648 ErrorInfoImpl::getFormattedMessage without the
    cache (which only matters before the object is frozen, see [object]). *)
Definition infoText (k : cfg) (i : info) : string :=
  let pre := if i_prev i =? okCode then EmptyString else " - Caused by: "%string in
  let body := match i_msg i with
              | Some m => m
              | None => if i_prev i =? i_code i then EmptyString else dflt k (i_code i)
              end in
  let space := match i_msg i with
               | Some _ => true
               | None => negb (i_prev i =? i_code i)
               end in
  let loc := if dbg k
             then match i_where i with
                  | Some w => ((if space then " [ " else "[ ") ++ w ++ " ]")%string
                  | None => EmptyString
                  end
             else EmptyString in
  (pre ++ body ++ loc)%string.

Definition newline : string := String (ascii_of_nat 10) EmptyString.

(** errorinfo_impl.cpp:264-273: the last error with what it was caused by,
    newest first. *)
Fixpoint lastChain (l : list info) : list info :=
  match l with
  | [] => []
  | i :: r => if i_prev i =? okCode then [i] else i :: lastChain r
  end.

(** errorinfo_impl.cpp:254-309 getFormattedMessage of a debug build *)
Definition formattedDebug (k : cfg) (w : option string) (l : list info) : N * option string :=
  match l with
  | [] => (okCode, None)
  | i :: _ =>
      let body := String.concat newline (map (infoText k) (rev (lastChain l))) in
      let loc := match w with
                 | Some f => (newline ++ " - Caused by: [ " ++ f ++ " ]")%string
                 | None => EmptyString
                 end in
      (i_code i, Some (body ++ loc)%string)
  end.

(** errorinfo_impl.cpp:323-341: the search for a message. *)
Fixpoint searchMessage (k : cfg) (c : N) (l : list info) : N * option string :=
  match l with
  | [] => (ignoredCode, None)
  | i :: r =>
      match i_msg i with
      | Some m => (c, Some m)
      | None => if i_prev i =? c then searchMessage k c r else (c, Some (dflt k c))
      end
  end.

(** errorinfo_impl.cpp:310-343 getFormattedMessage of a release build *)
Definition formattedRelease (k : cfg) (l : list info) : N * option string :=
  match l with
  | [] => (okCode, None)
  | i :: _ => searchMessage k (i_code i) l
  end.

(** ErrorGuardImpl::getFormattedMessage *)
Definition guardMessage (k : cfg) (s : scope) : N * option string :=
  if dbg k then formattedDebug k (s_where s) (s_infos s) else formattedRelease k (s_infos s).

(** errorinfo_impl.cpp:162-170, 877-882 daqGetErrorInfoMessage, called with a
    null string as ctutils.h:189-190 does. *)
Definition getFormattedMessage (k : cfg) (h : holder) : N * option string :=
  match h with
  | [] => (okCode, None)
  | s :: _ => guardMessage k s
  end.

(** What a caller of daqGetErrorInfo gets: its variable untouched, a null
    pointer or an error object. *)
Inductive got := Untouched | Null | Got (i : info).

(** errorinfo_impl.cpp:136-142, 359-393 daqGetErrorInfo *)
Definition getErrorInfo (k : cfg) (h : holder) : got :=
  match h with
  | [] => Untouched
  | s :: _ =>
      match s_infos s with
      | [] => Null
      | i :: _ =>
          if i_prev i =? okCode then Got i
          else match snd (guardMessage k s) with
               | None => Null
               | Some m => Got (Info (i_code i) okCode (Some m) None)
               end
      end
  end.

(** errorinfo_impl.cpp:144-160, 233-252 daqGetErrorInfoList, oldest first;
    [None] is a null list.  The list of the sentinel is consumed. *)
Definition getErrorInfoList (h : holder) : option (list info) * holder :=
  match h with
  | [] => (None, [])
  | s :: r =>
      let res := match s_infos s with [] => None | _ => Some (rev (s_infos s)) end in
      (res, if isInitial s then r else s :: r)
  end.

(** errorinfo_impl.cpp:172-180, 221-226: a guard is created. *)
Definition openGuard (g : nat) (w : option string) (h : holder) : holder :=
  Scope (Some g) w [] :: h.

Definition sameGuard (g : nat) (s : scope) : bool :=
  match s_id s with Some g' => Nat.eqb g g' | None => false end.

(** errorinfo_impl.cpp:182-217, 228-231: a guard is destroyed; it is removed
    wherever it is, a guard that is not there is not an error. *)
Fixpoint closeGuard (g : nat) (h : holder) : holder :=
  match h with
  | [] => []
  | s :: r => if sameGuard g s then r else s :: closeGuard g r
  end.

(** createErrorInfoObjectWithSource (ctutils.h:124-147): no message object
    for an empty message. *)
Definition textOpt (m : string) : option string :=
  match m with EmptyString => None | _ => Some m end.

(** The place of the macro is only kept by debug builds (ctutils.h:306-342,
    344-420). *)
Definition place (k : cfg) (w : option string) : option string :=
  if dbg k then w else None.

(** ctutils.h:292-342 makeErrorInfo *)
Definition makeErrorInfo (k : cfg) (c : N) (m : string) (w : option string) (h : holder) : holder :=
  setErrorInfo (Info c okCode (textOpt m) (place k w)) h.

(** ctutils.h:344-420 extendErrorInfo with two codes and a message *)
Definition extendWith (k : cfg) (p c : N) (m : string) (w : option string) (h : holder) : bool * holder :=
  extendErrorInfo (Info c p (textOpt m) (place k w)) h.

(** ctutils.h:373-377, 412-416 extendErrorInfo with a code only: nothing
    happens in a release build. *)
Definition extendBare (k : cfg) (c : N) (w : option string) (h : holder) : bool * holder :=
  if dbg k then extendWith k c c EmptyString w h else (false, h).

(** ctutils.h:183-207 getErrorInfoMessage with clearErrorInfo = true *)
Definition takeMessage (k : cfg) (c : N) (h : holder) : string * holder :=
  match getFormattedMessage k h with
  | (e, Some m) => if e =? c then (m, clearErrorInfo h) else (EmptyString, h)
  | (_, None) => (EmptyString, h)
  end.

(** How a piece of code ends: an error code, a DaqException or another
    std::exception. *)
Inductive out := Ret (c : N) | Daq (c : N) (text : string) | Std (text : string).

(** error_code_to_exception.h:46-53 *)
Definition thrownText (k : cfg) (c : N) (m : string) : string :=
  match m with EmptyString => what0 k c | _ => m end.

(** ctutils.h:209-215 checkErrorInfo *)
Definition checkErrorInfo (k : cfg) (c : N) (h : holder) : out * holder :=
  if failed c then
    let (m, h') := takeMessage k c h in (Daq c (thrownText k c m), h')
  else (Ret c, h).

(** ctutils.h:217-226 checkErrorInfoExcept *)
Definition checkErrorInfoExcept (k : cfg) (c e : N) (h : holder) : out * holder :=
  if c =? e then (Ret c, clearErrorInfo h) else checkErrorInfo k c h.

Fixpoint findGuard (g : nat) (h : holder) : option scope :=
  match h with
  | [] => None
  | s :: r => if sameGuard g s then Some s else findGuard g r
  end.

(** ctutils.h:228-277 checkErrorGuard: all errors of the guard, the code of
    the last one. *)
Definition checkErrorGuard (k : cfg) (g : nat) (h : holder) : option (N * string) :=
  match findGuard g h with
  | None => None
  | Some s =>
      match s_infos s with
      | [] => None
      | i :: _ =>
          if failed (i_code i)
          then Some (i_code i, String.concat newline (map (infoText k) (rev (s_infos s))))
          else None
      end
  end.

(** __func__ of daqTry (ctutils.h:644) and the place of its catch clause
    (:669) *)
Definition tryName : string := "daqTry".
Definition tryCatch : string := "ctutils.h:669".

(** The catch clauses of daqTry (ctutils.h:657-670) and errorFromException
    (:440-447; an exception made from an error code has no file name). *)
Definition catchAll (k : cfg) (o : out) (h : holder) : out * holder :=
  match o with
  | Ret c => (Ret c, h)
  | Daq c t => (Ret c, makeErrorInfo k c t None h)
  | Std t => (Ret generalError, makeErrorInfo k generalError t (Some tryCatch) h)
  end.

(** ctutils.h:639-675 daqTry *)
Definition daqTry (k : cfg) (body : holder -> out * holder) (h : holder) : out * holder :=
  if grd k then
    let g := length h in
    let (o, h2) := body (openGuard g (Some tryName) h) in
    let o2 := match o with
              | Ret c => match checkErrorGuard k g h2 with
                         | Some (c', t) => Daq c' t
                         | None => Ret c
                         end
              | _ => o
              end in
    catchAll k o2 (closeGuard g h2)
  else
    let (o, h2) := body h in catchAll k o h2.

(** Functions written with the calling conventions of the code base.  [w] is
    the place of the macro. *)
Inductive call :=
| COk
    (* { return OPENDAQ_SUCCESS; } *)
| CMake (c : N) (m w : string)
    (* { return DAQ_MAKE_ERROR_INFO(c, m); } *)
| CBare (c : N)
    (* { return c; } *)
| CSeq (f : call) (w : string) (g : call)
    (* { OPENDAQ_RETURN_IF_FAILED(f()); return g(); } *)
| CExtend (f : call) (m w : string)
    (* { err = f(); OPENDAQ_RETURN_IF_FAILED(err, m); return err; } *)
| CChange (f : call) (c : N) (m w : string)
    (* { err = f(); if (OPENDAQ_FAILED(err)) return DAQ_EXTEND_ERROR_INFO(err, c, m); return err; } *)
| CExcept (f : call) (e : N) (w : string)
    (* { OPENDAQ_RETURN_IF_FAILED_EXCEPT(f(), e); return OPENDAQ_SUCCESS; } *)
| CIgnore (f : call)
    (* { f(); return OPENDAQ_SUCCESS; } *)
| CSwallow (f : call)
    (* { try { checkErrorInfo(f()); } catch (...) {} return OPENDAQ_SUCCESS; } *)
| CTry (f : call)
    (* { return daqTry([&] { checkErrorInfo(f()); return OPENDAQ_SUCCESS; }); } *)
| CWrap (f : call)
    (* { return daqTry([&] { return f(); }); } *)
| CGuarded (w : string) (f : call).
    (* { auto guard = ErrorGuard(w); return f(); } *)

(** The end of OPENDAQ_RETURN_IF_FAILED (ctutils.h:422-438): the error is
    extended and returned, or the exception of extendErrorInfo leaves the
    function (its two texts, errorinfo_impl.cpp:407 and :415, are one here). *)
Definition returned (c : N) (r : bool * holder) : out * holder :=
  if fst r
  then (Std "ErrorGuardImpl: Cannot extend error info"%string, snd r)
  else (Ret c, snd r).

Fixpoint exec (k : cfg) (f : call) (h : holder) : out * holder :=
  match f with
  | COk => (Ret okCode, h)
  | CMake c m w => (Ret c, makeErrorInfo k c m (Some w) h)
  | CBare c => (Ret c, h)
  | CSeq a w b =>
      match exec k a h with
      | (Ret c, h') => if failed c then returned c (extendBare k c (Some w) h')
                       else exec k b h'
      | r => r
      end
  | CExtend a m w =>
      match exec k a h with
      | (Ret c, h') => if failed c then returned c (extendWith k c c m (Some w) h')
                       else (Ret c, h')
      | r => r
      end
  | CChange a n m w =>
      match exec k a h with
      | (Ret c, h') => if failed c then returned n (extendWith k c n m (Some w) h')
                       else (Ret c, h')
      | r => r
      end
  | CExcept a e w =>
      match exec k a h with
      | (Ret c, h') => if c =? e then (Ret okCode, clearErrorInfo h')
                       else if failed c then returned c (extendBare k c (Some w) h')
                       else (Ret okCode, h')
      | r => r
      end
  | CIgnore a =>
      match exec k a h with
      | (Ret c, h') => (Ret okCode, h')
      | r => r
      end
  | CSwallow a =>
      match exec k a h with
      | (Ret c, h') => (Ret okCode, snd (checkErrorInfo k c h'))
      | (_, h') => (Ret okCode, h')
      end
  | CTry a =>
      daqTry k (fun h1 => match exec k a h1 with
                          | (Ret c, h2) => match checkErrorInfo k c h2 with
                                           | (Ret _, h3) => (Ret okCode, h3)
                                           | r => r
                                           end
                          | r => r
                          end) h
  | CWrap a => daqTry k (exec k a) h
  | CGuarded w a =>
      let (o, h2) := exec k a (openGuard (length h) (Some w) h) in
      (o, closeGuard (length h) h2)
  end.

(** Guards of several threads: errorinfo_impl.cpp:13 (thread_local), :225 and
    :230 use the holder of the thread that runs.  [t_dead] are the guards
    whose memory has been freed. *)
Record threads := Threads {
  t_holder : nat -> holder;
  t_dead : list nat
}.

Definition setHolder (t : nat) (h : holder) (f : nat -> holder) : nat -> holder :=
  fun t' => if Nat.eqb t' t then h else f t'.

(** The last reference to guard [g] is released by thread [t]. *)
Definition releaseGuard (t g : nat) (w : threads) : threads :=
  Threads (setHolder t (closeGuard g (t_holder w t)) (t_holder w)) (g :: t_dead w).

(** The object the next error of thread [t] is stored in
    (errorinfo_impl.cpp:77-96). *)
Definition nextScope (t : nat) (w : threads) : option nat :=
  match t_holder w t with s :: _ => s_id s | [] => None end.

(** ** The error object (errorinfo_impl.cpp:445-827) *)

(** errorinfo_impl.h:62-74, errorinfo_impl.cpp:447-458 *)
Record object := Object {
  o_msg : option string;
  o_src : option string;
  o_file : option string;
  o_line : Z;
  o_code : N;
  o_prev : N;
  o_frozen : bool;
  o_cache : option string
}.

Definition newObject : object :=
  Object None None None (-1)%Z generalError okCode false None.

Inductive oop :=
| SetMessage (m : option string)
| SetSource (s : option string)
| SetFileName (f : string)
| SetFileLine (l : Z)
| SetErrorCode (c : N)
| SetPreviousErrorCode (c : N)
| Freeze
| GetFormatted.

(** errorinfo_impl.cpp:607-638: the text; [line] writes a number. *)
Definition objectText (k : cfg) (line : Z -> string) (o : object) : string :=
  infoText k (Info (o_code o) (o_prev o) (o_msg o)
    (match o_file o with
     | Some f => Some (if (o_line o =? -1)%Z then f else (f ++ ":" ++ line (o_line o))%string)
     | None => None
     end)).

(** errorinfo_impl.cpp:473-666; the second component is the returned code,
    the third the text of getFormattedMessage. *)
Definition ostep (k : cfg) (line : Z -> string) (p : oop) (o : object) : object * N * option string :=
  match p with
  | GetFormatted =>
      match o_cache o with
      | Some t => (o, okCode, Some t)
      | None =>
          let t := objectText k line o in
          (Object (o_msg o) (o_src o) (o_file o) (o_line o) (o_code o) (o_prev o) (o_frozen o) (Some t),
           okCode, Some t)
      end
  | Freeze =>
      if o_frozen o then (o, ignoredCode, None)
      else (Object (o_msg o) (o_src o) (o_file o) (o_line o) (o_code o) (o_prev o) true (o_cache o),
            okCode, None)
  | _ =>
      if o_frozen o then (o, frozenCode, None)
      else
        (match p with
         | SetMessage m => Object m (o_src o) (o_file o) (o_line o) (o_code o) (o_prev o) false (o_cache o)
         | SetSource s => Object (o_msg o) s (o_file o) (o_line o) (o_code o) (o_prev o) false (o_cache o)
         | SetFileName f => Object (o_msg o) (o_src o) (Some f) (o_line o) (o_code o) (o_prev o) false (o_cache o)
         | SetFileLine l => Object (o_msg o) (o_src o) (o_file o) l (o_code o) (o_prev o) false (o_cache o)
         | SetErrorCode c => Object (o_msg o) (o_src o) (o_file o) (o_line o) c (o_prev o) false (o_cache o)
         | SetPreviousErrorCode c => Object (o_msg o) (o_src o) (o_file o) (o_line o) (o_code o) c false (o_cache o)
         | _ => o
         end, okCode, None)
  end.

Inductive sval := SStr (s : string) | SInt (z : Z).

(** errorinfo_impl.cpp:668-710 serialize: the keys and values written, in
    order. *)
Definition oserialize (o : object) : list (string * sval) :=
  ((match o_msg o with Some m => [("message"%string, SStr m)] | None => [] end) ++
   (match o_src o with Some s => [("source"%string, SStr s)] | None => [] end) ++
   (match o_file o with Some (String a f) => [("fileName"%string, SStr (String a f))] | _ => [] end) ++
   (if (o_line o =? -1)%Z then [] else [("fileLine"%string, SInt (o_line o))]))%list.

Fixpoint slookup (key : string) (l : list (string * sval)) : option sval :=
  match l with
  | [] => None
  | (k', v) :: r => if String.eqb key k' then Some v else slookup key r
  end.

(** errorinfo_impl.cpp:726-820 Deserialize; a value of the wrong type fails. *)
Definition odeserialize (l : list (string * sval)) : option object :=
  let str key := match slookup key l with
                 | None => Some None
                 | Some (SStr s) => Some (Some s)
                 | Some (SInt _) => None
                 end in
  match str "message"%string, str "source"%string, str "fileName"%string with
  | Some m, Some s, Some f =>
      match slookup "fileLine"%string l with
      | None => Some (Object m s f (-1)%Z generalError okCode false None)
      | Some (SInt z) => Some (Object m s f z generalError okCode false None)
      | Some (SStr _) => None
      end
  | _, _, _ => None
  end.
