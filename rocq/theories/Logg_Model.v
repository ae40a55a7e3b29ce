(** * Logg_Model: loggers, their components and sinks

    Models core/opendaq/logger/src/logger_impl.cpp:17-249,
    core/opendaq/logger/src/logger_component_impl.cpp:28-186,
    core/opendaq/logger/src/logger_sink_impl.cpp:53-103 and
    core/opendaq/logger/src/logger_thread_pool_impl.cpp:7-9, with the parts of
    spdlog they rest on: log, should_log, flush_on, the queue of a pool with
    one thread, and the thread's work on one entry of it.

    Simplifications: levels are the numbers of LogLevel (0 Trace ... 5
    Critical, 6 Off, 7 Default); components are numbered as they are created
    and stay alive for those who hold them; a call that blocks on a full
    queue is one that runs later; patterns, source locations, the periodic
    flush (a [Flush] of its own) and failing sinks are left out. *)
From Coq Require Import String Ascii List Bool Arith ZArith.
Import ListNotations.
Open Scope string_scope.
Open Scope nat_scope.
Open Scope list_scope.

Definition Off : nat := 6.
Definition Default : nat := 7.

Inductive res := Ok | InvalidParameter | AlreadyExists | NotFound.

(** coretype_utils::toUpperCase *)
Definition upperChar (c : ascii) : ascii :=
  let k := nat_of_ascii c in if (97 <=? k) && (k <=? 122) then ascii_of_nat (k - 32) else c.

Fixpoint upper (s : string) : string :=
  match s with EmptyString => EmptyString | String c r => String (upperChar c) (upper r) end.

(** std::stoi: spaces, a sign, digits up to anything else; [None]: it
    throws. *)
Definition isDigit (c : ascii) : bool := (48 <=? nat_of_ascii c) && (nat_of_ascii c <=? 57).
Definition isSpace (c : ascii) : bool := (nat_of_ascii c =? 32) || ((9 <=? nat_of_ascii c) && (nat_of_ascii c <=? 13)).

Fixpoint digits (acc : Z) (s : string) : Z :=
  match s with
  | EmptyString => acc
  | String c r => if isDigit c then digits (10 * acc + Z.of_nat (nat_of_ascii c - 48))%Z r else acc
  end.

Definition number (s : string) : option Z :=
  match s with String c r => if isDigit c then Some (digits 0 s) else None | EmptyString => None end.

Definition signed (s : string) : option Z :=
  match s with
  | String "-" r => match number r with Some z => Some (- z)%Z | None => None end
  | String "+" r => number r
  | _ => number s
  end.

Fixpoint skip (s : string) : string :=
  match s with String c r => if isSpace c then skip r else s | EmptyString => s end.

Definition stoi (s : string) : option Z :=
  match signed (skip s) with
  | Some z => if ((-2147483648 <=? z) && (z <=? 2147483647))%Z then Some z else None
  | None => None
  end.

(** The environment, and OPENDAQ_LOG_LEVEL of the build (log.h:25-31). *)
Record env := Env { var : string -> option string; built : nat }.

Definition levelOf (e : env) (v : string) : Z :=
  match var e v with
  | Some s => match stoi s with Some z => z | None => -1 end
  | None => -1
  end%Z.

(** logger_component_impl.cpp:138-180 getDefaultLogLevel *)
Definition defaultLevel (e : env) (name : string) : nat :=
  let own := levelOf e ("OPENDAQ_" ++ upper name ++ "_LOG_LEVEL") in
  let z := if (own <? 0)%Z then levelOf e "OPENDAQ_LOG_LEVEL" else own in
  if ((z <? 0) || (6 <? z))%Z then built e else Z.to_nat z.

(** logger_component_impl.cpp:182-185 getLogLevelFromParam *)
Definition fromParam (e : env) (name : string) (lv : nat) : nat := if lv =? Default then defaultLevel e name else lv.

Record comp := Comp { cname : string; clevel : nat; cflush : nat }.

(** A message with the component and its level. *)
Definition entry := (nat * string * nat)%type.
Definition eLevel (x : entry) : nat := snd x.

(** [flushed]: how many of the messages were written out. *)
Record sink := Sink { slevel : nat; got : list entry; flushed : nat }.

Inductive task := Msg (x : entry) | FlushT.

Record lg := Lg { level : nat; flushLevel : nat; comps : list comp; names : list (string * nat);
                  queue : list task; sinks : list sink }.

(** logger_impl.cpp:17-43 *)
Definition new (lv : nat) (ss : list nat) : lg := Lg lv Off [] [] [] (map (fun l => Sink l [] 0) ss).

Fixpoint find (n : string) (l : list (string * nat)) : option nat :=
  match l with [] => None | (k, i) :: r => if String.eqb k n then Some i else find n r end.

Definition withComps (c : list comp) (s : lg) : lg := Lg (level s) (flushLevel s) c (names s) (queue s) (sinks s).
Definition withSinks (k : list sink) (s : lg) : lg := Lg (level s) (flushLevel s) (comps s) (names s) (queue s) k.
Definition post (t : list task) (s : lg) : lg := Lg (level s) (flushLevel s) (comps s) (names s) (queue s ++ t) (sinks s).

(** A new component with its name in the logger. *)
Definition create (e : env) (n : string) (s : lg) : lg :=
  Lg (level s) (flushLevel s) (comps s ++ [Comp n (fromParam e n (level s)) (flushLevel s)]) ((n, length (comps s)) :: names s)
     (queue s) (sinks s).

(** logger_impl.cpp:62-98 getOrAddComponent *)
Definition getOrAdd (e : env) (n : string) (s : lg) : lg * res * option nat :=
  if String.eqb n EmptyString then (s, InvalidParameter, None)
  else match find n (names s) with
       | Some i => (s, Ok, Some i)
       | None => (create e n s, Ok, Some (length (comps s)))
       end.

(** logger_impl.cpp:100-134 addComponent; the component it creates first is
    dropped if the name exists. *)
Definition add (e : env) (n : string) (s : lg) : lg * res * option nat :=
  if String.eqb n EmptyString then (s, InvalidParameter, None)
  else match find n (names s) with
       | Some _ => (s, AlreadyExists, None)
       | None => (create e n s, Ok, Some (length (comps s)))
       end.

(** logger_impl.cpp:136-156 removeComponent *)
Definition remove (n : string) (s : lg) : lg * res :=
  match find n (names s) with
  | None => (s, NotFound)
  | Some _ =>
      (Lg (level s) (flushLevel s) (comps s) (filter (fun p => negb (String.eqb (fst p) n)) (names s)) (queue s ++ [FlushT]) (sinks s), Ok)
  end.

Fixpoint update {A} (i : nat) (f : A -> A) (l : list A) : list A :=
  match l, i with
  | [], _ => []
  | a :: r, 0 => f a :: r
  | a :: r, S j => a :: update j f r
  end.

(** logger_component_impl.cpp:78-82 setLevel *)
Definition compLevel (e : env) (i lv : nat) (s : lg) : lg :=
  withComps (update i (fun c => Comp (cname c) (fromParam e (cname c) lv) (cflush c)) (comps s)) s.

(** logger_component_impl.cpp:127-131 flushOnLevel *)
Definition onLevel (lv : nat) (c : comp) : comp := Comp (cname c) (clevel c) lv.
Definition compFlushOn (i lv : nat) (s : lg) : lg := withComps (update i (onLevel lv) (comps s)) s.

(** logger_impl.cpp:211-223 flushOnLevel *)
Definition flushOn (lv : nat) (s : lg) : lg :=
  Lg (level s) lv (fold_left (fun c p => update (snd p) (onLevel lv) c) (names s) (comps s)) (names s) (queue s) (sinks s).

(** should_log of a component *)
Definition shouldLog (i lv : nat) (s : lg) : bool :=
  match nth_error (comps s) i with Some c => clevel c <=? lv | None => false end.

(** logger_component_impl.cpp:95-100 logMessage *)
Definition log (i : nat) (m : string) (lv : nat) (s : lg) : lg :=
  if shouldLog i lv s then post [Msg (i, m, lv)] s else s.

Definition flushSink (k : sink) : sink := Sink (slevel k) (got k) (length (got k)).
Definition deliver (x : entry) (k : sink) : sink :=
  if slevel k <=? eLevel x then Sink (slevel k) (got k ++ [x]) (flushed k) else k.

(** logger_impl.cpp:203-209, 225-241 flush: every component posts a flush,
    then the sinks are flushed. *)
Definition flush (s : lg) : lg :=
  let s1 := post (map (fun _ => FlushT) (names s)) s in withSinks (map flushSink (sinks s1)) s1.

(** The thread of the pool takes one entry (async_logger::backend_sink_it_,
    backend_flush_, should_flush_). *)
Definition autoFlush (x : entry) (s : lg) : bool :=
  match nth_error (comps s) (fst (fst x)) with
  | Some c => (cflush c <=? eLevel x) && negb (eLevel x =? Off)
  | None => false
  end.

Definition work (s : lg) : lg :=
  match queue s with
  | [] => s
  | t :: r =>
      let ks := match t with
                | Msg x => let d := map (deliver x) (sinks s) in if autoFlush x s then map flushSink d else d
                | FlushT => map flushSink (sinks s)
                end in
      Lg (level s) (flushLevel s) (comps s) (names s) r ks
  end.

Inductive op :=
| SetLevel (lv : nat)
| FlushOn (lv : nat)
| Add (n : string)
| GetOrAdd (n : string)
| Remove (n : string)
| CompLevel (i lv : nat)
| CompFlushOn (i lv : nat)
| CompFlush (i : nat)
| Log (i : nat) (m : string) (lv : nat)
| SinkLevel (k lv : nat)
| Flush
| Work.

Definition step (e : env) (p : op) (s : lg) : lg :=
  match p with
  | SetLevel lv => Lg lv (flushLevel s) (comps s) (names s) (queue s) (sinks s)
  | FlushOn lv => flushOn lv s
  | Add n => fst (fst (add e n s))
  | GetOrAdd n => fst (fst (getOrAdd e n s))
  | Remove n => fst (remove n s)
  | CompLevel i lv => compLevel e i lv s
  | CompFlushOn i lv => compFlushOn i lv s
  | CompFlush i => if i <? length (comps s) then post [FlushT] s else s
  | Log i m lv => log i m lv s
  | SinkLevel k lv => withSinks (update k (fun x => Sink lv (got x) (flushed x)) (sinks s)) s
  | Flush => flush s
  | Work => work s
  end.

Fixpoint run (e : env) (l : list op) (s : lg) : lg := match l with [] => s | p :: r => run e r (step e p s) end.
