(** * Err_Spec: what the users of the error information rely on

    An error is a chain of entries: the entry made by the function that
    failed first, then one entry for every function that passed the error on
    and added something.  A function either succeeds or fails with a chain;
    [meaning] says with which one, without any shared state. *)
From Coq Require Import String List ZArith NArith Bool.
From Verif Require Import Err_Model.
Import ListNotations.
Open Scope N_scope.

Record entry := Entry { e_code : N; e_text : option string; e_where : option string }.

Inductive result := Good | Bad (chain : list entry).

(** The code of a chain is the code of its newest entry. *)
Definition codeOf (ch : list entry) : N := e_code (last ch (Entry 0 None None)).

(** The chain as error objects, oldest first: the first was caused by
    nothing, every other by its predecessor. *)
Fixpoint infosFrom (p : N) (ch : list entry) : list info :=
  match ch with
  | [] => []
  | e :: r => Info (e_code e) p (e_text e) (e_where e) :: infosFrom (e_code e) r
  end.

Definition infosOf (ch : list entry) : list info := infosFrom 0 ch.

(** ** The text of an error *)

(** Release builds: only the entries after the last change of the code
    count; the newest text among them, else the default text of the code. *)
Fixpoint sameCode (c : N) (newestFirst : list entry) : list entry :=
  match newestFirst with
  | [] => []
  | e :: r => if e_code e =? c then e :: sameCode c r else []
  end.

Fixpoint firstText (l : list entry) : option string :=
  match l with
  | [] => None
  | e :: r => match e_text e with Some t => Some t | None => firstText r end
  end.

Definition releaseText (k : cfg) (ch : list entry) : string :=
  match firstText (sameCode (codeOf ch) (rev ch)) with
  | Some t => t
  | None => dflt k (codeOf ch)
  end.

(** Debug builds: one line per entry, oldest first, and the place of the
    guard. *)
Definition lineOf (k : cfg) (i : info) : string :=
  ((if (i_prev i =? 0)%N then "" else " - Caused by: ") ++
   (match i_msg i with
    | Some m => m
    | None => if (i_prev i =? i_code i)%N then "" else dflt k (i_code i)
    end) ++
   (match i_where i with
    | Some w => if dbg k
                then (match i_msg i with
                      | Some _ => " [ "
                      | None => if (i_prev i =? i_code i)%N then "[ " else " [ "
                      end) ++ w ++ " ]"
                else ""
    | None => ""
    end))%string.

Definition linesOf (k : cfg) (ch : list entry) : string :=
  String.concat newline (map (lineOf k) (infosOf ch)).

Definition debugText (k : cfg) (guard : option string) (ch : list entry) : string :=
  (linesOf k ch ++
   match guard with
   | Some f => newline ++ " - Caused by: [ " ++ f ++ " ]"
   | None => ""
   end)%string.

Definition textOf (k : cfg) (guard : option string) (ch : list entry) : string :=
  if dbg k then debugText k guard ch else releaseText k ch.

(** ** The meaning of a function *)

Definition optional (t : string) : option string :=
  match t with EmptyString => None | _ => Some t end.

Definition at_ (k : cfg) (w : string) : option string := if dbg k then Some w else None.

(** Passing an error on without a message adds an entry in debug builds
    only. *)
Definition passed (k : cfg) (ch : list entry) (w : string) : list entry :=
  if dbg k then ch ++ [Entry (codeOf ch) None (Some w)] else ch.

(** The text of the exception thrown for a chain. *)
Definition exceptionText (k : cfg) (guard : option string) (ch : list entry) : string :=
  match textOf k guard ch with EmptyString => what0 k (codeOf ch) | t => t end.

Definition linesText (k : cfg) (ch : list entry) : string := linesOf k ch.

(** [guard] is the place of the innermost guard around the function. *)
Fixpoint meaning (k : cfg) (guard : option string) (f : call) : result :=
  match f with
  | COk => Good
  | CMake c m w => Bad [Entry c (optional m) (at_ k w)]
  | CBare _ => Good
  | CSeq a w b =>
      match meaning k guard a with
      | Bad ch => Bad (passed k ch w)
      | Good => meaning k guard b
      end
  | CExtend a m w =>
      match meaning k guard a with
      | Bad ch => Bad (ch ++ [Entry (codeOf ch) (optional m) (at_ k w)])
      | Good => Good
      end
  | CChange a n m w =>
      match meaning k guard a with
      | Bad ch => Bad (ch ++ [Entry n (optional m) (at_ k w)])
      | Good => Good
      end
  | CExcept a e w =>
      match meaning k guard a with
      | Bad ch => if codeOf ch =? e then Good else Bad (passed k ch w)
      | Good => Good
      end
  | CIgnore a => Good
  | CSwallow a => Good
  | CTry a =>
      let g := if grd k then Some tryName else guard in
      match meaning k g a with
      | Bad ch => Bad [Entry (codeOf ch) (optional (exceptionText k g ch)) None]
      | Good => Good
      end
  | CWrap a =>
      let g := if grd k then Some tryName else guard in
      match meaning k g a with
      | Bad ch => if grd k then Bad [Entry (codeOf ch) (optional (linesText k ch)) None]
                  else Bad ch
      | Good => Good
      end
  | CGuarded _ a => Good
  end.

(** The conventions: every failure is made with its information, no failing
    result is ignored, nothing fails out of its own guard. *)
Fixpoint disciplined (f : call) : Prop :=
  match f with
  | COk => True
  | CMake c _ _ => failed c = true
  | CBare c => failed c = false
  | CSeq a _ b => disciplined a /\ disciplined b
  | CExtend a _ _ => disciplined a
  | CChange a n _ _ => disciplined a /\ failed n = true
  | CExcept a e _ => disciplined a /\ failed e = true
  | CIgnore a => False
  | CSwallow a | CTry a | CWrap a => disciplined a
  | CGuarded _ a => False
  end.

(** ** The errors pending on a thread *)

(** The place of the innermost guard, and the pending errors in it, oldest
    first. *)
Definition guardPlace (h : holder) : option string :=
  match h with s :: _ => s_where s | [] => None end.

Definition pending (h : holder) : list info :=
  match h with s :: _ => rev (s_infos s) | [] => [] end.

(** The guards around: the innermost one without its errors, and the outer
    ones with theirs.  A thread outside any guard has none. *)
Definition around (h : holder) : list (nat * option string * list info) :=
  match h with
  | [] => []
  | s :: r =>
      (match s_id s with Some g => [(g, s_where s, [])] | None => [] end) ++
      map (fun s => (match s_id s with Some g => g | None => O end, s_where s, s_infos s)) r
  end.

(** The sentinel exists only while it holds an error, and under no name. *)
Definition settled (h : holder) : Prop :=
  Forall (fun s => s_id s = None -> s_where s = None /\ s_infos s <> []) h.

(** [h'] is [h] with the errors of [ch] pending after the older ones. *)
Definition raisedIn (h : holder) (ch : list entry) (h' : holder) : Prop :=
  pending h' = pending h ++ infosOf ch /\
  guardPlace h' = guardPlace h /\
  around h' = around h /\
  settled h'.

(** ** The error object *)

(** What a user can read of an error object. *)
Definition visible (o : object) :=
  (o_msg o, o_src o, o_file o, o_line o, o_code o, o_prev o, o_frozen o).

Fixpoint operate (k : cfg) (line : Z -> string) (l : list oop) (o : object) : object :=
  match l with
  | [] => o
  | p :: r => operate k line r (fst (fst (ostep k line p o)))
  end.

Definition isSetter (p : oop) : Prop := p <> Freeze /\ p <> GetFormatted.
