(** What a user of mirrored signals relies on. *)
From Coq Require Import List Bool Arith.
Import ListNotations.
From Verif Require Import Mir_Model.

(** Somebody is connected to the signal. *)
Definition listening (st : state) (v : nat) : Prop := g_conns (st_sig st v) <> [].

(** Signal [v] is to be received through source [s]: somebody listens to it,
    it is streamed, and [s] is its active source. *)
Definition receives (st : state) (v s : nat) : Prop :=
  listening st v /\ g_streamed (st_sig st v) = true /\ active_source st v = Some s.

(** [v] needs signal [g] from source [s]: it is received through [s], and [g]
    is the signal itself or its domain signal (which is still there, and the
    source is one that subscribes domain signals). *)
Definition needs (st : state) (v s g : nat) : Prop :=
  receives st v s /\
  (v = g \/
   g_domain (st_sig st v) = Some g /\ g_removed (st_sig st g) = false /\ r_skip (st_src st s) = false).

(** The server has been asked for [g] and neither was the request cancelled nor
    did the signal disappear since. *)
Fixpoint asked_rev (s g : nat) (w : list note) : bool :=
  match w with
  | [] => false
  | Ask s' g' :: w => if Nat.eqb s s' && Nat.eqb g g' then true else asked_rev s g w
  | Cancel s' g' :: w | Gone s' g' :: w => if Nat.eqb s s' && Nat.eqb g g' then false else asked_rev s g w
  end.
Definition asked (w : list note) (s g : nat) : Prop := asked_rev s g (rev w) = true.

(** The source has the signal (getStreamingSources of the signal lists it). *)
Definition has (st : state) (s g : nat) : Prop :=
  In s (g_sources (st_sig st g)) /\ r_alive (st_src st s) = true.

(** Circumstances that the theorems leave out: the device changes the domain
    signal of a signal that is being received; a domain signal is taken from a
    source while another signal is received through it; a removed signal is
    given to a source. *)
Definition calm (st : state) (o : op) : Prop :=
  match o with
  | SetDomain v _ => forall s, ~ receives st v s
  | RemoveSignal s d => forall v, v <> d -> ~ needs st v s d
  | AddSignal _ g => g_removed (st_sig st g) = false
  | _ => True
  end.

(** States reached by calls none of which reported an error. *)
Inductive reached (n : nat) (skip : nat -> bool) : state -> Prop :=
| r_start : reached n skip (start n skip)
| r_step : forall st o, reached n skip st -> calm st o -> failed (snd (step st o)) = false ->
    reached n skip (fst (step st o)).

(** States reached by any calls. *)
Definition run (st : state) (l : list op) : state := fold_left (fun s o => fst (step s o)) l st.
Definition outcomes (st : state) (l : list op) : list outcome :=
  snd (fold_left (fun '(s, r) o => (fst (step s o), r ++ [snd (step s o)])) l (st, [])).

(** Every source that has a signal has its domain signal too, or does not
    subscribe domain signals; a signal is not its own domain signal. *)
Definition complete (st : state) : Prop :=
  forall v s d, has st s v -> g_domain (st_sig st v) = Some d -> g_removed (st_sig st d) = false ->
  d <> v /\ (r_skip (st_src st s) = false -> has st s d).
