(** What C60 says, in terms of the messages of the clients and of what the server shows:
    the connected clients, the rights of each, the ids, the device's list of clients. *)
From Verif Require Import Base Sess_Model.
Local Open Scope Z_scope.

(** The connected clients, those that configure the device, and those that stream. *)
Definition clients (sv : server) : list handler := map snd (sv_map sv).
Definition configuring (sv : server) : list handler := filter h_used (clients sv).

Definition connected (sv : server) (h : handler) : Prop := In h (clients sv).

(** The rights a configuring client was given are those of a type. *)
Definition has_rights (h : handler) (t : ctype) : Prop := h_used h = true /\ h_rights h = Some t.

(** The device can be changed by it. *)
Definition may_change (h : handler) : Prop := has_rights h Control \/ has_rights h Exclusive.

(** It configures or streams. *)
Definition in_use (h : handler) : Prop := h_used h = true \/ h_stream h <> None.

(** A property of the messages of a history, in the states they are met in. *)
Fixpoint along (ok : server -> msg -> Prop) (sv : server) (ms : list msg) : Prop :=
  match ms with
  | [] => True
  | m :: t => ok sv m /\ along ok (fst (step sv m)) t
  end.

(** The type a client announces: the one with the given number, Control when there is none. *)
Definition announces (p : props) (t : ctype) : Prop :=
  match p_type p with
  | Some 0 => t = Control
  | Some 1 => t = Exclusive
  | Some 2 => t = ViewOnly
  | _ => t = Control
  end.

(** A client that configures does not announce another type than the one it got its rights by. *)
Definition keeps_type (sv : server) (m : msg) : Prop :=
  match m with
  | Props s p =>
      forall h t, connected sv h -> h_sess h = s -> has_rights h t -> announces p t
  | _ => True
  end.

(** A client that configures or streams does not ask for another id. *)
Definition keeps_id (sv : server) (m : msg) : Prop :=
  match m with
  | Props s p =>
      forall h i again, connected sv h -> h_sess h = s -> in_use h -> p_identity p = Some (i, again) -> i = h_id h
  | _ => True
  end.

(** A client uses a connection for one thing: it does not stream where it configures. *)
Definition one_use (sv : server) (m : msg) : Prop :=
  match m with
  | Config s => forall h, connected sv h -> h_sess h = s -> h_stream h = None
  | Stream s => forall h, connected sv h -> h_sess h = s -> h_used h = false
  | _ => True
  end.

(** Something is said of a client by its number of session. *)
Definition session_of (m : msg) : option nat :=
  match m with
  | Props s _ | Config s | Stream s | Close s => Some s
  | _ => None
  end.

(** There is room for another configuring client. *)
Definition room (sv : server) : Prop :=
  sv_max sv = 0 \/ Z.of_nat (length (configuring sv)) < sv_max sv.

(** What is in the way of a client that wants to configure as its type. *)
Definition in_the_way (sv : server) (h o : handler) : Prop :=
  connected sv o /\ o <> h /\
  match h_type h with
  | ViewOnly => False
  | Control => has_rights o Exclusive
  | Exclusive => may_change o
  end.

(** The exclusive client that asks for the others to be dropped, on its first connection. *)
Definition drops_others (h : handler) : Prop :=
  h_type h = Exclusive /\ h_drop h = true /\ h_again h = false.

(** Reasons why a message ends the connection of a client. *)
Definition ends (sv : server) (m : msg) (o : handler) : Prop :=
  match m with
  | Close s => h_sess o = s
  | Props s p => exists h, connected sv h /\ h_sess h = s /\ p_identity p = Some (h_id o, true)
  | Config s => exists h, connected sv h /\ h_sess h = s /\ h <> o /\ drops_others h /\ h_used o = true
                          /\ (h_type o = Control \/ h_type o = Exclusive)
  | _ => False
  end.

(** The entry the device's list of clients has for a client. *)
Definition entry_of (h : handler) (e : entry) : Prop :=
  e_sess e = h_sess h /\
  match e_what e with
  | Configures t => has_rights h t
  | Streams => h_stream h <> None
  end.

(** Nobody configures or streams under an id. *)
Definition unused_id (i : cid) (sv : server) (m : msg) : Prop :=
  match m with
  | Config s | Stream s => forall h, connected sv h -> h_sess h = s -> h_id h <> i
  | _ => True
  end.
