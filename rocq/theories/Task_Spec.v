(** What the theorems of Task_Props.v say in words; nothing here uses the steps of the model. *)
From Verif Require Import Base Task_Model.

(** ** Building *)
(** The node of a graph or task, and the graph a node is in. *)
Definition node_of (b : build) (r : ref) : option nat :=
  match r with
  | G g => nth_error (b_graphs b) g
  | T k => match nth_error (b_tasks b) k with Some (Some i) => Some i | _ => None end
  end.
Definition graph_of (b : build) (i : nat) : option nat := nth_error (b_nodes b) i.
Definition there (b : build) (r : ref) : Prop :=
  match r with
  | G g => g < length (b_graphs b)
  | T k => k < length (b_tasks b)
  end.
(** A state some calls lead to. *)
Definition built (b : build) : Prop := exists l, builds nothing l = Some b.
Definition is_graph (r : ref) : Prop := exists g, r = G g.
(** [i] must run before [j]. *)
Definition before (b : build) (i j : nat) : Prop := In (i, j) (b_edges b).
Definition in_graph (b : build) (g i : nat) : Prop := graph_of b i = Some g.
(** Nodes can be numbered along [before]: there is no cycle. *)
Definition no_cycle (b : build) : Prop := exists rank : nat -> nat, forall i j, before b i j -> rank i < rank j.
(** What must run before a node of the graph is in the graph. *)
Definition own (b : build) (g : nat) : Prop := forall i j, before b i j -> in_graph b g j -> in_graph b g i.

(** In every call of then() the continuation has not been in a graph before. *)
Fixpoint orderly (b : build) (l : list call) : Prop :=
  match l with
  | [] => True
  | c :: r => match c with
              | Then _ x => node_of b x = None
              | _ => True
              end /\ orderly (fst (invoke b c)) r
  end.

(** ** Running *)
Definition runs (b : build) (g workers : nat) (l : list event) : Prop :=
  exists s, events b workers (begin b g) l = Some s.
(** Nothing can happen any more: the awaitable of the graph is ready. *)
Definition over (b : build) (g workers : nat) (l : list event) : Prop :=
  runs b g workers l /\ forall e, ~ runs b g workers (l ++ [e]).

(** ** Awaitables *)
Definition is_finish (c : acall) : Prop := match c with Finish _ => True | _ => False end.
(** The function ran and returned [o]. *)
Definition worked (l : list acall) (o : outcome) : Prop :=
  exists l1 l2 l3, l = l1 ++ Begin :: l2 ++ Finish o :: l3 /\ ~ In Begin l1 /\ (forall c, In c l2 -> ~ is_finish c).
(** It was cancelled before it ran. *)
Definition cancelled_first (l : list acall) : Prop :=
  exists l1 l2, l = l1 ++ Begin :: l2 /\ ~ In Begin l1 /\ In Cancel l1.
(** How often the function was called. *)
Definition times_run (l : list acall) : nat := a_ran (acted fresh l).
Definition answers (l : list acall) (c : acall) : answer := snd (acts (acted fresh l) c).
(** What getResult says of an outcome. *)
Definition answer_of (o : outcome) : answer :=
  match o with Value v => Result v | Threw e => Failed e | Nothing => Null end.
(** Answers that hand the outcome over. *)
Definition final (x : answer) : Prop :=
  match x with Result _ | Failed _ | Null => True | _ => False end.

(** ** Scheduler *)
Definition replies (l : list sevent) (e : sevent) : sanswer := snd (sact (sacts started l) e).
(** The works handed to the thread pool, and those that were executed, latest first. *)
Inductive accepted : list sevent -> list nat -> Prop :=
| acc_nil : accepted [] []
| acc_submit l ws w : accepted l ws -> replies l (Submit w) = Fine -> accepted (l ++ [Submit w]) (w :: ws)
| acc_other l ws e : accepted l ws -> (forall w, e = Submit w -> replies l (Submit w) <> Fine) -> accepted (l ++ [e]) ws.
Inductive executed : list sevent -> list nat -> Prop :=
| exe_nil : executed [] []
| exe_done l ws w : executed l ws -> replies l (Done w) = Fine -> executed (l ++ [Done w]) (w :: ws)
| exe_other l ws e : executed l ws -> (forall w, e = Done w -> replies l (Done w) <> Fine) -> executed (l ++ [e]) ws.
