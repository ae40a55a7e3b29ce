(** What an origin text means: the calendar, the clock and the zone, written without the model. *)
From Coq Require Import String Ascii List ZArith Bool.
Import ListNotations.
Open Scope string_scope.
Open Scope Z_scope.

(** ** The calendar *)

(** Leap years of the Gregorian calendar. *)
Definition leap (y : nat) : bool :=
  match Nat.modulo y 4, Nat.modulo y 100, Nat.modulo y 400 with
  | O, _, O => true
  | O, O, _ => false
  | O, _, _ => true
  | _, _, _ => false
  end.

(** The lengths of the months of a year, January first. *)
Definition months (y : nat) : list nat :=
  [31; if leap y then 29 else 28; 31; 30; 31; 30; 31; 31; 30; 31; 30; 31]%nat.

(** Days from the first day of year 0 to the first day of year [y]. *)
Fixpoint daysBeforeYear (y : nat) : Z :=
  match y with
  | O => 0
  | S p => daysBeforeYear p + Z.of_nat (list_sum (months p))
  end.

(** Days from 1970-01-01 to the [d]th day of the [m]th month of year [y]. *)
Definition dayNumber (y m d : nat) : Z :=
  daysBeforeYear y + Z.of_nat (list_sum (firstn (m - 1) (months y))) + Z.of_nat d - 1
  - daysBeforeYear 1970.

(** A day that exists. *)
Definition validDay (y m d : nat) : Prop :=
  Z.of_nat y < 10000 /\ (1 <= m <= 12 /\ 1 <= d <= nth (m - 1) (months y) 0)%nat.

(** A time of the day; [f] holds the digits after the decimal point, none or up to nine. *)
Definition validTime (h mi s : nat) (f : list nat) : Prop :=
  (h < 24 /\ mi < 60 /\ s < 60 /\ length f <= 9 /\ Forall (fun k => k < 10) f)%nat.

(** Nanoseconds given by the digits after the decimal point. *)
Fixpoint fraction (place : nat) (f : list nat) : Z :=
  match f, place with
  | k :: r, S p => Z.of_nat k * 10 ^ Z.of_nat p + fraction p r
  | _, _ => 0
  end.

(** Nanoseconds since 1970-01-01T00:00:00 of the same clock. *)
Definition instant (y m d h mi s : nat) (f : list nat) : Z :=
  (dayNumber y m d * 86400 + Z.of_nat h * 3600 + Z.of_nat mi * 60 + Z.of_nat s) * 1000000000
  + fraction 9 f.

(** A time the 64-bit clock of nanoseconds can hold. *)
Definition holds64 (t : Z) : Prop := - 2 ^ 63 <= t < 2 ^ 63.

(** ** Texts *)

Definition digit (k : nat) : ascii := ascii_of_nat (48 + k).

Definition two (n : nat) : string :=
  String (digit (n / 10)) (String (digit (n mod 10)) EmptyString).

Definition four (n : nat) : string := two (n / 100) ++ two (n mod 100).

(** YYYY-MM-DD *)
Definition dayText (y m d : nat) : string := four y ++ "-" ++ two m ++ "-" ++ two d.

Fixpoint digits (f : list nat) : string :=
  match f with
  | [] => EmptyString
  | k :: r => String (digit k) (digits r)
  end.

(** HH:MM:SS or HH:MM:SS.fff *)
Definition timeText (h mi s : nat) (f : list nat) : string :=
  two h ++ ":" ++ two mi ++ ":" ++ two s ++ match f with [] => EmptyString | _ => "." ++ digits f end.

(** How the zone is given. *)
Inductive zone : Type :=
| Unsaid
| Zulu
| Ahead (colon : bool) (h m : nat)
| Behind (colon : bool) (h m : nat).

Definition zoneText (z : zone) : string :=
  match z with
  | Unsaid => EmptyString
  | Zulu => "Z"
  | Ahead c h m => "+" ++ two h ++ (if c then ":" else EmptyString) ++ two m
  | Behind c h m => "-" ++ two h ++ (if c then ":" else EmptyString) ++ two m
  end.

(** How far the zone's clock is ahead of UTC, in nanoseconds. *)
Definition zoneOffset (z : zone) : Z :=
  match z with
  | Unsaid | Zulu => 0
  | Ahead _ h m => (Z.of_nat h * 3600 + Z.of_nat m * 60) * 1000000000
  | Behind _ h m => - ((Z.of_nat h * 3600 + Z.of_nat m * 60) * 1000000000)
  end.

Definition validZone (z : zone) : Prop :=
  match z with
  | Unsaid | Zulu => True
  | Ahead _ h m | Behind _ h m => (h < 24 /\ m < 60)%nat
  end.

(** Written without a colon, or with whole hours. *)
Definition plainZone (z : zone) : Prop :=
  match z with
  | Unsaid | Zulu => True
  | Ahead c _ m | Behind c _ m => c = false \/ m = 0%nat
  end.

(** The full text of an origin. *)
Definition originText (y m d h mi s : nat) (f : list nat) (z : zone) : string :=
  dayText y m d ++ "T" ++ timeText h mi s f ++ zoneText z.

(** ** Common ticks *)

(** [n] ticks of [num]/[den] seconds after [origin] are the same instant as [n'] ticks of
    [num']/[den'] seconds after [origin'] (origins in nanoseconds; everything over one
    denominator). *)
Definition sameInstant (origin num den n origin' num' den' n' : Z) : Prop :=
  (origin * den + n * num * 1000000000) * den' = (origin' * den' + n' * num' * 1000000000) * den.
