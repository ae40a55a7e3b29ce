(** Model of how the origin text of a domain becomes a point in time, and of how readers bring
    domains with different origins to a common one.

    Sources (under /repo/core/opendaq/):
    - reader/include/opendaq/reader_utils.h 60-96: fixupIso8601, parseEpoch
    - reader/include/opendaq/time_reader.h 222-245: TimeReaderBase::handleDescriptorChanged
    - reader/include/opendaq/reader_domain_info.h 41-66: setEpochOffset
    - reader/src/signal_reader.cpp 162-168: the origin a reader keeps for its signal

    The function date::from_stream belongs to the date library, which is not in the repository.
    It is modelled from its documentation, for the one format the code uses: "%FT%T%z".

    Simplified: signs in front of the year are refused here (the library accepts them); the
    seconds are read exactly, where the library reads them as a long double; signed overflow,
    undefined in C++, is modelled as wrapping; logging is left out. *)
From Coq Require Import String Ascii List ZArith Bool.
Import ListNotations.
Open Scope string_scope.
Open Scope Z_scope.

(** ** Text *)

(** std::string::find of one character (reader_utils.h 67, 77). *)
Fixpoint has (c : ascii) (s : string) : bool :=
  match s with
  | EmptyString => false
  | String x r => Ascii.eqb x c || has c r
  end.

(** The last character is [c] (reader_utils.h 72: epoch[epoch.size() - 1]). *)
Fixpoint lastIs (c : ascii) (s : string) : bool :=
  match s with
  | EmptyString => false
  | String x EmptyString => Ascii.eqb x c
  | String _ r => lastIs c r
  end.

(** All but the last character (reader_utils.h 75: erase(size() - 1)). *)
Fixpoint dropLast (s : string) : string :=
  match s with
  | EmptyString => EmptyString
  | String x EmptyString => EmptyString
  | String x r => String x (dropLast r)
  end.

(** reader_utils.h 64-84: fixupIso8601. *)
Definition fixup (s : string) : string :=
  if negb (has "T" s) then s ++ "T00:00:00+00:00"
  else if lastIs "Z" s then dropLast s ++ "+00:00"
  else if negb (has "+" s) then s ++ "+00:00"
  else s.

(** ** The date library's reader for "%FT%T%z" *)

(** A decimal digit. *)
Definition isDigit (c : ascii) : bool :=
  (48 <=? Z.of_nat (nat_of_ascii c)) && (Z.of_nat (nat_of_ascii c) <=? 57).

(** ... and its value. *)
Definition digitVal (c : ascii) : Z := Z.of_nat (nat_of_ascii c) - 48.

(** At most [k] further digits. *)
Fixpoint readDigits (k : nat) (acc : Z) (s : string) : Z * string :=
  match k, s with
  | S k', String c r =>
      if isDigit c then readDigits k' (10 * acc + digitVal c) r else (acc, s)
  | _, _ => (acc, s)
  end.

(** A number of one to [k] digits. *)
Definition readNum (k : nat) (s : string) : option (Z * string) :=
  match s with
  | String c _ => if isDigit c then Some (readDigits k 0 s) else None
  | EmptyString => None
  end.

(** One fixed character of the format. *)
Definition expect (c : ascii) (s : string) : option string :=
  match s with
  | String x r => if Ascii.eqb x c then Some r else None
  | EmptyString => None
  end.

(** Digits after the decimal point, down to the clock's nanoseconds. *)
Fixpoint readFraction (k : nat) (s : string) : Z * string :=
  match k, s with
  | S k', String c r =>
      if isDigit c
      then let (v, rest) := readFraction k' r in (digitVal c * 10 ^ Z.of_nat k' + v, rest)
      else (0, s)
  | _, _ => (0, s)
  end.

(** The seconds of %T for a clock of nanoseconds: nanoseconds and what is left. *)
Definition readSeconds (s : string) : option (Z * string) :=
  match readNum 12 s with
  | None => None
  | Some (sec, r) =>
      if sec <? 60
      then match expect "." r with
           | Some r' => let (f, rest) := readFraction 9 r' in Some (sec * 1000000000 + f, rest)
           | None => Some (sec * 1000000000, r)
           end
      else None
  end.

(** %z: a sign, two digits of hours, and two digits of minutes if a digit follows at once; there
    is no colon in this format (that is %Ez). In seconds. *)
Definition readOffset (s : string) : option Z :=
  let digits (sign : Z) (r : string) :=
    match r with
    | String a (String b rest) =>
        if isDigit a && isDigit b
        then match rest with
             | String c (String d _) =>
                 if isDigit c
                 then if isDigit d
                      then Some (sign * ((10 * digitVal a + digitVal b) * 3600
                                         + (10 * digitVal c + digitVal d) * 60))
                      else None
                 else Some (sign * ((10 * digitVal a + digitVal b) * 3600))
             | String c EmptyString =>
                 if isDigit c then None else Some (sign * ((10 * digitVal a + digitVal b) * 3600))
             | EmptyString => Some (sign * ((10 * digitVal a + digitVal b) * 3600))
             end
        else None
    | _ => None
    end in
  match s with
  | String x r => if Ascii.eqb x "+" then digits 1 r else if Ascii.eqb x "-" then digits (-1) r else None
  | EmptyString => None
  end.

(** year::is_leap of the date library. *)
Definition isLeap (y : Z) : bool :=
  (y mod 4 =? 0) && (negb (y mod 100 =? 0) || (y mod 400 =? 0)).

(** The last day of a month (year_month_day::ok). *)
Definition lastDay (y m : Z) : Z :=
  if m =? 2 then (if isLeap y then 29 else 28)
  else if (m =? 4) || (m =? 6) || (m =? 9) || (m =? 11) then 30 else 31.

(** year_month_day::to_days of the date library. *)
Definition toDays (y0 m d : Z) : Z :=
  let y := if m <=? 2 then y0 - 1 else y0 in
  let era := y / 400 in
  let yoe := y - era * 400 in
  let doy := (153 * (if 2 <? m then m - 3 else m + 9) + 2) / 5 + d - 1 in
  let doe := yoe * 365 + yoe / 4 - yoe / 100 + doy in
  era * 146097 + doe - 719468.

(** A 64-bit signed integer. *)
Definition wrap64 (x : Z) : Z := (x + 2 ^ 63) mod 2 ^ 64 - 2 ^ 63.

(** The point in time, in ticks of the system clock (nanoseconds in 64 bits). *)
Definition ticks (days hours minutes ns offset : Z) : Z :=
  wrap64 ((days * 86400 - offset + hours * 3600 + minutes * 60) * 1000000000 + ns).

(** date::from_stream(stream, "%FT%T%z", epoch); what follows the offset is not looked at. *)
Definition fromStream (s : string) : option Z :=
  match readNum 4 s with None => None | Some (y, s1) =>
  match expect "-" s1 with None => None | Some s2 =>
  match readNum 2 s2 with None => None | Some (m, s3) =>
  match expect "-" s3 with None => None | Some s4 =>
  match readNum 2 s4 with None => None | Some (d, s5) =>
  match expect "T" s5 with None => None | Some s6 =>
  match readNum 2 s6 with None => None | Some (h, s7) =>
  match expect ":" s7 with None => None | Some s8 =>
  match readNum 2 s8 with None => None | Some (mi, s9) =>
  match expect ":" s9 with None => None | Some s10 =>
  match readSeconds s10 with None => None | Some (ns, s11) =>
  match readOffset s11 with None => None | Some o =>
    if (1 <=? m) && (m <=? 12) && (1 <=? d) && (d <=? lastDay y m) && (h <? 24) && (mi <? 60)
    then Some (ticks (toDays y m d) h mi ns o)
    else None
  end end end end end end end end end end end end.

(** reader_utils.h 86-96: parseEpoch; the point in time and whether reading went well. A failed
    reading leaves the new time point at its initial value. *)
Definition parseEpoch (origin : string) : Z * bool :=
  match fromStream (fixup origin) with
  | Some t => (t, true)
  | None => (0, false)
  end.

(** signal_reader.cpp 162-163: the reader does not ask whether reading went well. *)
Definition readerEpoch (origin : string) : Z := fst (parseEpoch origin).

(** ** The time reader *)

(** What a time reader keeps: the point in time of the origin (time_reader.h 51). *)
Inductive timeResult : Type :=
| TimeOk (epoch : Z)
| TimeThrows (epoch : Z).

(** time_reader.h 222-245: handleDescriptorChanged; a failed reading leaves the old time point. *)
Definition timeDescriptor (epoch : Z) (quantity symbol origin : string) : timeResult :=
  if negb (String.eqb quantity "time") then TimeThrows epoch
  else if negb (String.eqb symbol "s") then TimeThrows epoch
  else match fromStream (fixup origin) with
       | Some t => TimeOk t
       | None => TimeOk epoch
       end.

(** ** A common origin *)

(** reader_domain_info.h 41-66: setEpochOffset; the distance of an origin from the common one, in
    ticks of the common resolution [num]/[den], in 64-bit arithmetic; the division truncates. *)
Definition epochOffset (epoch minEpoch num den : Z) : Z :=
  let offset := wrap64 (epoch - minEpoch) in
  if offset =? 0 then 0
  else Z.quot (wrap64 (offset * wrap64 (1 * den))) (wrap64 (1000000000 * num)).

(** A signal of a multi reader: whether it takes part, the point in time of its origin and its
    resolution [sNum]/[sDen] (signal_reader.h, reader_domain_info.h 68-71). *)
Record domain : Type := mkDomain {
  sUsed : bool;
  sEpoch : Z;
  sNum : Z;
  sDen : Z
}.

(** A finer resolution. The code compares doubles (multi_reader_impl.cpp 583); modelled exactly. *)
Definition finer (a b : Z * Z) : bool := fst a * snd b <? fst b * snd a.

(** One round of the loop of multi_reader_impl.cpp 573-587. *)
Definition commonStep (acc : Z * (Z * Z)) (s : domain) : Z * (Z * Z) :=
  if sUsed s
  then (if sEpoch s <? fst acc then sEpoch s else fst acc,
        if finer (sNum s, sDen s) (snd acc) then (sNum s, sDen s) else snd acc)
  else acc.

(** multi_reader_impl.cpp 560-590: setStartInfo; the common origin and resolution. *)
Definition common (l : list domain) : option (Z * (Z * Z)) :=
  match l with
  | [] => None
  | first :: _ => Some (fold_left commonStep l (sEpoch first, (sNum first, sDen first)))
  end.

(** reader_domain_info.h 30-39 and multi_typed_reader.h 97-134: a tick of a signal in ticks of the
    common resolution since the common origin. The ratio is not simplified here, and the division,
    done in double, is modelled as exact. *)
Definition commonTick (s : domain) (minEpoch num den tick : Z) : Z :=
  let multNum := sNum s * den in
  let multDen := sDen s * num in
  Z.quot (wrap64 (tick * multNum)) multDen + epochOffset (sEpoch s) minEpoch num den.
