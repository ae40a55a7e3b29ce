(** * Expression strings: lexer, parser and evaluation

    Models core/coreobjects/src/eval_value_lexer.cpp, eval_value_parser.cpp,
    eval_nodes.cpp, eval_value_impl.cpp and the operators of
    core/coretypes/include/coretypes/objectptr.h they use.

    Simplifications:
    - a source string is a [list ascii]; the implementation reads it from a C
      string, so it holds no NUL character;
    - a floating point literal keeps its text; [std::stod] and everything
      computed from floating point values is not modelled (outcome [Outside]);
    - the set of property references the parser collects on the side is not
      modelled. *)
From Coq Require Import ZArith List Bool Ascii Lia.
From Verif Require Import Base.
Import ListNotations.
Local Open Scope Z_scope.

Definition text := list ascii.

(** Largest value [std::stoll] returns; above it throws [std::out_of_range]. *)
Definition int64_max : Z := 9223372036854775807.
Definition int64_min : Z := -9223372036854775808.

(** ** Lexer *)

(** eval_value_lexer.h:30-76 [EvalValueToken]; the token [End] is the end of
    the token list. *)
Inductive token : Type :=
| TOpenParen | TCloseParen | TOpenBracket | TCloseBracket | TOpenCurly | TCloseCurly
| TPlus | TMinus | TStar | TSlash | TExclamation | TComma | TDot | TDollar | TPercent | TColon
| TOrOr | TAndAnd | TEqEq | TNotEq | TLess | TLessEq | TGreater | TGreaterEq
| TInt (z : Z) | TBool (b : bool) | TFloat (t : text) | TStr (t : text) | TIdent (t : text)
| TUnit | TSwitch | TIf.

Definition code (c : ascii) : nat := nat_of_ascii c.

(** [std::isdigit], [std::isalpha], [std::isalnum] of the "C" locale; a
    character above 127 is negative as a [char], for which they are undefined
    by the standard; the GNU library answers false. *)
Definition isdigit (c : ascii) : bool := ((48 <=? code c) && (code c <=? 57))%nat.
Definition isupper (c : ascii) : bool := ((65 <=? code c) && (code c <=? 90))%nat.
Definition islower (c : ascii) : bool := ((97 <=? code c) && (code c <=? 122))%nat.
Definition isalpha (c : ascii) : bool := isupper c || islower c.
Definition isalnum (c : ascii) : bool := isalpha c || isdigit c.

(** [f.tolower] of the classic locale *)
Definition tolower (c : ascii) : ascii :=
  if isupper c then ascii_of_nat (code c + 32) else c.

Definition isch (n : nat) (c : ascii) : bool := (code c =? n)%nat.

(** eval_value_lexer.cpp:211-215 [peek]: NUL at the end of the source *)
Definition peek (s : text) : ascii := match s with [] => Ascii.zero | c :: _ => c end.

(** the loops [while (p(peek())) advance();] *)
Fixpoint spanWhile (p : ascii -> bool) (s : text) : text * text :=
  match s with
  | [] => ([], [])
  | c :: s' => if p c then let (a, b) := spanWhile p s' in (c :: a, b) else ([], s)
  end.

(** [std::stoll] of a string of digits, without the range check *)
Fixpoint digitsValue (acc : Z) (ds : text) : Z :=
  match ds with
  | [] => acc
  | c :: ds' => digitsValue (acc * 10 + (Z.of_nat (code c) - 48)) ds'
  end.

Inductive scan : Type :=
| ScanFail                       (* an exception *)
| ScanSkip (rest : text)         (* no token *)
| ScanTok (t : token) (rest : text).

(** eval_value_lexer.cpp:160-183 [scanFloat] *)
Definition scanFloat (s : text) : scan :=
  let (ip, r1) := spanWhile isdigit s in
  let frac :=
    if isch 46 (peek r1) then
      let r2 := tl r1 in
      if isdigit (peek r2) then
        let (fp, r3) := spanWhile isdigit r2 in Some ("."%char :: fp, r3)
      else None
    else Some ([], r1) in
  match frac with
  | None => ScanFail
  | Some (fp, r3) =>
      if isch 101 (tolower (peek r3)) then
        let e := peek r3 in
        let r4 := tl r3 in
        let (sign, r5) :=
          if isch 43 (peek r4) || isch 45 (peek r4) then ([peek r4], tl r4) else ([], r4) in
        if isdigit (peek r5) then
          let (ep, r6) := spanWhile isdigit r5 in
          ScanTok (TFloat (ip ++ fp ++ e :: sign ++ ep)) r6
        else ScanFail
      else ScanTok (TFloat (ip ++ fp)) r3
  end.

(** eval_value_lexer.cpp:142-158 [scanNumber] *)
Definition scanNumber (s : text) : scan :=
  let (ds, r) := spanWhile isdigit s in
  if negb (isch 46 (peek r)) && negb (isch 101 (tolower (peek r))) then
    let v := digitsValue 0 ds in
    if v <=? int64_max then ScanTok (TInt v) r else ScanFail
  else scanFloat s.

(** eval_value_lexer.cpp:124-140 [scanString]: the delimiter has been read.
    Escapes are not handled; at the end of the source nothing is emitted. *)
Fixpoint scanStringBody (delimiter : ascii) (s : text) : option (text * text) :=
  match s with
  | [] => None
  | c :: s' =>
      if Ascii.eqb c delimiter then Some ([], s')
      else match scanStringBody delimiter s' with
           | Some (v, r) => Some (c :: v, r)
           | None => None
           end
  end.

Definition scanString (delimiter : ascii) (s : text) : scan :=
  match scanStringBody delimiter s with
  | Some (v, r) => ScanTok (TStr v) r
  | None => ScanSkip []
  end.

(** eval_value_lexer.cpp:185-195 [advanceOverIdentifier] *)
Definition isIdentChar (c : ascii) : bool := isalnum c || isch 95 c || isch 46 c.

Definition text_eqb (a b : text) : bool :=
  if list_eq_dec ascii_dec a b then true else false.

Local Open Scope char_scope.
Definition kw_if : text := ["i"; "f"].
Definition kw_switch : text := ["s"; "w"; "i"; "t"; "c"; "h"].
Definition kw_true : text := ["t"; "r"; "u"; "e"].
Definition kw_false : text := ["f"; "a"; "l"; "s"; "e"].
Definition kw_unit : text := ["u"; "n"; "i"; "t"].
Definition kw_value : text := ["v"; "a"; "l"; "u"; "e"].
Definition kw_selectedvalue : text :=
  ["s"; "e"; "l"; "e"; "c"; "t"; "e"; "d"; "v"; "a"; "l"; "u"; "e"].
Definition kw_propertynames : text :=
  ["p"; "r"; "o"; "p"; "e"; "r"; "t"; "y"; "n"; "a"; "m"; "e"; "s"].

(** eval_value_lexer.h:68-75 [toCanonicalForm] *)
Definition toCanonicalForm (s : text) : text := map tolower s.

(** eval_value_lexer.cpp:108-118, the keywords *)
Definition word (name : text) : token :=
  let id := toCanonicalForm name in
  if text_eqb id kw_if then TIf
  else if text_eqb id kw_switch then TSwitch
  else if text_eqb id kw_true then TBool true
  else if text_eqb id kw_false then TBool false
  else if text_eqb id kw_unit then TUnit
  else TIdent name.

(** eval_value_lexer.cpp:40-122 [scanToken] at [c :: s] *)
Definition scanToken (c : ascii) (s : text) : scan :=
  match c with
  | " " | "009" | "010" | "013" => ScanSkip s
  | "(" => ScanTok TOpenParen s
  | ")" => ScanTok TCloseParen s
  | "[" => ScanTok TOpenBracket s
  | "]" => ScanTok TCloseBracket s
  | "{" => ScanTok TOpenCurly s
  | "}" => ScanTok TCloseCurly s
  | "+" => ScanTok TPlus s
  | "-" => ScanTok TMinus s
  | "*" => ScanTok TStar s
  | "/" => ScanTok TSlash s
  | "," => ScanTok TComma s
  | "$" => ScanTok TDollar s
  | "%" => ScanTok TPercent s
  | ":" => ScanTok TColon s
  | "|" => if isch 124 (peek s) then ScanTok TOrOr (tl s) else ScanFail
  | "&" => if isch 38 (peek s) then ScanTok TAndAnd (tl s) else ScanFail
  | "=" => if isch 61 (peek s) then ScanTok TEqEq (tl s) else ScanFail
  | "!" => if isch 61 (peek s) then ScanTok TNotEq (tl s) else ScanTok TExclamation s
  | "<" => if isch 61 (peek s) then ScanTok TLessEq (tl s) else ScanTok TLess s
  | ">" => if isch 61 (peek s) then ScanTok TGreaterEq (tl s) else ScanTok TGreater s
  | """" | "'" => scanString c s
  | "." => if isdigit (peek s) then scanFloat (c :: s) else ScanTok TDot s
  | _ =>
      if isdigit c then scanNumber (c :: s)
      else if isalpha c || isch 95 c then
        let (name, r) := spanWhile isIdentChar (c :: s) in ScanTok (word name) r
      else ScanFail
  end.
Local Close Scope char_scope.

(** eval_value_lexer.cpp:29-36 [tokenize]; [n] bounds the number of calls of
    [scanToken], each of which reads at least one character. *)
Fixpoint tokenizeN (n : nat) (s : text) : option (list token) :=
  match s with
  | [] => Some []
  | c :: s' =>
      match n with
      | O => None
      | S n' =>
          match scanToken c s' with
          | ScanFail => None
          | ScanSkip r => tokenizeN n' r
          | ScanTok t r =>
              match tokenizeN n' r with
              | Some ts => Some (t :: ts)
              | None => None
              end
          end
      end
  end.

Definition tokenize (s : text) : option (list token) := tokenizeN (length s) s.

(** ** Parser *)

(** coretype_traits.h:497-511 [BinOperationType] *)
Inductive binop : Type :=
| Add | Sub | Mul | Div | LogOr | LogAnd
| Equals | NotEquals | Greater | GreaterOrEqual | Less | LessOrEqual.

(** eval_nodes.h:33-41 [RefType]; [Argument] is replaced by the kind of the
    reference behind it (eval_nodes.cpp:95-99 [useAsArgument]). *)
Inductive refkind : Type := RValue | RProperty | RFunc | RSelectedValue | RPropertyNames.

(** eval_nodes.h:45-196. [NRef kind name index arg]: [index] is the [[n]] of
    a value reference (the code appends it to the name as text), [arg] the
    argument number, -1 if there is none. *)
Inductive node : Type :=
| NFloat (t : text)
| NInt (z : Z)
| NBool (b : bool)
| NStr (t : text)
| NNeg (e : node)
| NNot (e : node)
| NBin (o : binop) (a b : node)
| NIf (c a b : node)
| NSwitch (v : node) (l : list node)
| NList (l : list node)
| NUnit (l : list node)
| NRef (k : refkind) (name : text) (index : option Z) (arg : Z).

Inductive presult (A : Type) : Type :=
| PFail                              (* an exception: the parse failed *)
| PFuel                              (* the bound of the model was reached *)
| POk (a : A) (rest : list token).
Arguments PFail {A}.
Arguments PFuel {A}.
Arguments POk {A} a rest.

(** eval_value_parser.h:37-45 [OperatorPrecedence] *)
Definition MinPrecedence : nat := 0.
Definition Logic : nat := 1.
Definition Equality : nat := 2.
Definition Term : nat := 3.
Definition Factor : nat := 4.
Definition Prefix : nat := 5.

(** eval_value_parser.cpp:65-76 the registered infix rules; 113-128 the node
    of each token *)
Definition infixRule (t : token) : option (nat * binop) :=
  match t with
  | TEqEq => Some (Equality, Equals)
  | TNotEq => Some (Equality, NotEquals)
  | TLess => Some (Equality, Less)
  | TLessEq => Some (Equality, LessOrEqual)
  | TGreater => Some (Equality, Greater)
  | TGreaterEq => Some (Equality, GreaterOrEqual)
  | TAndAnd => Some (Logic, LogAnd)
  | TOrOr => Some (Logic, LogOr)
  | TPlus => Some (Term, Add)
  | TMinus => Some (Term, Sub)
  | TStar => Some (Factor, Mul)
  | TSlash => Some (Factor, Div)
  | _ => None
  end.

(** eval_value_parser.cpp:316-321 [infixTokenPrecedence] of the next token *)
Definition nextPrecedence (ts : list token) : nat :=
  match ts with
  | [] => MinPrecedence
  | t :: _ => match infixRule t with Some (q, _) => q | None => MinPrecedence end
  end.

(** eval_value_parser.cpp:246-270 [valref] *)
Definition valref (arg : Z) (ts : list token) : presult node :=
  match ts with
  | TIdent name :: TOpenBracket :: r =>
      match r with
      | TInt z :: TCloseBracket :: r' => POk (NRef RValue name (Some z) arg) r'
      | _ => PFail
      end
  | TIdent name :: r => POk (NRef RValue name None arg) r
  | _ => PFail
  end.

(** eval_value_parser.cpp:272-305 [propref] *)
Definition proprefParens (k : refkind) (name : text) (arg : Z) (ts : list token) : presult node :=
  match ts with
  | TOpenParen :: r =>
      match r with
      | TCloseParen :: r' => POk (NRef k name None arg) r'
      | _ => PFail
      end
  | _ => POk (NRef k name None arg) ts
  end.

Definition propertyItem (item : text) : option refkind :=
  let i := toCanonicalForm item in
  if text_eqb i kw_value then Some RValue
  else if text_eqb i kw_selectedvalue then Some RSelectedValue
  else if text_eqb i kw_propertynames then Some RPropertyNames
  else None.

Definition propref (arg : Z) (ts : list token) : presult node :=
  match ts with
  | TIdent name :: r =>
      match r with
      | TColon :: r1 =>
          match r1 with
          | TIdent item :: r2 =>
              match propertyItem item with
              | Some k => proprefParens k name arg r2
              | None => PFail
              end
          | _ => PFail
          end
      | _ => proprefParens RProperty name arg r
      end
  | _ => PFail
  end.

(** [static_cast<int>] of the argument number, eval_value_parser.cpp:226 *)
Definition castInt (z : Z) : Z := (z + 2147483648) mod 4294967296 - 2147483648.

(** eval_value_parser.cpp:212-231: a reference behind [{n}.] *)
Definition argref (ts : list token) : presult node :=
  match ts with
  | TInt z :: TCloseCurly :: TDot :: TPercent :: r => propref (castInt z) r
  | TInt z :: TCloseCurly :: TDot :: TDollar :: r => valref (castInt z) r
  | _ => PFail
  end.

(** [consume(t)] for the separators *)
Definition close (ts : list token) : option (list token) :=
  match ts with TCloseParen :: r => Some r | _ => None end.
Definition comma (ts : list token) : option (list token) :=
  match ts with TComma :: r => Some r | _ => None end.

Section Parser.
(** [params->useFunctionAsReferenceResolver] *)
Variable functionResolver : bool.

(** eval_value_parser.cpp:92-104 [expression] (the [while] loop is [loop]),
    106-134 [infix], 136-244 [prefix] (the loops over list elements, [switch]
    values and [unit] arguments are [elements], [values] and [arguments]).
    [n] bounds the depth of the calls. *)
Fixpoint expression (n : nat) (p : nat) (ts : list token) : presult node :=
  match n with
  | O => PFuel
  | S n' =>
      match ts with
      | [] => PFail
      | t :: ts' =>
          match prefix n' t ts' with
          | POk lhs r => loop n' p lhs r
          | PFail => PFail
          | PFuel => PFuel
          end
      end
  end
with loop (n : nat) (p : nat) (lhs : node) (ts : list token) : presult node :=
  match n with
  | O => PFuel
  | S n' =>
      match ts with
      | [] => POk lhs ts
      | t :: ts' =>
          match infixRule t with
          | None => POk lhs ts
          | Some (q, o) =>
              if (p <? q)%nat then
                match expression n' q ts' with
                | POk rhs r => loop n' p (NBin o lhs rhs) r
                | PFail => PFail
                | PFuel => PFuel
                end
              else POk lhs ts
          end
      end
  end
with prefix (n : nat) (t : token) (ts : list token) : presult node :=
  match n with
  | O => PFuel
  | S n' =>
      match t with
      | TFloat s => POk (NFloat s) ts
      | TInt z => POk (NInt z) ts
      | TBool b => POk (NBool b) ts
      | TStr s => POk (NStr s) ts
      | TExclamation =>
          match expression n' Prefix ts with
          | POk e r => POk (NNot e) r
          | PFail => PFail
          | PFuel => PFuel
          end
      | TMinus =>
          match expression n' Prefix ts with
          | POk e r => POk (NNeg e) r
          | PFail => PFail
          | PFuel => PFuel
          end
      | TOpenParen =>
          match expression n' MinPrecedence ts with
          | POk e r => match close r with Some r' => POk e r' | None => PFail end
          | PFail => PFail
          | PFuel => PFuel
          end
      | TOpenBracket =>
          match elements n' ts with
          | POk l r => POk (NList l) r
          | PFail => PFail
          | PFuel => PFuel
          end
      | TIf =>
          match ts with
          | TOpenParen :: r0 =>
              match expression n' MinPrecedence r0 with
              | POk c r1 =>
                  match comma r1 with
                  | None => PFail
                  | Some r1' =>
                      match expression n' MinPrecedence r1' with
                      | POk a r2 =>
                          match comma r2 with
                          | None => PFail
                          | Some r2' =>
                              match expression n' MinPrecedence r2' with
                              | POk b r3 =>
                                  match close r3 with
                                  | Some r3' => POk (NIf c a b) r3'
                                  | None => PFail
                                  end
                              | PFail => PFail
                              | PFuel => PFuel
                              end
                          end
                      | PFail => PFail
                      | PFuel => PFuel
                      end
                  end
              | PFail => PFail
              | PFuel => PFuel
              end
          | _ => PFail
          end
      | TSwitch =>
          match ts with
          | TOpenParen :: r0 =>
              match expression n' MinPrecedence r0 with
              | POk v r1 =>
                  match values n' r1 with
                  | POk l r2 => if (length l <? 2)%nat then PFail else POk (NSwitch v l) r2
                  | PFail => PFail
                  | PFuel => PFuel
                  end
              | PFail => PFail
              | PFuel => PFuel
              end
          | _ => PFail
          end
      | TUnit =>
          match ts with
          | TOpenParen :: r0 =>
              match arguments n' 0 r0 with
              | POk l r1 => match l with [] => PFail | _ => POk (NUnit l) r1 end
              | PFail => PFail
              | PFuel => PFuel
              end
          | _ => PFail
          end
      | TDollar => valref (-1) ts
      | TPercent => propref (-1) ts
      | TOpenCurly => argref ts
      | TIdent name => if functionResolver then POk (NRef RFunc name None (-1)) ts else PFail
      | _ => PFail
      end
  end
with elements (n : nat) (ts : list token) : presult (list node) :=
  match n with
  | O => PFuel
  | S n' =>
      match ts with
      | TCloseBracket :: r => POk [] r
      | _ =>
          match expression n' MinPrecedence ts with
          | POk e r =>
              match r with
              | TCloseBracket :: r' => POk [e] r'
              | TComma :: r' =>
                  match elements n' r' with
                  | POk l r'' => POk (e :: l) r''
                  | PFail => PFail
                  | PFuel => PFuel
                  end
              | _ => PFail
              end
          | PFail => PFail
          | PFuel => PFuel
          end
      end
  end
with values (n : nat) (ts : list token) : presult (list node) :=
  match n with
  | O => PFuel
  | S n' =>
      match ts with
      | TCloseParen :: r => POk [] r
      | TComma :: r =>
          match expression n' MinPrecedence r with
          | POk e r' =>
              match values n' r' with
              | POk l r'' => POk (e :: l) r''
              | PFail => PFail
              | PFuel => PFuel
              end
          | PFail => PFail
          | PFuel => PFuel
          end
      | _ => PFail
      end
  end
with arguments (n : nat) (k : nat) (ts : list token) : presult (list node) :=
  match n with
  | O => PFuel
  | S n' =>
      match ts with
      | TCloseParen :: r => POk [] r
      | _ =>
          if (3 <? k)%nat then PFail
          else
          match expression n' MinPrecedence ts with
          | POk e r =>
              match r with
              | TCloseParen :: r' => POk [e] r'
              | TComma :: r' =>
                  match arguments n' (S k) r' with
                  | POk l r'' => POk (e :: l) r''
                  | PFail => PFail
                  | PFuel => PFuel
                  end
              | _ => PFail
              end
          | PFail => PFail
          | PFuel => PFuel
          end
      end
  end.

(** eval_value_parser.cpp:80-83 [parse]: one expression; what follows it is
    not looked at. *)
Definition parseTokens (ts : list token) : presult node :=
  expression (S (3 * length ts)) MinPrecedence ts.

(** eval_value_parser.cpp:24-41 [parseEvalValue]: [None] is a failed parse. *)
Definition parseEvalValue (s : text) : option node :=
  match tokenize s with
  | None => None
  | Some ts => match parseTokens ts with POk e _ => Some e | _ => None end
  end.
End Parser.

(** ** Evaluation *)

(** The core types evaluated: booleans, integers, strings and lists. *)
Inductive value : Type :=
| VBool (b : bool)
| VInt (z : Z)
| VStr (t : text)
| VList (l : list value).

Inductive result : Type :=
| Val (v : value)
| CalcFailed        (* an exception, reported as OPENDAQ_ERR_CALCFAILED *)
| Undefined         (* signed overflow, division by zero: undefined behaviour *)
| Outside.          (* floating point, conversions from and to strings, units *)

(** coretype.h:31-37: the order of the core types decides the common type *)
Definition ctOf (v : value) : nat :=
  match v with VBool _ => 0 | VInt _ => 1 | VStr _ => 3 | VList _ => 4 end%nat.

Definition fits (z : Z) : bool := (int64_min <=? z) && (z <=? int64_max).
Definition int (z : Z) : result := if fits z then Val (VInt z) else Undefined.

Definition b2z (b : bool) : Z := if b then 1 else 0.
(** conversion of a boolean or an integer to [Int] *)
Definition asInt (v : value) : Z := match v with VBool b => b2z b | VInt z => z | _ => 0 end.

(** coretype_traits.h:518-612 [BinOperation<Int, O>] *)
Definition intOp (o : binop) (a b : Z) : result :=
  match o with
  | Add => int (a + b)
  | Sub => int (a - b)
  | Mul => int (a * b)
  | Div => if b =? 0 then Undefined else int (Z.quot a b)
  | LogOr => Val (VBool (negb (a =? 0) || negb (b =? 0)))
  | LogAnd => Val (VBool (negb (a =? 0) && negb (b =? 0)))
  | _ => Outside
  end.

(** [BinOperation<Bool, O>]; arithmetic on the bytes of two booleans is left
    out. *)
Definition boolOp (o : binop) (a b : bool) : result :=
  match o with
  | LogOr => Val (VBool (a || b))
  | LogAnd => Val (VBool (a && b))
  | _ => Outside
  end.

(** [BinOperation<std::string, O>]: only concatenation is defined *)
Definition strOp (o : binop) (a b : text) : result :=
  match o with
  | Add => Val (VStr (a ++ b))
  | Sub | Mul | Div | LogOr | LogAnd => CalcFailed
  | _ => Outside
  end.

Fixpoint depth (v : value) : nat :=
  match v with
  | VList l => S (fold_right (fun v d => Nat.max (depth v) d) 0%nat l)
  | _ => 0%nat
  end.

(** the loop over the items of a list, objectptr.h:851-862, 886-895; the
    first failure ends it *)
Fixpoint collect (l : list result) : result :=
  match l with
  | [] => Val (VList [])
  | Val v :: l' =>
      match collect l' with
      | Val (VList vs) => Val (VList (v :: vs))
      | r => r
      end
  | r :: _ => r
  end.

(** objectptr.h:835-863 [baseObjectBinOpOfTwoList]: both counts are read from
    the left list, so the lengths are never compared; [getItemAt] of the right
    list fails behind its end. *)
Fixpoint twoLists (f : value -> value -> result) (l r : list value) : list result :=
  match l with
  | [] => []
  | a :: l' =>
      match r with
      | [] => [CalcFailed]
      | b :: r' => f a b :: twoLists f l' r'
      end
  end.

(** objectptr.h:910-934 [baseObjectBinOp], 826-830, 865-908. In
    [baseObjectBinOpOfListAndScalar] the item is always the left operand. *)
Fixpoint binOpN (n : nat) (o : binop) (l r : value) : result :=
  match n with
  | O => Outside
  | S n' =>
      match l, r with
      | VBool a, VBool b => boolOp o a b
      | VList a, VList b => collect (twoLists (binOpN n' o) a b)
      | VList a, s => collect (map (fun item => binOpN n' o item s) a)
      | s, VList b => collect (map (fun item => binOpN n' o item s) b)
      | VStr a, VStr b => strOp o a b
      | VStr _, _ => Outside
      | _, VStr _ => Outside
      | _, _ => intOp o (asInt l) (asInt r)
      end
  end.

Definition binOp (o : binop) (l r : value) : result := binOpN (S (depth l + depth r)) o l r.

(** [strcmp] as an order of texts *)
Fixpoint text_cmp (a b : text) : comparison :=
  match a, b with
  | [], [] => Eq
  | [], _ => Lt
  | _, [] => Gt
  | c :: a', d :: b' =>
      match Nat.compare (code c) (code d) with Eq => text_cmp a' b' | x => x end
  end.

(** equality of lists: item by item, same core type *)
Fixpoint value_eqb (a b : value) : bool :=
  match a, b with
  | VBool x, VBool y => Bool.eqb x y
  | VInt x, VInt y => x =? y
  | VStr x, VStr y => text_eqb x y
  | VList x, VList y =>
      (fix all (x y : list value) : bool :=
         match x, y with
         | [], [] => true
         | v :: x', w :: y' => value_eqb v w && all x' y'
         | _, _ => false
         end) x y
  | _, _ => false
  end.

(** ordinalobject_impl.h:189-226 [compareTo]: the other value is converted to
    the type of the left one; stringobject_impl.cpp:197-229. [None]: a
    conversion from or to a string, not modelled. *)
Definition compareTo (l r : value) : option comparison :=
  match l, r with
  | VBool a, VBool b => Some (Z.compare (b2z a) (b2z b))
  | VBool a, VInt z => Some (Z.compare (b2z a) (b2z (negb (z =? 0))))
  | VInt z, VInt w => Some (Z.compare z w)
  | VInt z, VBool b => Some (Z.compare z (b2z b))
  | VStr a, VStr b => Some (text_cmp a b)
  | _, _ => None
  end.

(** objectptr.h:1086-1101 [compareObjectPtr], 1104-1137 the operators. Lists
    are not comparable: every operator falls back to equality. *)
Definition compareOp (o : binop) (l r : value) : result :=
  match l with
  | VList _ =>
      let e := value_eqb l r in
      Val (VBool (match o with NotEquals => negb e | _ => e end))
  | _ =>
      match compareTo l r with
      | None => Outside
      | Some c =>
          Val (VBool (match o, c with
                      | Equals, Eq => true
                      | NotEquals, Lt | NotEquals, Gt => true
                      | Greater, Gt => true
                      | GreaterOrEqual, Gt | GreaterOrEqual, Eq => true
                      | Less, Lt => true
                      | LessOrEqual, Lt | LessOrEqual, Eq => true
                      | _, _ => false
                      end))
      end
  end.

(** eval_nodes.h:212-220 [BinaryOpNode::getResult] *)
Definition applyBin (o : binop) (l r : value) : result :=
  match o with
  | Add | Sub | Mul | Div | LogOr | LogAnd => binOp o l r
  | _ => compareOp o l r
  end.

(** conversion to [Bool]; of a string it is not modelled, of a list it throws *)
Inductive truth : Type := Truth (b : bool) | NoTruth | TruthOutside.
Definition truthOf (v : value) : truth :=
  match v with
  | VBool b => Truth b
  | VInt z => Truth (negb (z =? 0))
  | VStr _ => TruthOutside
  | VList _ => NoTruth
  end.

Section Calc.
(** the value a reference was resolved to *)
Variable ref : refkind -> text -> option Z -> Z -> option value.

(** eval_nodes.cpp:113-299 [visit] with [resolveReference]: every reference of
    the tree is resolved before anything is computed, also in the branches
    that are not taken. *)
Fixpoint resolved (e : node) : bool :=
  match e with
  | NRef k s i a => match ref k s i a with Some _ => true | None => false end
  | NNeg e | NNot e => resolved e
  | NBin _ a b => resolved a && resolved b
  | NIf c a b => resolved c && resolved a && resolved b
  | NSwitch v l => resolved v && forallb resolved l
  | NList l | NUnit l => forallb resolved l
  | _ => true
  end.

Definition bind (r : result) (f : value -> result) : result :=
  match r with Val v => f v | x => x end.

(** eval_nodes.cpp:187-204 [SwitchNode::getResult]; [cases] holds the results
    of the value nodes as delayed computations *)
Fixpoint switch (v : value) (cases : list (unit -> result)) : result :=
  match cases with
  | [] => CalcFailed
  | [d] => d tt
  | c :: x :: cases' =>
      bind (c tt) (fun w =>
      bind (compareOp Equals v w) (fun t =>
      match t with VBool true => x tt | _ => switch v cases' end))
  end.

Fixpoint calc (e : node) : result :=
  match e with
  | NFloat _ => Outside
  | NInt z => Val (VInt z)
  | NBool b => Val (VBool b)
  | NStr s => Val (VStr s)
  | NNeg e =>
      (* objectptr.h:989-1005 *)
      bind (calc e) (fun v => match v with VInt z => int (- z) | _ => CalcFailed end)
  | NNot e =>
      bind (calc e) (fun v =>
      match truthOf v with
      | Truth b => Val (VBool (negb b)) | NoTruth => CalcFailed | TruthOutside => Outside
      end)
  | NBin o a b => bind (calc a) (fun v => bind (calc b) (fun w => applyBin o v w))
  | NIf c a b =>
      bind (calc c) (fun v =>
      match truthOf v with
      | Truth true => calc a | Truth false => calc b
      | NoTruth => CalcFailed | TruthOutside => Outside
      end)
  | NSwitch v l => bind (calc v) (fun x => switch x (map (fun e (_ : unit) => calc e) l))
  | NList l => collect (map calc l)
  | NUnit _ => Outside
  | NRef k s i a => match ref k s i a with Some v => Val v | None => CalcFailed end
  end.

(** What reading the result of the expression gives:
    eval_value_impl.cpp:248-256 [checkParseAndResolve], 290-306 [getResult] *)
Inductive answer : Type :=
| ParseFailed | ResolveFailed | Result (r : result).

Definition getResult (functionResolver : bool) (s : text) : answer :=
  match parseEvalValue functionResolver s with
  | None => ParseFailed
  | Some e => if resolved e then Result (calc e) else ResolveFailed
  end.
End Calc.
