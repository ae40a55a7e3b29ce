(** * What an expression string means

    The grammar documented in eval_value_parser.h:62-91, written as
    derivations, independently of how the parser works; how tokens are
    written; the mathematical value of integer and boolean expressions. *)
From Coq Require Import ZArith List Bool Ascii String.
From Verif Require Import Base Eval_Model.
Import ListNotations.
Local Open Scope Z_scope.

(** ** How tokens are written *)

Definition within (lo hi : nat) (c : ascii) : Prop := (lo <= nat_of_ascii c <= hi)%nat.

Definition digit (c : ascii) : Prop := within 48 57 c.
Definition letter (c : ascii) : Prop := within 65 90 c \/ within 97 122 c.
Definition space (c : ascii) : Prop :=
  c = " "%char \/ c = "009"%char \/ c = "010"%char \/ c = "013"%char.
Definition e_or_E (c : ascii) : Prop := c = "e"%char \/ c = "E"%char.
(** the characters a name is made of behind its first one *)
Definition name_char (c : ascii) : Prop :=
  letter c \/ digit c \/ c = "_"%char \/ c = "."%char.

(** the number a sequence of digits denotes *)
Inductive number : text -> Z -> Prop :=
| number_nil : number [] 0
| number_snoc ds z c : number ds z -> digit c ->
    number (ds ++ [c]) (10 * z + (Z.of_nat (nat_of_ascii c) - 48)).

(** two characters are the same letter, small or capital *)
Definition same_letter (c d : ascii) : Prop :=
  c = d \/
  (within 65 90 c /\ nat_of_ascii d = nat_of_ascii c + 32)%nat.

Inductive keyword : token -> text -> Prop :=
| keyword_if : keyword TIf ["i"; "f"]%char
| keyword_switch : keyword TSwitch ["s"; "w"; "i"; "t"; "c"; "h"]%char
| keyword_true : keyword (TBool true) ["t"; "r"; "u"; "e"]%char
| keyword_false : keyword (TBool false) ["f"; "a"; "l"; "s"; "e"]%char
| keyword_unit : keyword TUnit ["u"; "n"; "i"; "t"]%char.

(** [w] is the keyword [k], in any mix of small and capital letters *)
Definition cased (w k : text) : Prop := Forall2 same_letter w k.

Definition a_name (w : text) : Prop :=
  exists c r, w = c :: r /\ (letter c \/ c = "_"%char) /\ Forall name_char r.

(** the text of a floating point literal *)
Definition float_text (w : text) : Prop :=
  exists ip fp ex,
    w = ip ++ fp ++ ex /\ Forall digit ip /\
    (fp = [] \/ exists f fs, fp = "."%char :: f :: fs /\ Forall digit (f :: fs)) /\
    (ex = [] \/ exists e sg d ds, ex = e :: sg ++ d :: ds /\ e_or_E e /\
        (sg = [] \/ sg = ["+"]%char \/ sg = ["-"]%char) /\ Forall digit (d :: ds)) /\
    (ip <> [] \/ fp <> []) /\ (fp <> [] \/ ex <> []).

Inductive spelled : token -> text -> Prop :=
| s_op : spelled TOpenParen ["("]%char
| s_cp : spelled TCloseParen [")"]%char
| s_ob : spelled TOpenBracket ["["]%char
| s_cb : spelled TCloseBracket ["]"]%char
| s_oc : spelled TOpenCurly ["{"]%char
| s_cc : spelled TCloseCurly ["}"]%char
| s_plus : spelled TPlus ["+"]%char
| s_minus : spelled TMinus ["-"]%char
| s_star : spelled TStar ["*"]%char
| s_slash : spelled TSlash ["/"]%char
| s_excl : spelled TExclamation ["!"]%char
| s_comma : spelled TComma [","]%char
| s_dot : spelled TDot ["."]%char
| s_dollar : spelled TDollar ["$"]%char
| s_percent : spelled TPercent ["%"]%char
| s_colon : spelled TColon [":"]%char
| s_or : spelled TOrOr ["|"; "|"]%char
| s_and : spelled TAndAnd ["&"; "&"]%char
| s_eq : spelled TEqEq ["="; "="]%char
| s_ne : spelled TNotEq ["!"; "="]%char
| s_lt : spelled TLess ["<"]%char
| s_le : spelled TLessEq ["<"; "="]%char
| s_gt : spelled TGreater [">"]%char
| s_ge : spelled TGreaterEq [">"; "="]%char
| s_int ds z : ds <> [] -> number ds z -> z <= 9223372036854775807 -> spelled (TInt z) ds
| s_float w : float_text w -> spelled (TFloat w) w
| s_str q w : q = "'"%char \/ q = """"%char -> ~ In q w -> spelled (TStr w) (q :: w ++ [q])
| s_kw t k w : keyword t k -> cased w k -> spelled t w
| s_ident w : a_name w -> (forall t k, keyword t k -> ~ cased w k) -> spelled (TIdent w) w.

(** [ends t rest]: what follows the token does not continue it *)
Definition first_not (p : ascii -> Prop) (rest : text) : Prop :=
  forall c r, rest = c :: r -> ~ p c.

Definition ends (t : token) (rest : text) : Prop :=
  match t with
  | TExclamation | TLess | TGreater => first_not (fun c => c = "="%char) rest
  | TDot => first_not digit rest
  | TInt _ => first_not (fun c => digit c \/ c = "."%char \/ e_or_E c) rest
  | TFloat w =>
      first_not (fun c => digit c \/ (e_or_E c /\ Forall (fun d => ~ e_or_E d) w)) rest
  | TBool _ | TIdent _ | TUnit | TSwitch | TIf => first_not name_char rest
  | _ => True
  end.

(** [s] is a way to write the tokens [ts], with any white space between *)
Inductive written : list token -> text -> Prop :=
| w_end ws : Forall space ws -> written [] ws
| w_tok ws t w ts rest :
    Forall space ws -> spelled t w -> ends t rest -> written ts rest ->
    written (t :: ts) (ws ++ w ++ rest).

(** ** The grammar *)

(** The documented precedences, the loosest first. Both logic operators are
    on one level. *)
Inductive infix : token -> nat -> binop -> Prop :=
| i_or : infix TOrOr 1 LogOr
| i_and : infix TAndAnd 1 LogAnd
| i_eq : infix TEqEq 2 Equals
| i_ne : infix TNotEq 2 NotEquals
| i_lt : infix TLess 2 Less
| i_le : infix TLessEq 2 LessOrEqual
| i_gt : infix TGreater 2 Greater
| i_ge : infix TGreaterEq 2 GreaterOrEqual
| i_add : infix TPlus 3 Add
| i_sub : infix TMinus 3 Sub
| i_mul : infix TStar 4 Mul
| i_div : infix TSlash 4 Div.

Inductive item_name : refkind -> text -> Prop :=
| in_value : item_name RValue ["v"; "a"; "l"; "u"; "e"]%char
| in_selected : item_name RSelectedValue
    ["s"; "e"; "l"; "e"; "c"; "t"; "e"; "d"; "v"; "a"; "l"; "u"; "e"]%char
| in_names : item_name RPropertyNames
    ["p"; "r"; "o"; "p"; "e"; "r"; "t"; "y"; "n"; "a"; "m"; "e"; "s"]%char.

(** [reference k name index ts]: [ts] writes [$name], [$name[index]], [%name],
    [%name:item], the last two possibly with [()] *)
Inductive reference : refkind -> text -> option Z -> list token -> Prop :=
| r_value name : reference RValue name None [TDollar; TIdent name]
| r_index name z : reference RValue name (Some z)
    [TDollar; TIdent name; TOpenBracket; TInt z; TCloseBracket]
| r_prop name call : call = [] \/ call = [TOpenParen; TCloseParen] ->
    reference RProperty name None (TPercent :: TIdent name :: call)
| r_item name k i w call : call = [] \/ call = [TOpenParen; TCloseParen] ->
    item_name k i -> cased w i ->
    reference k name None (TPercent :: TIdent name :: TColon :: TIdent w :: call).

(** [derives names lax p e ts]: [ts] writes the expression [e], and every
    operator of it outside parentheses binds tighter than level [p].
    Operators of one level associate to the left; the prefixes bind tightest
    (level 5). [names]: plain names are allowed. [lax = false] is the
    documented grammar; with [lax = true] the elements of a list and the
    arguments of [unit] may be followed by a comma. *)
Section Grammar.
Variables names lax : bool.

Inductive derives : nat -> node -> list token -> Prop :=
| d_float p w : derives p (NFloat w) [TFloat w]
| d_int p z : derives p (NInt z) [TInt z]
| d_bool p b : derives p (NBool b) [TBool b]
| d_str p w : derives p (NStr w) [TStr w]
| d_name p w : names = true -> derives p (NRef RFunc w None (-1)) [TIdent w]
| d_ref p k w i ts : reference k w i ts -> derives p (NRef k w i (-1)) ts
| d_arg p k w i ts z : reference k w i ts ->
    derives p (NRef k w i (castInt z)) (TOpenCurly :: TInt z :: TCloseCurly :: TDot :: ts)
| d_paren p e ts : derives 0 e ts -> derives p e (TOpenParen :: ts ++ [TCloseParen])
| d_not p e ts : derives 5 e ts -> derives p (NNot e) (TExclamation :: ts)
| d_neg p e ts : derives 5 e ts -> derives p (NNeg e) (TMinus :: ts)
| d_bin p q o t a b ta tb :
    infix t q o -> (p < q)%nat ->
    derives (q - 1) a ta -> derives q b tb ->
    derives p (NBin o a b) (ta ++ t :: tb)
| d_list p l ts : items l ts -> derives p (NList l) (TOpenBracket :: ts ++ [TCloseBracket])
| d_if p c a b tc ta tb :
    derives 0 c tc -> derives 0 a ta -> derives 0 b tb ->
    derives p (NIf c a b)
      (TIf :: TOpenParen :: tc ++ TComma :: ta ++ TComma :: tb ++ [TCloseParen])
| d_switch p v l tv tl :
    derives 0 v tv -> more l tl -> (2 <= List.length l)%nat ->
    derives p (NSwitch v l) (TSwitch :: TOpenParen :: tv ++ tl ++ [TCloseParen])
| d_unit p l ts :
    items l ts -> (1 <= List.length l <= 4)%nat ->
    derives p (NUnit l) (TUnit :: TOpenParen :: ts ++ [TCloseParen])
(** elements separated by commas *)
with items : list node -> list token -> Prop :=
| it_none : items [] []
| it_some e te l tl last :
    derives 0 e te -> more l tl -> last = [] \/ (lax = true /\ last = [TComma]) ->
    items (e :: l) (te ++ tl ++ last)
(** further elements, a comma before each *)
with more : list node -> list token -> Prop :=
| mo_none : more [] []
| mo_some e te l tl : derives 0 e te -> more l tl -> more (e :: l) (TComma :: te ++ tl).
End Grammar.

(** The text is an expression of the documented language. *)
Definition expression_text (names : bool) (s : text) (e : node) : Prop :=
  exists ts, written ts s /\ derives names false 0 e ts.

(** ** The value of integer and boolean expressions *)

Inductive iexp : Type :=
| ILit (z : Z)
| IRef (w : text)                    (* $w *)
| INeg (a : iexp)
| IAdd (a b : iexp) | ISub (a b : iexp) | IMul (a b : iexp) | IDiv (a b : iexp)
| IIf (c : bexp) (a b : iexp)
with bexp : Type :=
| BLit (b : bool)
| BRef (w : text)                    (* w, the name of a condition *)
| BNot (a : bexp)
| BAnd (a b : bexp) | BOr (a b : bexp)
| BCmp (o : cmp) (a b : iexp)
| BSame (a b : bexp) | BDiffers (a b : bexp)
with cmp : Type := CEq | CNe | CLt | CLe | CGt | CGe.

Definition cmp_op (o : cmp) : binop :=
  match o with
  | CEq => Equals | CNe => NotEquals | CLt => Less
  | CLe => LessOrEqual | CGt => Greater | CGe => GreaterOrEqual
  end.

(** the expression tree *)
Fixpoint itree (e : iexp) : node :=
  match e with
  | ILit z => NInt z
  | IRef w => NRef RValue w None (-1)
  | INeg a => NNeg (itree a)
  | IAdd a b => NBin Add (itree a) (itree b)
  | ISub a b => NBin Sub (itree a) (itree b)
  | IMul a b => NBin Mul (itree a) (itree b)
  | IDiv a b => NBin Div (itree a) (itree b)
  | IIf c a b => NIf (btree c) (itree a) (itree b)
  end
with btree (e : bexp) : node :=
  match e with
  | BLit b => NBool b
  | BRef w => NRef RFunc w None (-1)
  | BNot a => NNot (btree a)
  | BAnd a b => NBin LogAnd (btree a) (btree b)
  | BOr a b => NBin LogOr (btree a) (btree b)
  | BCmp o a b => NBin (cmp_op o) (itree a) (itree b)
  | BSame a b => NBin Equals (btree a) (btree b)
  | BDiffers a b => NBin NotEquals (btree a) (btree b)
  end.

Section Meaning.
(** the value of every reference and the truth of every named condition *)
Variable num : text -> Z.
Variable cond : text -> bool.

Definition cmp_holds (o : cmp) (x y : Z) : bool :=
  match o with
  | CEq => x =? y | CNe => negb (x =? y) | CLt => x <? y
  | CLe => x <=? y | CGt => y <? x | CGe => y <=? x
  end.

(** the number and the truth value; division rounds towards zero *)
Fixpoint inum (e : iexp) : Z :=
  match e with
  | ILit z => z
  | IRef w => num w
  | INeg a => - inum a
  | IAdd a b => inum a + inum b
  | ISub a b => inum a - inum b
  | IMul a b => inum a * inum b
  | IDiv a b => Z.quot (inum a) (inum b)
  | IIf c a b => if btruth c then inum a else inum b
  end
with btruth (e : bexp) : bool :=
  match e with
  | BLit b => b
  | BRef w => cond w
  | BNot a => negb (btruth a)
  | BAnd a b => btruth a && btruth b
  | BOr a b => btruth a || btruth b
  | BCmp o a b => cmp_holds o (inum a) (inum b)
  | BSame a b => Bool.eqb (btruth a) (btruth b)
  | BDiffers a b => xorb (btruth a) (btruth b)
  end.

Definition small (z : Z) : Prop := - 2 ^ 63 <= z < 2 ^ 63.

(** no step of the computation leaves the 64-bit integers or divides by 0 *)
Fixpoint isafe (e : iexp) : Prop :=
  match e with
  | ILit _ | IRef _ => True
  | INeg a => isafe a /\ small (- inum a)
  | IAdd a b => isafe a /\ isafe b /\ small (inum a + inum b)
  | ISub a b => isafe a /\ isafe b /\ small (inum a - inum b)
  | IMul a b => isafe a /\ isafe b /\ small (inum a * inum b)
  | IDiv a b => isafe a /\ isafe b /\ inum b <> 0 /\ small (Z.quot (inum a) (inum b))
  | IIf c a b => bsafe c /\ (if btruth c then isafe a else isafe b)
  end
with bsafe (e : bexp) : Prop :=
  match e with
  | BLit _ | BRef _ => True
  | BNot a => bsafe a
  | BAnd a b | BOr a b | BSame a b | BDiffers a b => bsafe a /\ bsafe b
  | BCmp _ a b => isafe a /\ isafe b
  end.

(** the references of the implementation, given the numbers and conditions *)
Definition refs (k : refkind) (w : text) (i : option Z) (arg : Z) : option value :=
  match k, i with
  | RValue, None => Some (VInt (num w))
  | RFunc, None => Some (VBool (cond w))
  | _, _ => None
  end.
End Meaning.

(** ** Switch *)

(** [switch(v, c1, x1, c2, x2, ..., d)] *)
Definition switch_tree (v : iexp) (cases : list (iexp * iexp)) (d : list iexp) : node :=
  NSwitch (itree v)
    (flat_map (fun c => [itree (fst c); itree (snd c)]) cases ++ map itree d).

(** the result belonging to the first case with the number [x] *)
Definition case_for (num : text -> Z) (cond : text -> bool) (x : Z)
  (cases : list (iexp * iexp)) : option Z :=
  match find (fun c => inum num cond (fst c) =? x) cases with
  | Some c => Some (inum num cond (snd c))
  | None => None
  end.

(** ** Lists of integers *)

Inductive arith : Type := AAdd | ASub | AMul.
Definition arith_op (o : arith) : binop := match o with AAdd => Add | ASub => Sub | AMul => Mul end.
Definition arith_num (o : arith) (x y : Z) : Z :=
  match o with AAdd => x + y | ASub => x - y | AMul => x * y end.

Definition ilist (l : list Z) : node := NList (map NInt l).
Definition vlist (l : list Z) : value := VList (map VInt l).

(** ** Texts for examples *)
Definition txt (s : String.string) : text := String.list_ascii_of_string s.
