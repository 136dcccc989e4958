(** Model of the tokenizer (src/lib/compiler/parse.c:70-408). A source is its list of bytes. Simplifications: allocation never
    fails; sources are shorter than 2^31 bytes (offsets are C ints); the C locale, and the ctype functions answer false for
    bytes above 127 (as glibc's do). *)
From Coq Require Import ZArith List Bool.
From Verif Require Import Base.
Import ListNotations.
Open Scope Z_scope.

(** parse.c:70-123 TokenKind: values below 256 are the character itself ([KC c]). *)
Inductive kind :=
| KC (c : Z) | KDone | KInt | KFloat | KString | KIdent
| KIf | KFun | KNot | KAnd | KOr | KElse | KNone | KTrue | KFalse | KReturn | KWhile | KBreak | KDo
| KEql | KNql | KLeq | KGeq | KArw.

(** parse.c:70-123 TokenKind, the C operator ==. *)
Definition kind_eqb (a b : kind) : bool :=
  match a, b with
  | KC x, KC y => x =? y
  | KDone, KDone | KInt, KInt | KFloat, KFloat | KString, KString | KIdent, KIdent
  | KIf, KIf | KFun, KFun | KNot, KNot | KAnd, KAnd | KOr, KOr | KElse, KElse | KNone, KNone | KTrue, KTrue | KFalse, KFalse
  | KReturn, KReturn | KWhile, KWhile | KBreak, KBreak | KDo, KDo
  | KEql, KEql | KNql, KNql | KLeq, KLeq | KGeq, KGeq | KArw, KArw => true
  | _, _ => false
  end.

(** parse.c:125-130 Token (the links are the list). *)
Record token := mktok { t_kind : kind; t_off : Z; t_len : Z }.

(** The ctype functions used at parse.c:198-275, C locale. *)
Definition isspace (c : Z) : bool := (c =? 32) || ((9 <=? c) && (c <=? 13)).
(** ctype.h as used in parse.c:261-275 ("C" locale). *)
Definition isdigit (c : Z) : bool := (48 <=? c) && (c <=? 57).
(** ctype.h as used in parse.c:224-229 ("C" locale). *)
Definition isalpha (c : Z) : bool := ((65 <=? c) && (c <=? 90)) || ((97 <=? c) && (c <=? 122)).
(** parse.c:224, the characters an identifier starts with, and 229, those that follow. *)
Definition isident0 (c : Z) : bool := isalpha c || (c =? 95).
(** parse.c:229. *)
Definition isident (c : Z) : bool := isalpha c || isdigit c || (c =? 95).
(** parse.c:151-159 isoper: + - * / < > ! = , | % *)
Definition isoper (c : Z) : bool := existsb (Z.eqb c) [43; 45; 42; 47; 60; 62; 33; 61; 44; 124; 37].

(** parse.c:229, 266, 275: Length of the longest prefix of characters satisfying [p] (the inner loops of tokenize). *)
Fixpoint span (p : Z -> bool) (s : list Z) : nat :=
  match s with c :: r => if p c then S (span p r) else O | [] => O end.

(** parse.c:197-209: whitespace and comments are skipped; [true] while inside a comment (the newline that ends it is
    whitespace). Gives the number of characters skipped. *)
Fixpoint skip (comment : bool) (s : list Z) : nat :=
  match s with
  | [] => O
  | c :: r =>
    if comment then S (skip (negb (c =? 10)) r)
    else if isspace c then S (skip false r)
    else if c =? 35 then S (skip true r)
    else O
  end.

(** parse.c:234-252 kwords: if fun not and or else none true false return while break do *)
Definition keywords : list (list Z * kind) :=
  [([105;102], KIf); ([102;117;110], KFun); ([110;111;116], KNot); ([97;110;100], KAnd); ([111;114], KOr);
   ([101;108;115;101], KElse); ([110;111;110;101], KNone); ([116;114;117;101], KTrue); ([102;97;108;115;101], KFalse);
   ([114;101;116;117;114;110], KReturn); ([119;104;105;108;101], KWhile); ([98;114;101;97;107], KBreak); ([100;111], KDo)].

(** parse.c:326-346 optable: + - * / == != < <= > >= = , | % -> *)
Definition operators : list (list Z * kind) :=
  [([43], KC 43); ([45], KC 45); ([42], KC 42); ([47], KC 47); ([61;61], KEql); ([33;61], KNql); ([60], KC 60); ([60;61], KLeq);
   ([62], KC 62); ([62;61], KGeq); ([61], KC 61); ([44], KC 44); ([124], KC 124); ([37], KC 37); ([45;62], KArw)].

(** parse.c:235-258, strncmp of two texts of equal length. *)
Fixpoint list_eqb (a b : list Z) : bool :=
  match a, b with
  | [], [] => true
  | x :: a, y :: b => (x =? y) && list_eqb a b
  | _, _ => false
  end.

(** The table searches of parse.c:254-259 and 348-355 (length and strncmp). *)
Fixpoint table (t : list (list Z * kind)) (s : list Z) : option kind :=
  match t with
  | [] => None
  | (w, k) :: r => if list_eqb w s then Some k else table r s
  end.

(** parse.c:288-311: from the opening quote on, the number of characters up to and including the closing quote [f]; [None] if the
    source ends first. *)
Fixpoint scan_string (f : Z) (s : list Z) : option nat :=
  match s with
  | [] => None
  | c :: r =>
    if c =? 92 then
      match r with
      | d :: r' =>
        if (d =? 39) || (d =? 34) || (d =? 92) then option_map (fun n => S (S n)) (scan_string f r')
        else option_map S (scan_string f r)
      | [] => None
      end
    else if c =? f then Some 1%nat
    else option_map S (scan_string f r)
  end.

(** What reading one token gives. [LUB]: the source has no terminating NUL and memory behind it is read (parse.c:295 in a literal
    that is not closed). [LFuel]: the loop bound was reached (it never is, see C40). *)
Inductive lres (A : Type) := LOk (a : A) | LErr | LUB | LFuel.
Arguments LOk {A} a. Arguments LErr {A}. Arguments LUB {A}. Arguments LFuel {A}.

(** parse.c:224-371: one token at the head of [s] (not empty, not blank): kind and length. [nul]: a NUL follows the source
    (Source_FromFile; not so Source_FromString). *)
Definition lex1 (nul : bool) (s : list Z) : lres (kind * nat) :=
  match s with
  | [] => LErr
  | c :: r =>
    if isident0 c then
      let n := span isident s in
      LOk (match table keywords (firstn n s) with Some k => k | None => KIdent end, n)
    else if isdigit c then
      let n := span isdigit s in
      match skipn n s with
      | p :: d :: _ =>
        if (p =? 46) && isdigit d then LOk (KFloat, (n + 1 + span isdigit (skipn (n + 1) s))%nat) else LOk (KInt, n)
      | _ => LOk (KInt, n)
      end
    else if (c =? 39) || (c =? 34) then
      match scan_string c r with
      | Some n => LOk (KString, S n)
      | None => if nul then LErr else LUB
      end
    else if isoper c then
      let n := span isoper s in
      match table operators (firstn n s) with
      | Some k => LOk (k, n)
      | None => LOk (KC c, 1%nat)
      end
    else LOk (KC c, 1%nat)
  end.

(** parse.c:195-407, the loop of tokenize at offset [off]; every turn consumes at least one character. *)
Fixpoint lex (fuel : nat) (nul : bool) (off : Z) (s : list Z) : lres (list token) :=
  let k := skip false s in
  let s1 := skipn k s in
  let off1 := off + Z.of_nat k in
  match s1 with
  | [] => LOk [mktok KDone off1 0]
  | _ =>
    match fuel with
    | O => LFuel
    | S fuel' =>
      match lex1 nul s1 with
      | LOk (kd, n) =>
        match lex fuel' nul (off1 + Z.of_nat n) (skipn n s1) with
        | LOk r => LOk (mktok kd off1 (Z.of_nat n) :: r)
        | e => e
        end
      | LErr => LErr
      | LUB => LUB
      | LFuel => LFuel
      end
    end
  end.

(** parse.c:185-408 tokenize. *)
Definition tokenize (nul : bool) (src : list Z) : lres (list token) := lex (length src) nul 0 src.

(** parse.c:125-130, offset and length of a Token: The text of a token. *)
Definition text_of (src : list Z) (t : token) : list Z := firstn (Z.to_nat (t_len t)) (skipn (Z.to_nat (t_off t)) src).
