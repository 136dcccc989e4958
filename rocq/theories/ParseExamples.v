(** Texts used by the examples of PropsParse.v. *)
From Coq Require Import ZArith List Bool String Ascii.
From Verif Require Import Base AstModel LexModel LexSpec ParseModel ParseSpec.
Import ListNotations.
Open Scope Z_scope.

Definition bytes (s : string) : list Z := map (fun a => Z.of_nat (nat_of_ascii a)) (list_ascii_of_string s).

(** a comment, a string literal, operators with and without blanks *)
Definition src_tokens : list Z := bytes "x <= 10 # limit
  = 'a\'b';".
Definition src_adjacent : list Z := bytes "a==-1;".
Definition src_open_map : list Z := bytes "x={a:1,".
Definition src_open_fun : list Z := bytes "x={fun f() return 1;".
Definition src_program : list Z := bytes "fun f(a: int, b = 1) { return a + b * 2, -a.x; } if f(1, 2) == 3: y = { k: [1, 'z'], fun g() 1.5; }; else do x = 1; while x < 3;".
Definition src_wrong : list Z := bytes "x = ;".
Definition src_chain : list Z := bytes "return a = b = c - d - e * -f == g or not h;".
Definition w_id (c : Z) : word := (KIdent, [c]).
(** the chain after return: a is the first operand *)
Definition chain_first : expr := EIdent [97].
Definition chain_others : list (infix * expr) :=
  [(IAss, EIdent [98]); (IAss, EIdent [99]); (ISub, EIdent [100]); (ISub, EIdent [101]); (IMul, EUn UNeg (EIdent [102]));
   (IEql, EIdent [103]); (IOr, EUn UNot (EIdent [104]))].
Definition chain_words : list word :=
  [p 61; w_id 98; p 61; w_id 99; p 45; w_id 100; p 45; w_id 101; p 42; p 45; w_id 102; (KEql, [61;61]); w_id 103; (KOr, [111;114]); (KNot, [110;111;116]); w_id 104].
Definition chain_tree : expr :=
  EAss (EIdent [97]) (EAss (EIdent [98]) (EOr (EBin BEql (EBin BSub (EBin BSub (EIdent [99]) (EIdent [100]))
    (EBin BMul (EIdent [101]) (EUn UNeg (EIdent [102])))) (EIdent [103])) (EUn UNot (EIdent [104])))).
(** a text with both quotes, a backslash and line ends *)
Definition src_text : list Z := bytes "it's ""so""\n" ++ [10; 13; 9; 92].
(** a tree with floats, maps, functions, selections and calls *)
Definition src_tree : stmts :=
  SCons (SIf (EBin BLss (EFlt 4609434218613702656) (EUn UNeg (EInt 3))) (SExpr (EAss (EIdent [97]) (EMap (PCons (EStr [98]) (EList (ECons (EPair ENone ETrue) ENil))
    (PCons (EStr [99]) (EFun (ACons [100] (OYes (EIdent [101])) ONo ANil) (SReturn (ESel (EIdent [100]) (EStr [102])))) PNil))))))
  (SCons (SDo (SIfElse (EIdent [97]) SBreak (SComp SNil)) (ECall (EArw (EIdent [97]) (EStr [99])) (ECons (EInt 1) (ECons (EStr [39; 34; 92]) ENil)))) SNil).
(** the sum of the numbers below six; a break outside of a loop *)
Definition src_sum : list Z := bytes "s = 0; i = 0; while i < 6: { s = s + i; i = i + 1; } return s, (s == 15);".
Definition src_break : list Z := bytes "x = 1; break;".
