(** Looking at values and looking up built-in names, for C77. *)
From Coq Require Import ZArith List Bool String.
From Verif Require Import Base ValueModel MapModel ListModel ListProofs ObjModel BuiltinModel.
Import ListNotations.
Open Scope Z_scope.

(** The function [f] taking [argc] values (-1: any number) is found under [name] in the table [id]: 0 is the table of a program, 5 is [string]. *)
Definition found_under (E : env) (id : nat) (name : string) (argc : Z) (f : list value -> mem -> out (list value * mem)) : Prop :=
  forall m, exists n, smap_select E id (VStr (bytes_of name)) m = OOk (Some (VRef (List.length (m_objs m))), mkmem (m_objs m ++ [ONative n argc]) (m_pend m)) /\
    forall argv m', native E n argv m' = f argv m'.

(** The names a program finds without defining them. *)
Definition known_names : list string :=
  ["Type"; "None"; "int"; "bool"; "float"; "String"; "Buffer"; "List"; "Map"; "File"; "Directory"; "NullableType"; "SumType"; "any";
   "net"; "math"; "files"; "buffer"; "string"; "random"; "import"; "type"; "print"; "input"; "count"; "error"; "assert"; "istypeof";
   "typename"; "keysof"; "getCurrentWorkingDirectory"; "getCurrentScriptDirectory"; "getCurrentScriptLocation"]%string.

(** The object at [l] is a list with the items [vs]. *)
Definition is_list (m : mem) (l : nat) (vs : list value) : Prop := exists lo, nth_error (m_objs m) l = Some (OList lo) /\ rep lo vs.
