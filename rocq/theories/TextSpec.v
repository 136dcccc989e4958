(** The text of a value: what toString of src/lib/builtins/start.noja:173-186 is to give (C83). *)
From Coq Require Import ZArith String List.
From Verif Require Import Base ValueModel MapModel MapSpec ListModel ListProofs ObjModel BuiltinModel BuiltinProofs PreludeSpec ShowSpec PreludeVisit MapProofs2.
Import ListNotations.
Open Scope Z_scope.

(** The entries of a map, each key with its value. *)
Definition entries (ks vs : list (list Z)) : list (list Z) := map (fun p => fst p ++ bytes_of ": " ++ snd p) (combine ks vs).

(** The types of the values that toString knows. *)
Definition told : list tyname := [TyNone; TyInt; TyFloat; TyList; TyMap; TyType; TyFun; TyNFun; TyString].

Section Said.
Variable objs : list hobj.

(** No text for: negative integers, integers from 10^18 on, floats, booleans, buffers; maps with a value stored under "toString";
    a list or a map that contains itself. [h] are the stores that filled the map. *)
Inductive said : value -> list Z -> Prop :=
| said_none : said VNone (bytes_of "none")
| said_int z s : z < 10 ^ 18 -> decimal z s -> said (VInt z) s
| said_str s : text s -> said (VStr s) s
| said_type t : said (VType t) (bytes_of "Type")
| said_fun l c clo : nth_error objs l = Some (OFun c clo) -> said (VRef l) (bytes_of "Func")
| said_native l id argc : nth_error objs l = Some (ONative id argc) -> said (VRef l) (bytes_of "NFunc")
| said_list l lo vs ss : nth_error objs l = Some (OList lo) -> rep lo vs -> said_all vs ss ->
    said (VRef l) (bytes_of "[" ++ join (bytes_of ", ") ss ++ bytes_of "]")
| said_map l num h mo ks vs : nth_error objs l = Some (OMap mo) -> filled num h mo -> the_value h (VStr (bytes_of "toString")) = VNone ->
    said_all (firsts veqb (map fst h)) ks -> said_all (map (the_value h) (firsts veqb (map fst h))) vs ->
    said (VRef l) (bytes_of "{" ++ join (bytes_of ", ") (entries ks vs) ++ bytes_of "}")
with said_all : list value -> list (list Z) -> Prop :=
| said_nil : said_all [] []
| said_cons v s vs ss : said v s -> said_all vs ss -> said_all (v :: vs) (s :: ss).
End Said.

Scheme said_ind2 := Minimality for said Sort Prop with said_all_ind2 := Minimality for said_all Sort Prop.
Combined Scheme said_both from said_ind2, said_all_ind2.
