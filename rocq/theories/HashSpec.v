(** What lists and maps are made of, for C76. *)
From Coq Require Import ZArith List Lia Bool.
From Verif Require Import Base ValueModel MapModel ListModel ListProofs ObjModel CopyProofs.
Import ListNotations.
Open Scope Z_scope.

(** [leaves objs v ls]: [ls] are the scalars found in [v] when every list and map in it is opened, from left to right; a map gives
    its keys, then its values; the tables of the runtime give nothing. *)
Inductive leaves (objs : list hobj) : value -> list value -> Prop :=
| lf_scalar v : scalar v -> leaves objs v [v]
| lf_static l id : nth_error objs l = Some (OSMap id) -> leaves objs (VRef l) []
| lf_list l lo vs ls : nth_error objs l = Some (OList lo) -> rep lo vs -> leaves_all objs vs ls -> leaves objs (VRef l) ls
| lf_map l mo ls : nth_error objs l = Some (OMap mo) -> leaves_all objs (m_keys mo ++ m_vals mo) ls -> leaves objs (VRef l) ls
with leaves_all (objs : list hobj) : list value -> list value -> Prop :=
| la_nil : leaves_all objs [] []
| la_cons v vs a b : leaves objs v a -> leaves_all objs vs b -> leaves_all objs (v :: vs) (a ++ b).

(** [hsum ls z]: [z] is the sum of the hashes of the scalars [ls]. *)
Inductive hsum : list value -> Z -> Prop :=
| hs_nil : hsum [] 0
| hs_cons v ls h z : scalar_hash v = Some h -> hsum ls z -> hsum (v :: ls) (h + z).

(** A value that cannot be copied: a type, a function, a native function, a closure, a nullable or sum type, an object of the
    libraries, or a list or map holding one. *)
Inductive uncopied (objs : list hobj) : value -> Prop :=
| un_type t : uncopied objs (VType t)
| un_any : uncopied objs VAny
| un_obj l o : nth_error objs l = Some o -> match o with OList _ | OMap _ | OSMap _ => False | _ => True end -> uncopied objs (VRef l)
| un_list l lo vs v : nth_error objs l = Some (OList lo) -> rep lo vs -> In v vs -> uncopied objs v -> uncopied objs (VRef l)
| un_key l mo k v : nth_error objs l = Some (OMap mo) -> In (k, v) (combine (m_keys mo) (m_vals mo)) -> uncopied objs k -> uncopied objs (VRef l)
| un_val l mo k v : nth_error objs l = Some (OMap mo) -> In (k, v) (combine (m_keys mo) (m_vals mo)) -> uncopied objs v -> uncopied objs (VRef l).

(** A key that is a list or a map. *)
Definition is_collection (objs : list hobj) (v : value) : Prop :=
  exists l o, v = VRef l /\ nth_error objs l = Some o /\ match o with OList _ | OMap _ => True | _ => False end.
