(** What printing is to write. *)
From Coq Require Import ZArith String List Lia Bool Relations.
From Verif Require Import Base ValueModel MapModel ListModel ObjModel BuiltinModel PreludeSpec.
Import ListNotations.
Open Scope string_scope.
Open Scope list_scope.
Open Scope Z_scope.

(** The decimal representation of an integer. *)
Inductive int_shown : Z -> list Z -> Prop :=
| is_pos z s : decimal z s -> int_shown z s
| is_neg z s : 0 < z -> decimal z s -> int_shown (- z) (45 :: s).

(** A string is written up to its first NUL. *)
Inductive str_shown : list Z -> list Z -> Prop :=
| ss_all bs : ~ In 0 bs -> str_shown bs bs
| ss_nul bs r : ~ In 0 bs -> str_shown (bs ++ 0 :: r) bs.

Definition no_print (t : tyname) : list Z := bytes_of "<" ++ bytes_of (type_name t) ++ bytes_of " is unprintable>".

(** Texts one after the other, with a separator. *)
Fixpoint join (sep : list Z) (ts : list (list Z)) : list Z :=
  match ts with
  | [] => []
  | [t] => t
  | t :: r => t ++ sep ++ join sep r
  end.

Section Shows.
Variables (ff : Z -> list Z) (fb : nat -> list Z) (objs : list hobj).

Inductive scalar_shown : value -> list Z -> Prop :=
| sc_none : scalar_shown VNone (bytes_of "none")
| sc_true : scalar_shown (VBool true) (bytes_of "true")
| sc_false : scalar_shown (VBool false) (bytes_of "false")
| sc_int z t : int_shown z t -> scalar_shown (VInt z) t
| sc_float b : scalar_shown (VFloat b) (ff b)
| sc_str bs t : str_shown bs t -> scalar_shown (VStr bs) t
| sc_type ty : scalar_shown (VType ty) (bytes_of (type_name ty))
| sc_any : scalar_shown VAny (no_print TyAny).

Definition has_print (o : hobj) : bool :=
  match o with OList _ | OMap _ | ONullable _ | OSum _ _ | OForeign TyBuffer _ => true | _ => false end.

(** The text of a value inside of the objects [path]. [mark]: an object inside of itself is not written again. *)
Variable mark : bool.
Inductive shows : list nat -> value -> list Z -> Prop :=
| sh_scalar path v t : scalar_shown v t -> shows path v t
| sh_again path l : In l path -> shows path (VRef l) (bytes_of "...")
| sh_obj path l o t : ~ In l path -> nth_error objs l = Some o -> shows_obj (if mark then l :: path else path) o t -> shows path (VRef l) t
with shows_obj : list nat -> hobj -> list Z -> Prop :=
| so_list path lo vs ts : list_items lo = Some vs -> shows_all path vs ts ->
    shows_obj path (OList lo) (bytes_of "[" ++ join (bytes_of ", ") ts ++ bytes_of "]")
| so_map path mo ts : shows_pairs path (combine (m_keys mo) (m_vals mo)) ts ->
    shows_obj path (OMap mo) (bytes_of "{" ++ join (bytes_of ", ") ts ++ bytes_of "}")
| so_nullable path a t : shows path a t -> shows_obj path (ONullable a) (bytes_of "?" ++ t)
| so_sum path a b t u : shows path a t -> shows path b u -> shows_obj path (OSum a b) (t ++ bytes_of " | " ++ u)
| so_buffer path id : shows_obj path (OForeign TyBuffer id) (fb id)
| so_other path o : has_print o = false -> shows_obj path o (no_print (hobj_type o))
with shows_all : list nat -> list value -> list (list Z) -> Prop :=
| sa_none path : shows_all path [] []
| sa_more path v r t ts : shows path v t -> shows_all path r ts -> shows_all path (v :: r) (t :: ts)
with shows_pairs : list nat -> list (value * value) -> list (list Z) -> Prop :=
| sp_none path : shows_pairs path [] []
| sp_more path k v r t u ts : shows path k t -> shows path v u -> shows_pairs path r ts ->
    shows_pairs path ((k, v) :: r) ((t ++ bytes_of ": " ++ u) :: ts).

(** The values an object holds, and the objects inside of an object. *)
Definition holds_val (o : hobj) (v : value) : Prop :=
  match o with
  | OList lo => exists vs, list_items lo = Some vs /\ In v vs
  | OMap mo => exists w, In (v, w) (combine (m_keys mo) (m_vals mo)) \/ In (w, v) (combine (m_keys mo) (m_vals mo))
  | ONullable a => v = a
  | OSum a b => v = a \/ v = b
  | _ => False
  end.
Definition inside (l' l : nat) : Prop := exists o, nth_error objs l = Some o /\ holds_val o (VRef l').

(** No object refers to memory that is not an object, lists hold values, integers have 64 bits. *)
Definition good_val (v : value) : Prop := match v with VRef l => (l < List.length objs)%nat | VInt z => - 2 ^ 63 <= z < 2 ^ 63 | _ => True end.
Definition heap_closed : Prop := forall l o, nth_error objs l = Some o ->
  (forall lo, o = OList lo -> exists vs, list_items lo = Some vs) /\ forall v, holds_val o v -> good_val v.
(** Nothing [v] holds is inside of itself. *)
Definition acyclic (v : value) : Prop := match v with VRef l => Acc inside l | _ => True end.
End Shows.

Scheme shows_i := Minimality for shows Sort Prop
  with shows_obj_i := Minimality for shows_obj Sort Prop
  with shows_all_i := Minimality for shows_all Sort Prop
  with shows_pairs_i := Minimality for shows_pairs Sort Prop.
Combined Scheme shows_ind4 from shows_i, shows_obj_i, shows_all_i, shows_pairs_i.

(** Hexadecimal digits. *)
Inductive hex_shown : Z -> Z -> Prop :=
| hx_digit n : 0 <= n <= 9 -> hex_shown n (48 + n)
| hx_letter n : 10 <= n <= 15 -> hex_shown n (65 + (n - 10)).
Inductive byte_shown : Z -> list Z -> Prop :=
| bs_byte h l c d : hex_shown h c -> hex_shown l d -> byte_shown (16 * h + l) [c; d].
