(** Object_Print (src/lib/objects/objects.c) and the print functions of the types; the builtin print (src/lib/builtins/basic.c).
    The stream is the list of the bytes written. Abstract: [ff], the text of a float under the format %2.2f (the C library), and
    [fb], the text of the buffer object with a given identity (its bytes are not part of the store of ObjModel; see
    [print_bytes] for them). *)
From Coq Require Import ZArith String List Lia Bool.
From Verif Require Import Base StringModel ValueModel MapModel ListModel ObjModel BuiltinModel.
Import ListNotations.
Open Scope string_scope.
Open Scope list_scope.
Open Scope Z_scope.

(** fprintf with the format %lld (o_int.c:111): the digits of a number that is not negative, the last one first. 64-bit numbers
    have at most 19. *)
Fixpoint rev_digits (n : nat) (z : Z) : list Z :=
  match n with
  | O => []
  | S n' => if z <? 10 then [48 + z] else (48 + z mod 10) :: rev_digits n' (z / 10)
  end.
(** o_int.c:105-112 print. *)
Definition int_text (z : Z) : list Z := if z <? 0 then 45 :: rev (rev_digits 20 (- z)) else rev (rev_digits 20 z).

(** o_string.c:220-229 print: the format %.*s stops at a NUL. *)
Fixpoint str_text (bs : list Z) : list Z :=
  match bs with
  | [] => []
  | c :: r => if c =? 0 then [] else c :: str_text r
  end.

(** objects.c:163: the text for a type without a print function. *)
Definition unprintable (t : tyname) : list Z := bytes_of "<" ++ bytes_of (type_name t) ++ bytes_of " is unprintable>".

(** The print functions of the types whose objects refer to no others: o_none.c:87-95, o_bool.c:114-121, o_int.c:105-112,
    o_float.c:115-121, o_string.c:220-229, objects.c:48-52, o_any.c:16. *)
Definition scalar_text (ff : Z -> list Z) (v : value) : list Z :=
  match v with
  | VNone => bytes_of "none"
  | VBool true => bytes_of "true"
  | VBool false => bytes_of "false"
  | VInt z => int_text z
  | VFloat b => ff b
  | VStr bs => str_text bs
  | VType t => bytes_of (type_name t)
  | VAny => unprintable TyAny
  | VRef _ => []
  end.

(** The loop of o_list.c:309-317. [pr] is Object_Print; [fl]: for every object, whether its flag Object_PRINT is set. *)
Fixpoint print_all (pr : list bool -> value -> out (list Z * list bool)) (fl : list bool) (vs : list value) : out (list Z * list bool) :=
  match vs with
  | [] => OOk ([], fl)
  | v :: r =>
    obind (pr fl v) (fun x =>
    match r with
    | [] => OOk x
    | _ => obind (print_all pr (snd x) r) (fun y => OOk (fst x ++ bytes_of ", " ++ fst y, snd y))
    end)
  end.

(** The loop of o_map.c:407-416. *)
Fixpoint print_pairs (pr : list bool -> value -> out (list Z * list bool)) (fl : list bool) (kvs : list (value * value)) : out (list Z * list bool) :=
  match kvs with
  | [] => OOk ([], fl)
  | (k, v) :: r =>
    obind (pr fl k) (fun x =>
    obind (pr (snd x) v) (fun y =>
    let t := fst x ++ bytes_of ": " ++ fst y in
    match r with
    | [] => OOk (t, snd y)
    | _ => obind (print_pairs pr (snd y) r) (fun z => OOk (t ++ bytes_of ", " ++ fst z, snd z))
    end))
  end.

(** The print functions of o_list.c:305-318, o_map.c:403-417, o_nullable.c:67-73, o_sum.c:69-75, o_buffer.c:288-292; the other
    types have none (objects.c:162). *)
Definition print_obj (fb : nat -> list Z) (pr : list bool -> value -> out (list Z * list bool)) (fl : list bool) (o : hobj) : out (list Z * list bool) :=
  match o with
  | OList lo =>
    match list_items lo with
    | Some vs => obind (print_all pr fl vs) (fun x => OOk (bytes_of "[" ++ fst x ++ bytes_of "]", snd x))
    | None => OUB
    end
  | OMap mo => obind (print_pairs pr fl (combine (m_keys mo) (m_vals mo))) (fun x => OOk (bytes_of "{" ++ fst x ++ bytes_of "}", snd x))
  | ONullable item => obind (pr fl item) (fun x => OOk (bytes_of "?" ++ fst x, snd x))
  | OSum a b => obind (pr fl a) (fun x => obind (pr (snd x) b) (fun y => OOk (fst x ++ bytes_of " | " ++ fst y, snd y)))
  | OForeign TyBuffer id => OOk (fb id, fl)
  | _ => OOk (unprintable (hobj_type o), fl)
  end.

(** objects.c:149-169 Object_Print. *)
Fixpoint obj_print (n : nat) (ff : Z -> list Z) (fb : nat -> list Z) (objs : list hobj) (fl : list bool) (v : value) : out (list Z * list bool) :=
  match v with
  | VRef l =>
    match n with
    | O => OLoop
    | S n' =>
      if nth l fl false then OOk (bytes_of "...", fl) else
      match nth_error objs l with
      | None => OUB
      | Some o => obind (print_obj fb (obj_print n' ff fb objs) (upd fl l true) o) (fun x => OOk (fst x, upd (snd x) l false))
      end
    end
  | _ => OOk (scalar_text ff v, fl)
  end.

(** The loop of basic.c:117-118. *)
Fixpoint print_args (ff : Z -> list Z) (fb : nat -> list Z) (objs : list hobj) (fl : list bool) (argv : list value) : out (list Z * list bool) :=
  match argv with
  | [] => OOk ([], fl)
  | v :: r =>
    obind (obj_print (depth objs) ff fb objs fl v) (fun x =>
    obind (print_args ff fb objs (snd x) r) (fun y => OOk (fst x ++ fst y, snd y)))
  end.

(** basic.c:111-120 bin_print: what is written, and the flags afterwards. No object has its flag set outside of Object_Print. *)
Definition bin_print (ff : Z -> list Z) (fb : nat -> list Z) (objs : list hobj) (argv : list value) : out (list Z * list bool) :=
  print_args ff fb objs (repeat false (List.length objs)) argv.

(** o_buffer.c:272-273: a half byte. *)
Definition hex_digit (n : Z) : Z := if n <? 10 then n + 48 else n - 10 + 65.

(** The loop of o_buffer.c:264-283. *)
Fixpoint print_loop (bytes : list Z) : list Z :=
  match bytes with
  | [] => []
  | b :: r => hex_digit (b / 16) :: hex_digit (b mod 16) :: match r with [] => [] | _ => bytes_of ", " ++ print_loop r end
  end.

(** o_buffer.c:260-286 print_bytes, called by buffer_print (288-292): [memory]: the bytes of the allocation from the start of the
    buffer on; the length is converted to [int]. *)
Definition print_bytes (memory : list Z) (length : Z) : res (list Z) :=
  let size := wrap32 length in
  if Z.of_nat (List.length memory) <? size then RUB else
  ROk (bytes_of "[" ++ print_loop (firstn (Z.to_nat size) memory) ++ bytes_of "]").
