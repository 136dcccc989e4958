(** Model of the native functions of src/lib/builtins (basic.c, string.c, utils.c) and of static maps (src/lib/o_staticmap.c).
    Simplifications: what print writes is not represented; the functions on files, directories, sockets, buffers,
    random numbers and floats are left abstract (they are whatever the environment given to [std_env] says); malloc
    succeeds. *)
From Coq Require Import ZArith List Lia Bool String Ascii.
From Verif Require Import Base Utf8Model HashModel StringModel ValueModel MapModel ListModel ObjModel VmModel SysModel.
Import ListNotations.
Open Scope Z_scope.

(** string.c:11-275: The bytes of a C string literal. *)
Fixpoint bytes_of (s : string) : list Z :=
  match s with EmptyString => [] | String c r => Z.of_N (N_of_ascii c) :: bytes_of r end.

(** o_string.c:137-171 Object_FromString on readable memory; the length is an [int]. *)
Definition new_string (memory : list Z) (len : Z) : out value :=
  match from_string memory (wrap32 len) with ROk s => OOk (VStr (s_bytes s)) | RErr => OErr | RUB => OUB end.

(** * utils.c *)

(** utils.h:7-23 ParsedArgument: [PgNone]: defined is false; [PgUnset]: the structure was not written. *)
Inductive parg :=
  PgNone | PgObj | PgBool (b : bool) | PgInt (z : Z) | PgFlt (b : Z) | PgStr (s : list Z) | PgBuf (v : value)
| PgFile (v : value) | PgUnset.

(** utils.c:64-152, the switch of parseArgs: format characters b B f i l m o s F. *)
Definition parse_arg (objs : list hobj) (c : Z) (arg : value) : out parg :=
  let ty := type_of (rt_of objs) arg in
  if c =? 111 then OOk PgObj
  else if c =? 98 then match arg with VBool b => OOk (PgBool b) | _ => OErr end
  else if c =? 66 then if tyname_eqb ty TyBuffer then OOk (PgBuf arg) else OErr
  else if c =? 105 then match arg with VInt z => OOk (PgInt z) | _ => OErr end
  else if c =? 102 then match arg with VFloat b => OOk (PgFlt b) | _ => OErr end
  else if c =? 108 then if tyname_eqb ty TyList then OOk PgObj else OErr
  else if c =? 109 then if tyname_eqb ty TyMap then OOk PgUnset else OErr
  else if c =? 115 then match arg with VStr s => OOk (PgStr s) | _ => OErr end
  else if c =? 70 then if tyname_eqb ty TyFile then OOk (PgFile arg) else OErr
  else OErr.

(** utils.c:35-166 parseArgs ('?' is 63). *)
Fixpoint parse_args (objs : list hobj) (fmt : list Z) (argv : list value) : out (list parg) :=
  match fmt with
  | [] => OOk []
  | c :: r =>
    match argv with
    | [] => OErr
    | arg :: rest =>
      if c =? 63 then
        match r with
        | [] => OErr
        | c2 :: r2 =>
          obind (match arg with VNone => OOk PgNone | _ => parse_arg objs c2 arg end) (fun p =>
          obind (parse_args objs r2 rest) (fun ps => OOk (p :: ps)))
        end
      else
        obind (parse_arg objs c arg) (fun p =>
        obind (parse_args objs r rest) (fun ps => OOk (p :: ps)))
    end
  end.

(** utils.c:17: case 'i' of returnValuesVA reads the argument as an [int], whatever its type (on the x86-64 ABI: its low
    32 bits). *)
Definition ret_int (z : Z) : value := VInt (wrap32 z).

(** utils.c:3-33 returnValuesVA: Answers none and a message (format "ns"). *)
Definition none_and (msg : string) (m : mem) : out (list value * mem) :=
  obind (vstring (bytes_of msg)) (fun v => OOk ([VNone; v], m)).

(** utils.c:3-33 returnValuesVA, one value. *)
Definition ret1 (m : mem) (v : value) : out (list value * mem) := OOk ([v], m).

(** * string.c *)

(** string.c:11-49 bin_ord. On text that does not decode (impossible for string objects) ret keeps its initial 0. *)
Definition bin_ord (argv : list value) (m : mem) : out (list value * mem) :=
  match argv with
  | [VStr s] =>
    if (List.length s =? 0)%nat then OErr else
    match utf8_decode (s ++ [0]) (wrap32 (Z.of_nat (List.length s))) with
    | DOk _ c => ret1 m (VInt c)
    | DBad => ret1 m (VInt 0)
    | DUB => OUB
    end
  | [_] => OErr
  | _ => OUB
  end.

(** string.c:51-81 bin_chr: the code is truncated to [int], then passed as [uint32_t]. *)
Definition bin_chr (argv : list value) (m : mem) : out (list value * mem) :=
  match argv with
  | [VInt z] =>
    match utf8_encode 32 (u32 (wrap32 z)) with
    | Some bs => obind (new_string bs (Z.of_nat (List.length bs))) (ret1 m)
    | None => OErr
    end
  | [_] => OErr
  | _ => OUB
  end.

(** string.c:87-102: the first loop of bin_cat; [None] = an argument is not a string. *)
Fixpoint cat_total (argv : list value) (total : Z) : option Z :=
  match argv with
  | [] => Some total
  | VStr s :: r => cat_total r (u32 (total + Z.of_nat (List.length s)))
  | _ :: _ => None
  end.

(** string.c:118-125: the second loop. *)
Fixpoint cat_copy (argv : list value) (buffer : list Z) (written : Z) : res (list Z) :=
  match argv with
  | VStr s :: r =>
    match put_bytes buffer written s with
    | ROk b => cat_copy r b (u32 (written + Z.of_nat (List.length s)))
    | RErr => RErr | RUB => RUB
    end
  | _ => ROk buffer
  end.

(** string.c:83-139 bin_cat: a local buffer of 128 bytes or malloc(total_count+1). *)
Definition bin_cat (argv : list value) (m : mem) : out (list value * mem) :=
  match cat_total argv 0 with
  | None => OErr
  | Some total =>
    let size := if 127 <? total then u32 (total + 1) else 128 in
    obind (of_res (cat_copy argv (repeat 0 (Z.to_nat size)) 0)) (fun b =>
    obind (of_res (put_bytes b total [0])) (fun b =>
    obind (new_string b total) (ret1 m)))
  end.

(** string.c:141-192 bin_slice. *)
Definition bin_slice (argv : list value) (m : mem) : out (list value * mem) :=
  obind (parse_args (m_objs m) (bytes_of "s?i?i") argv) (fun ps =>
  match ps with
  | [PgStr s; p1; p2] =>
    let srclen := Z.of_nat (List.length s) in
    let neg p := match p with PgInt n => n <? 0 | _ => false end in
    if neg p1 then OErr else
    let offset := match p1 with PgInt n => n | _ => 0 end in
    if neg p2 then OErr else
    let length := match p2 with PgInt n => n | _ => u64 (srclen - offset) end in
    if srclen <? offset then OErr else
    if srclen <? u64 (offset + length) then OErr else
    obind (new_string (skipn (Z.to_nat offset) (s ++ [0])) length) (ret1 m)
  | _ => OUB
  end).

(** string.c:208-209: the number of leading spaces. *)
Fixpoint lead_spaces (s : list Z) : nat :=
  match s with c :: r => if c =? 32 then S (lead_spaces r) else O | [] => O end.

(** string.c:223-224: while the byte at offset+length-1 is a space, the length decreases ([body]: the readable memory from the
    offset on); reading outside of the body of the string is undefined. *)
Fixpoint drop_spaces (body : list Z) (length : nat) : option nat :=
  match length with
  | O => None
  | S n => match nth_error body n with Some c => if c =? 32 then drop_spaces body n else Some length | None => None end
  end.

(** string.c:194-233 bin_trim. *)
Definition bin_trim (argv : list value) (m : mem) : out (list value * mem) :=
  obind (parse_args (m_objs m) (bytes_of "s") argv) (fun ps =>
  match ps with
  | [PgStr s] =>
    let offset := lead_spaces s in
    if (offset =? List.length s)%nat then obind (new_string [0] 0) (ret1 m) else
    let body := skipn offset (s ++ [0]) in
    match drop_spaces body (List.length s) with
    | Some n => obind (new_string body (Z.of_nat n)) (ret1 m)
    | None => OUB
    end
  | _ => OUB
  end).

(** string.c:246, 257: C isdigit in the "C" locale (for bytes above 127, negative as char, the table of glibc says no). *)
Definition isdigit (c : Z) : bool := (48 <=? c) && (c <=? 57).

(** string.c:249-257, the loop of bin_toInt on the bytes left: [inl true] overflow, [inl false] other characters follow. *)
Fixpoint toint_loop (s : list Z) (result : Z) : bool + Z :=
  match s with
  | [] => inr result
  | c :: r =>
    if isdigit c then
      let digit := c - 48 in
      if (i64_max - digit) / 10 <? result then inl true else toint_loop r (result * 10 + digit)
    else inl false
  end.

(** string.c:235-266 bin_toInt. *)
Definition bin_toInt (argv : list value) (m : mem) : out (list value * mem) :=
  obind (parse_args (m_objs m) (bytes_of "s") argv) (fun ps =>
  match ps with
  | [PgStr s] =>
    match s with
    | [] => none_and "String doesn't contain an integer" m
    | c :: _ =>
      if isdigit c then
        match toint_loop s 0 with
        | inr z => ret1 m (ret_int z)
        | inl true => none_and "An overflow occurred" m
        | inl false => none_and "String doesn't contain an integer" m
        end
      else none_and "String doesn't contain an integer" m
    end
  | _ => OUB
  end).

(** * basic.c *)

(** The names in the type objects: defs.h:2-19, o_closure.c:47, run.c:122, run.c:293, o_staticmap.c:66. *)
Definition type_name (t : tyname) : string :=
  match t with
  | TyType => "Type" | TyNone => "None" | TyBool => "bool" | TyInt => "int" | TyFloat => "float" | TyString => "String"
  | TyList => "List" | TyMap => "Map" | TyFun => "function" | TyNFun => "native function" | TyBuffer => "Buffer"
  | TyFile => "File" | TyDir => "Directory" | TyClosure => "Closure" | TyNullable => "NullableType"
  | TySum => "SumType" | TyAny => "AnyType" | TySMap => "static map"
  end.

(** basic.c:96-109 bin_typename. *)
Definition bin_typename (argv : list value) (m : mem) : out (list value * mem) :=
  match argv with
  | [v] => obind (vstring (bytes_of (type_name (type_of (rt_of (m_objs m)) v)))) (ret1 m)
  | _ => OUB
  end.

(** basic.c:139-148 bin_type. *)
Definition bin_type (argv : list value) (m : mem) : out (list value * mem) :=
  match argv with
  | [v] => ret1 m (VType (type_of (rt_of (m_objs m)) v))
  | _ => OUB
  end.

(** basic.c:150-167 bin_count with objects.c:225-240 Object_Count: lists, maps and strings; [other]: buffers. *)
Definition bin_count (other : list value -> mem -> out (list value * mem)) (argv : list value) (m : mem) : out (list value * mem) :=
  match argv with
  | [v] =>
    let int z := if m_pend m then OErr else ret1 m (VInt z) in
    match v with
    | VStr s => int (s_count (str_of s))
    | VRef l =>
      match nth_error (m_objs m) l with
      | Some (OList lo) => int (l_count lo)
      | Some (OMap mo) => int (map_count mo)
      | Some (OForeign _ _) => other argv m
      | _ => OErr
      end
    | _ => OErr
    end
  | _ => OUB
  end.

(** basic.c:219-239 bin_assert. *)
Fixpoint bin_assert (argv : list value) (m : mem) : out (list value * mem) :=
  match argv with
  | [] => OOk ([], m)
  | VBool true :: r => bin_assert r m
  | _ :: _ => OErr
  end.

(** basic.c:265-281 bin_istypeof. *)
Definition bin_istypeof (argv : list value) (m : mem) : out (list value * mem) :=
  match argv with
  | [typ; v] => obind (is_type m typ v) (fun r => ret1 (snd r) (VBool (fst r)))
  | _ => OUB
  end.

(** o_list.c:320-346 Object_NewListOfConsecutiveIntegers: A list of integers as an object. *)
Definition ints_list (x : res (lobj Z)) : out hobj :=
  obind (of_res x) (fun l =>
  OOk (OList (mklobj (l_cap l) (l_count l) (map (fun c => match c with Some z => Some (VInt z) | None => None end) (l_cells l))))).

(** basic.c:283-295 bin_keysof with objects.c:91-99 Object_KeysOf: o_list.c:97-105, o_map.c:70-78, o_string.c:238-246; a type without
    keysof gives none; [other]: buffers. *)
Definition bin_keysof (other : list value -> mem -> out (list value * mem)) (argv : list value) (m : mem) : out (list value * mem) :=
  match argv with
  | [v] =>
    let obj o := obind o (fun o => let (l, m') := alloc m o in ret1 m' l) in
    match v with
    | VStr s => obj (ints_list (consecutive 0 (s_count (str_of s) - 1)))
    | VRef l =>
      match nth_error (m_objs m) l with
      | Some (OList lo) => obj (ints_list (list_keysof lo))
      | Some (OMap mo) => obj (OOk (OList (new_list2 (map_keys mo))))
      | Some (OForeign TyBuffer _) => other argv m
      | Some _ => ret1 m VNone
      | None => OUB
      end
    | _ => ret1 m VNone
    end
  | _ => OUB
  end.

(** * Static maps *)

(** runtime.h:121-140 StaticMapSlot: What a slot holds: runtime.h StaticMapSlot, for the kinds that occur in the tables. *)
Inductive slot :=
  SlType (t : tyname) | SlAny | SlSMap (id : nat) | SlFun (id : nat) (argc : Z) | SlInt (z : Z) | SlFlt (bits : Z).

(** string.c:265-275, the table bins_string: Numbers of the native functions. *)
Definition N_ord := 0%nat. Definition N_chr := 1%nat. Definition N_cat := 2%nat. Definition N_trim := 3%nat.
(** string.c:265-275. *)
Definition N_slice := 4%nat. Definition N_toInt := 5%nat. Definition N_type := 6%nat. Definition N_print := 7%nat.
(** basic.c:297-352, the table bins_basic. *)
Definition N_count := 8%nat. Definition N_error := 9%nat. Definition N_assert := 10%nat. Definition N_istypeof := 11%nat.
(** basic.c:297-352. *)
Definition N_typename := 12%nat. Definition N_keysof := 13%nat. Definition N_other := 14%nat.

Local Open Scope string_scope.

(** string.c:268-275 bins_string: the table has no terminator. *)
Definition bins_string : list (string * slot) :=
  [("ord", SlFun N_ord 1); ("chr", SlFun N_chr 1); ("cat", SlFun N_cat (-1)); ("trim", SlFun N_trim 1);
   ("slice", SlFun N_slice 3); ("toInt", SlFun N_toInt 1)].

(** basic.c:297-352 bins_basic after bins_basic_init; the tables of net, math, files, buffer and random (1 to 4 and 6) are
    abstract. *)
Definition bins_basic : list (string * slot) :=
  [("Type", SlType TyType); ("None", SlType TyNone); ("int", SlType TyInt); ("bool", SlType TyBool);
   ("float", SlType TyFloat); ("String", SlType TyString); ("Buffer", SlType TyBuffer); ("List", SlType TyList);
   ("Map", SlType TyMap); ("File", SlType TyFile); ("Directory", SlType TyDir); ("NullableType", SlType TyNullable);
   ("SumType", SlType TySum); ("any", SlAny);
   ("net", SlSMap 1); ("math", SlSMap 2); ("files", SlSMap 3); ("buffer", SlSMap 4); ("string", SlSMap 5); ("random", SlSMap 6);
   ("import", SlFun (N_other + 0) 1); ("type", SlFun N_type 1); ("print", SlFun N_print (-1)); ("input", SlFun (N_other + 1) 0);
   ("count", SlFun N_count 1); ("error", SlFun N_error 1); ("assert", SlFun N_assert (-1)); ("istypeof", SlFun N_istypeof 2);
   ("typename", SlFun N_typename 1); ("keysof", SlFun N_keysof 1);
   ("getCurrentWorkingDirectory", SlFun (N_other + 2) 0); ("getCurrentScriptDirectory", SlFun (N_other + 3) 0);
   ("getCurrentScriptLocation", SlFun (N_other + 4) 0)].

Local Close Scope string_scope.

(** o_staticmap.c:107-146: C [strcmp(name, slot) == 0] where [name] is the memory of a string object: its content up to the first NUL. *)
Definition name_is (s : list Z) (name : string) : bool :=
  strncmp_eq (s ++ [0]) (bytes_of name ++ [0]) (S (List.length (bytes_of name))).

(** o_staticmap.c:107-146 select_, the loop: [None] = end of the array. *)
Fixpoint slot_of (tbl : list (string * slot)) (s : list Z) : option slot :=
  match tbl with
  | [] => None
  | (name, sl) :: r => if name_is s name then Some sl else slot_of r s
  end.

(** o_staticmap.c:132-143: the object made from a slot. *)
Definition slot_value (m : mem) (sl : slot) : value * mem :=
  match sl with
  | SlType t => (VType t, m)
  | SlAny => (VAny, m)
  | SlSMap id => alloc m (OSMap id)
  | SlFun id argc => alloc m (ONative id argc)
  | SlInt z => (VInt z, m)
  | SlFlt b => (VFloat b, m)
  end.

(** o_staticmap.c:107-146 select_: a key that is not a string gives NULL. Running over the end of a table without terminator
    is undefined. *)
Definition smap_select (E : env) (id : nat) (key : value) (m : mem) : out (option value * mem) :=
  match id with
  | O | 5%nat =>
    match key with
    | VStr s =>
      match slot_of (if (id =? 0)%nat then bins_basic else bins_string) s with
      | Some sl => let (v, m') := slot_value m sl in OOk (Some v, m')
      | None => if (id =? 0)%nat then OOk (None, m) else OUB
      end
    | _ => OOk (None, m)
    end
  | _ => e_smap E id key m
  end.

(** string.c:11-275, basic.c:49-295: The native functions by number. *)
Definition native (E : env) (id : nat) (argv : list value) (m : mem) : out (list value * mem) :=
  match id with
  | 0%nat => bin_ord argv m
  | 1%nat => bin_chr argv m
  | 2%nat => bin_cat argv m
  | 3%nat => bin_trim argv m
  | 4%nat => bin_slice argv m
  | 5%nat => bin_toInt argv m
  | 6%nat => bin_type argv m
  | 7%nat => OOk ([], m)                      (* basic.c:111-120 bin_print *)
  | 8%nat => bin_count (e_native E id) argv m
  | 9%nat => OErr                             (* basic.c:241-263 bin_error: every path reports an error *)
  | 10%nat => bin_assert argv m
  | 11%nat => bin_istypeof argv m
  | 12%nat => bin_typename argv m
  | 13%nat => bin_keysof (e_native E id) argv m
  | _ => e_native E id argv m
  end.

(** runtime.c:804-809 Runtime_plugDefaultBuiltins: The environment of a running program: [E] gives the abstract parts, [b] is runtime->builtins. *)
Definition std_env (E : env) (b : option value) : env :=
  mkenv (native E) (smap_select E) (e_fselect E) (e_finsert E) b.
