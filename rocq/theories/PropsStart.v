(** Names and small functions of a started interpreter: C79. *)
From Coq Require Import ZArith SpecFloat String List Bool Lia.
From Verif Require Import BuiltinModel SysProofs LookSpec.
From Verif Require Import Base FloatModel Utf8Spec StringModel ValueModel ListModel ListProofs ExeModel ArithModel MapModel MapProofs2 ObjModel AstModel VmModel SrcModel BuiltinProofs PreludeModel
  PreludeRun PreludeUser CompSpec LexModel ParseModel CompileModel CompileProofs DepthSpec FuelProofs ScopeSpec ScopeProofs WhileSpec WhileProofs WhileExamples
  StartSpec StartProofs StartProofs2 StartUnknown.
Import ListNotations.
Open Scope Z_scope.

(** * C79 *)
(** Running the prelude and plugging what it returns gives a state of the kind the other theorems are about; [UE E] is the environment with
    the plugged object as the builtins, and the library outside the model given by [E]. *)
Theorem C79_started : forall E n, (1 <= n)%nat -> exists v st c m, start_run E n = OOk ([v], st) /\ plug (t_mem st) v (VRef 0) = (c, m) /\ UE E = std_env E (Some c) /\
  with_prelude (mkst m (t_codes st)).
Proof. exact start_state. Qed.

(** The names: the basic ones first, then those of the prelude, and no others. *)
Theorem C79_names : forall E st x, with_prelude st -> ident x ->
  ((exists name, In name known_names /\ x = bytes_of name) -> exists v m',
    smap_select E 0 (VStr x) (t_mem st) = OOk (Some v, m') /\ get_in (UE E) (t_mem st) [e_builtins (UE E)] (VStr x) = OOk (Some v, m')) /\
  ((exists name, In name prelude_names /\ x = bytes_of name) -> exists v, get_in (UE E) (t_mem st) [e_builtins (UE E)] (VStr x) = OOk (Some v, t_mem st)) /\
  (~ (exists name, In name (known_names ++ prelude_names) /\ x = bytes_of name) -> get_in (UE E) (t_mem st) [e_builtins (UE E)] (VStr x) = OOk (None, t_mem st)).
Proof. intros E st x (extra & cx & ->) Id. apply names_prelude; [reflexivity|apply has_app|exact Id]. Qed.

(** Plugging does not replace: whatever [v] holds, a basic name keeps its meaning. *)
Theorem C79_later_wins_refuted : forall E m v b x, nth_error (m_objs m) b = Some (OSMap 0) -> m_pend m = false -> ident x ->
  (exists name, In name known_names /\ x = bytes_of name) ->
  let (c, m1) := plug m v (VRef b) in exists w m2, smap_select E 0 (VStr x) m1 = OOk (Some w, m2) /\
  get_in (std_env E (Some c)) m1 [Some c] (VStr x) = OOk (Some w, m2).
Proof. exact plug_basic. Qed.

(** The programs of C78 run in a started interpreter, if they stay clear of these names. *)
Theorem C79_free_names : forall E st X, with_prelude st ->
  (forall x, In x X -> ident x /\ ~ exists name, In name (known_names ++ prelude_names) /\ x = bytes_of name) -> unknown (UE E) (t_mem st) X.
Proof. exact unknown_prelude. Qed.

(** abs on integers. Missing: the least integer. *)
Theorem C79_abs_partial : forall E f z st, with_prelude st -> - 2^63 < z < 2^63 -> (1 <= f)%nat -> exists st',
  call_named E f "abs" [VInt z] st = OOk ([VInt (Z.abs z)], st') /\ grown_from (t_mem st) (t_mem st').
Proof. exact abs_call. Qed.
Theorem C79_abs_refuted : forall E f st, with_prelude st -> (1 <= f)%nat -> call_named E f "abs" [VInt (- 2^63)] st = OUB.
Proof. exact abs_min. Qed.
(** abs on floats: bit patterns [a], meaning [f_decode a]. Missing: -0.0. *)
Theorem C79_abs_float_partial : forall E f a st, with_prelude st -> (1 <= f)%nat -> is_bits a -> f_decode a <> S754_zero true -> exists c st',
  call_named E f "abs" [VFloat a] st = OOk ([VFloat c], st') /\ is_bits c /\ f_decode c = SFabs (f_decode a) /\ grown_from (t_mem st) (t_mem st').
Proof. exact abs_float. Qed.
Theorem C79_abs_float_refuted : forall E f st, with_prelude st -> (1 <= f)%nat -> exists st', f_decode (2^63) = S754_zero true /\
  call_named E f "abs" [VFloat (2^63)] st = OOk ([VFloat (2^63)], st').
Proof. exact abs_zero. Qed.
Theorem C79_abs_refused : forall E f v st, with_prelude st -> (1 <= f)%nat -> within (t_mem st) v ->
  type_of (rt_of (m_objs (t_mem st))) v <> TyInt -> type_of (rt_of (m_objs (t_mem st))) v <> TyFloat -> call_named E f "abs" [v] st = OErr.
Proof. exact abs_other. Qed.
(** The negation of floats in general. *)
Theorem C79_negation : forall a, is_bits a -> is_bits (f_neg a) /\ f_decode (f_neg a) = SFopp (f_decode a).
Proof. intros a H. split; [exact (neg_bits a H)|exact (neg_decode a H)]. Qed.

(** min and max: the operator decides, so operands that cannot be compared are refused. *)
Theorem C79_min_max : forall E f x y st, with_prelude st -> (1 <= f)%nat ->
  picks OP_LSS x y (call_named E f "min" [x; y] st) (t_mem st) /\ picks OP_GRT x y (call_named E f "max" [x; y] st) (t_mem st).
Proof. intros E f x y st W F. split; [exact (min_call E f x y st W F)|exact (max_call E f x y st W F)]. Qed.
Theorem C79_min : forall E f x y st, with_prelude st -> (1 <= f)%nat -> exists st',
  call_named E f "min" [VInt x; VInt y] st = OOk ([VInt (Z.min x y)], st') /\ grown_from (t_mem st) (t_mem st').
Proof. exact min_ints. Qed.
Theorem C79_max : forall E f x y st, with_prelude st -> (1 <= f)%nat -> exists st',
  call_named E f "max" [VInt x; VInt y] st = OOk ([VInt (Z.max x y)], st') /\ grown_from (t_mem st) (t_mem st').
Proof. exact max_ints. Qed.

(** isCallable: functions and native functions. *)
Theorem C79_isCallable : forall E f v st, with_prelude st -> within (t_mem st) v -> (1 <= f)%nat -> exists st',
  call_named E f "isCallable" [v] st =
    OOk ([VBool (tyname_eqb (type_of (rt_of (m_objs (t_mem st))) v) TyFun || tyname_eqb (type_of (rt_of (m_objs (t_mem st))) v) TyNFun)], st') /\
  grown_from (t_mem st) (t_mem st').
Proof. exact isCallable_type. Qed.

(** append: one more item at the end of the list, and nothing else changes. *)
Theorem C79_append : forall E f st l lo vs v, with_prelude st -> (1 <= f)%nat -> nth_error (m_objs (t_mem st)) l = Some (OList lo) -> rep lo vs -> 8 <= l_cap lo ->
  Z.of_nat (List.length vs) < 2 ^ 30 ->
  exists st' lo', call_named E f "append" [VRef l; v] st = OOk ([VNone], st') /\ with_prelude st' /\ nth_error (m_objs (t_mem st')) l = Some (OList lo') /\ rep lo' (vs ++ [v]) /\ 8 <= l_cap lo' /\
  forall k o, k <> l -> nth_error (m_objs (t_mem st)) k = Some o -> nth_error (m_objs (t_mem st')) k = Some o.
Proof. exact append_call. Qed.
Theorem C79_append_refused : forall E f st v w, with_prelude st -> (1 <= f)%nat -> within (t_mem st) v -> type_of (rt_of (m_objs (t_mem st))) v <> TyList ->
  call_named E f "append" [v; w] st = OErr.
Proof. exact append_other. Qed.

(** integerFromDigit: the first character counts, what follows is ignored. *)
Theorem C79_digit_partial : forall E f st c cs, with_prelude st -> (1 <= f)%nat -> Forall code_point (c :: cs) -> short (encs (c :: cs)) -> 48 <= c <= 57 -> exists st',
  call_named E f "integerFromDigit" [VStr (encs (c :: cs))] st = OOk ([VInt (c - 48)], st') /\ grown_from (t_mem st) (t_mem st').
Proof. exact ifd_call. Qed.
Theorem C79_no_digit : forall E f st c cs, with_prelude st -> (1 <= f)%nat -> Forall code_point (c :: cs) -> short (encs (c :: cs)) -> ~ 48 <= c <= 57 ->
  call_named E f "integerFromDigit" [VStr (encs (c :: cs))] st = OErr.
Proof. exact ifd_no_digit. Qed.
Theorem C79_digit_refused : forall E f st v, with_prelude st -> (1 <= f)%nat -> within (t_mem st) v -> v = VStr [] \/ type_of (rt_of (m_objs (t_mem st))) v <> TyString ->
  call_named E f "integerFromDigit" [v] st = OErr.
Proof. exact ifd_other. Qed.

(** A text that is Euclid's algorithm, from the start of the interpreter to the answer. *)
Theorem C79_euclid : forall src a b, text_ok src -> slen src < 2 ^ 26 -> reads src (euclid a b) -> 0 <= a -> 0 <= b ->
  exists x, compile src = ROk x /\ forall E n, (1 <= n)%nat -> exists v st c m, start_run E n = OOk ([v], st) /\ plug (t_mem st) v (VRef 0) = (c, m) /\
  exists j m', steps (std_env E (Some c)) 256 x j (vm_start m) = SDone [VInt (Z.gcd a b)] m'.
Proof.
  intros src a b T L R Ha Hb. destruct (euclid_runs src a b T L R Ha Hb) as (x & Hx & Run). exists x. split; [exact Hx|]. intros E n Hn.
  destruct (start_state E n Hn) as (v & st & c & m & H1 & H2 & H3 & W). exists v, st, c, m. split; [exact H1|]. split; [exact H2|]. rewrite <- H3.
  apply Run; [lia| |].
  - destruct W as (extra & cx & Q). injection Q as -> _. reflexivity.
  - refine (unknown_prelude E (mkst m (t_codes st)) _ W _). intros y Hy.
    assert (ident y /\ forallb (fun name => negb (name_eqb y (bytes_of name))) (known_names ++ prelude_names) = true) as [I N].
    { destruct Hy as [<-|[<-|[<-|[]]]]; (split; [split; [repeat constructor; lia|reflexivity]|vm_compute; reflexivity]). }
    split; [exact I|]. intros (name & Hin & ->). rewrite forallb_forall in N. specialize (N _ Hin). unfold name_eqb in N.
    destruct (list_eq_dec Z.eq_dec (bytes_of name) (bytes_of name)); [discriminate|congruence].
Qed.

(** * Examples *)
Definition C79_st : sst := mkst (mkmem (P ++ [OList (new_list2 [VInt 3; VStr (bytes_of "x")]); OMap (new_map (-1))]) false) C.
Example C79_example_state : with_prelude C79_st /\ within (t_mem C79_st) (VRef 54) /\ nth_error (m_objs (t_mem C79_st)) 54 = Some (OList (new_list2 [VInt 3; VStr (bytes_of "x")])) /\
  rep (new_list2 [VInt 3; VStr (bytes_of "x")]) [VInt 3; VStr (bytes_of "x")].
Proof.
  split; [|split; [|split]].
  - exists [OList (new_list2 [VInt 3; VStr (bytes_of "x")]); OMap (new_map (-1))], []. unfold C79_st. rewrite (app_nil_r C). reflexivity.
  - vm_compute. lia.
  - vm_compute. reflexivity.
  - repeat split; vm_compute; lia || reflexivity.
Qed.
Example C79_example_names : ident (bytes_of "print") /\ ident (bytes_of "toString") /\ ident (bytes_of "gcd") /\
  get_in (UE no_env) (t_mem C79_st) [Some (VRef B)] (VStr (bytes_of "toString")) = OOk (Some (VRef 40), t_mem C79_st) /\
  get_in (UE no_env) (t_mem C79_st) [Some (VRef B)] (VStr (bytes_of "gcd")) = OOk (None, t_mem C79_st) /\
  ~ exists name, In name (known_names ++ prelude_names) /\ bytes_of "gcd" = bytes_of name.
Proof.
  repeat split; try (repeat constructor; vm_compute; congruence); try (vm_compute; reflexivity).
  intros (name & Hin & Q). assert (X : forallb (fun name => negb (name_eqb (bytes_of "gcd") (bytes_of name))) (known_names ++ prelude_names) = true) by (vm_compute; reflexivity).
  rewrite forallb_forall in X. specialize (X _ Hin). unfold name_eqb in X. destruct (list_eq_dec Z.eq_dec (bytes_of "gcd") (bytes_of name)); [discriminate|contradiction].
Qed.
(** A map holding another [print] is plugged: the old [print] is found. *)
Definition C79_mem : mem := mkmem [OSMap 0; OMap (match map_inserts vhash (obj_compare (fun _ => TyList)) (new_map 1) [(VStr (bytes_of "print"), VInt 7)] with InsOk m => m | _ => new_map 0 end)] false.
Example C79_example_plug : let (c, m1) := plug C79_mem (VRef 1) (VRef 0) in
  select_of no_env m1 (VRef 1) (VStr (bytes_of "print")) = OOk (Some (VInt 7), m1) /\
  get_in (std_env no_env (Some c)) m1 [Some c] (VStr (bytes_of "print")) = OOk (Some (VRef 3), mkmem (m_objs m1 ++ [ONative N_print (-1)]) false).
Proof. vm_compute. split; reflexivity. Qed.
Definition C79_answer (r : out (list value * sst)) : out (list value) := obind r (fun x => OOk (fst x)).
Example C79_example_calls :
  C79_answer (call_named no_env 5 "abs" [VInt (-12)] C79_st) = OOk [VInt 12] /\
  C79_answer (call_named no_env 5 "abs" [VFloat (f_of_int (-2))] C79_st) = OOk [VFloat (f_of_int 2)] /\
  C79_answer (call_named no_env 5 "abs" [VStr [97]] C79_st) = OErr /\
  C79_answer (call_named no_env 5 "min" [VInt 3; VFloat (f_of_int 2)] C79_st) = OOk [VFloat (f_of_int 2)] /\
  C79_answer (call_named no_env 5 "max" [VInt 3; VStr [50]] C79_st) = OErr /\
  C79_answer (call_named no_env 5 "isCallable" [VRef 40] C79_st) = OOk [VBool true] /\
  C79_answer (call_named no_env 5 "isCallable" [VRef 54] C79_st) = OOk [VBool false] /\
  C79_answer (call_named no_env 5 "append" [VInt 1; VInt 1] C79_st) = OErr /\
  C79_answer (call_named no_env 5 "integerFromDigit" [VStr (bytes_of "12")] C79_st) = OOk [VInt 1] /\
  C79_answer (call_named no_env 5 "integerFromDigit" [VStr (bytes_of "a")] C79_st) = OErr /\
  encs [49; 50] = bytes_of "12" /\ short (encs [49; 50]) /\ Forall code_point [49; 50].
Proof. repeat split; try (repeat constructor; unfold code_point; lia); vm_compute; reflexivity. Qed.
Example C79_example_float : is_bits (f_of_int (-2)) /\ f_decode (f_of_int (-2)) <> S754_zero true.
Proof. split; [vm_compute; split; [discriminate|reflexivity]|vm_compute; discriminate]. Qed.
Example C79_example_euclid : text_ok src_euclid /\ slen src_euclid < 2 ^ 26 /\ reads src_euclid (euclid 123456789012 9876543210).
Proof.
  split; [repeat (constructor; [vm_compute; split; congruence|]); constructor|].
  split; [vm_compute; reflexivity|apply reads_parse; vm_compute; reflexivity].
Qed.

Print Assumptions C79_started.
Print Assumptions C79_names.
Print Assumptions C79_later_wins_refuted.
Print Assumptions C79_free_names.
Print Assumptions C79_abs_partial.
Print Assumptions C79_abs_refuted.
Print Assumptions C79_abs_float_partial.
Print Assumptions C79_abs_float_refuted.
Print Assumptions C79_abs_refused.
Print Assumptions C79_negation.
Print Assumptions C79_min_max.
Print Assumptions C79_min.
Print Assumptions C79_max.
Print Assumptions C79_isCallable.
Print Assumptions C79_append.
Print Assumptions C79_append_refused.
Print Assumptions C79_digit_partial.
Print Assumptions C79_no_digit.
Print Assumptions C79_digit_refused.
Print Assumptions C79_euclid.
