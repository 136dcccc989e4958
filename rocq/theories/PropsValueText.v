(** Property C83: toString of lists, maps and other values. *)
From Coq Require Import ZArith String List Lia.
From Verif Require Import Base StringModel ValueModel MapModel MapSpec MapProofs2 ListModel ListProofs ObjModel VmModel VmExamples SrcModel BuiltinModel BuiltinProofs PreludeModel
  PreludeSpec PreludeRun PreludeUser PreludeVisit ShowSpec StartSpec TextSpec ValueText ValueTextLoop.
Import ListNotations.
Open Scope Z_scope.

(** * C83 *)
(** In a started interpreter, whatever else is in its memory: a value with a text has it from toString, with enough calls and turns of loops. Missing:
    texts of 2^31 bytes or more; floats, and the maps with their own toString. *)
Theorem C83_said_partial : forall E st v s, with_prelude st -> said (m_objs (t_mem st)) v s -> short s -> exists N, forall f, (N <= f)%nat -> exists st',
  call_named E f "toString" [v] st = OOk ([VStr s], st') /\ with_prelude st' /\ grown_from (t_mem st) (t_mem st').
Proof. exact toString_said. Qed.

(** What is of no type with a text is refused: booleans among others. *)
Theorem C83_refused : forall E f st v, with_prelude st -> within (t_mem st) v -> ~ In (type_of (rt_of (m_objs (t_mem st))) v) told -> (1 <= f)%nat ->
  call_named E f "toString" [v] st = OErr.
Proof. exact toString_refused. Qed.
Theorem C83_boolean_refuted : forall E f st x, with_prelude st -> (1 <= f)%nat -> call_named E f "toString" [VBool x] st = OErr.
Proof. intros E f st x W Hf. apply toString_refused; [exact W|exact I|cbn; intuition discriminate|exact Hf]. Qed.

(** A list that starts with itself: no number of calls is enough. *)
Theorem C83_self_refuted : forall E f st l lo rest, with_prelude st -> nth_error (m_objs (t_mem st)) l = Some (OList lo) -> rep lo (VRef l :: rest) ->
  Z.of_nat (List.length rest) < 2 ^ 30 -> call_named E f "toString" [VRef l] st = OFuel.
Proof. exact toString_self. Qed.

(** A type is not told by its name. *)
Theorem C83_type_refuted : forall E st t, with_prelude st -> exists N, forall f, (N <= f)%nat -> exists st',
  call_named E f "toString" [VType t] st = OOk ([VStr (bytes_of "Type")], st').
Proof.
  intros E st t W. destruct (toString_said E st (VType t) (bytes_of "Type") W (said_type _ t)) as [N H]; [reflexivity|].
  exists N. intros f Hf. destruct (H f Hf) as (st' & A & _). now exists st'.
Qed.

(** Different values with the same text: [1, 2] and ["1, 2"]. *)
Definition C83_objs : list hobj := Eval vm_compute in
  let item o i v := match o with OList l => match list_insert l i v with ROk l' => OList l' | _ => o end | _ => o end in
  let n := List.length P in
  let e := OList (new_list 8) in
  let m := match map_inserts vhash (obj_compare (fun _ => TyList)) (new_map (-1)) [(VStr (bytes_of "k"), VRef (n + 1))] with InsOk m => OMap m | _ => e end in
  [item (item e 0 (VInt 1)) 1 (VInt 2); item e 0 (VStr (bytes_of "1, 2")); item e 0 (VRef (n + 2));
   item (item (item (item e 0 VNone) 1 (VRef (n + 0))) 2 (VRef (n + 4))) 3 (VType TyInt); m].
Definition C83_st : sst := mkst (mkmem (P ++ C83_objs) false) C.
Notation at_ k := (VRef (List.length P + k)).
Example C83_started : with_prelude C83_st.
Proof. exists C83_objs, []. unfold C83_st. now rewrite app_nil_r. Qed.

Example C83_pair : said (m_objs (t_mem C83_st)) (at_ 0) (bytes_of "[1, 2]").
Proof.
  change (bytes_of "[1, 2]") with (bytes_of "[" ++ join (bytes_of ", ") [[48 + 1]; [48 + 2]] ++ bytes_of "]").
  eapply said_list with (vs := [VInt 1; VInt 2]); [vm_compute; reflexivity|repeat split; cbn; lia|].
  repeat apply said_cons; try apply said_nil; apply said_int; try reflexivity; apply dec_digit; lia.
Qed.
Example C83_one : said (m_objs (t_mem C83_st)) (at_ 1) (bytes_of "[1, 2]").
Proof.
  change (bytes_of "[1, 2]") with (bytes_of "[" ++ join (bytes_of ", ") [bytes_of "1, 2"] ++ bytes_of "]").
  eapply said_list with (vs := [VStr (bytes_of "1, 2")]); [vm_compute; reflexivity|repeat split; cbn; lia|].
  repeat apply said_cons; try apply said_nil. apply said_str. apply ascii_text. repeat constructor; discriminate.
Qed.
Theorem C83_ambiguous_refuted : exists st v w s, with_prelude st /\ v <> w /\ said (m_objs (t_mem st)) v s /\ said (m_objs (t_mem st)) w s.
Proof.
  exists C83_st, (at_ 0), (at_ 1), (bytes_of "[1, 2]"). split; [exact C83_started|]. split; [intros X; injection X; lia|]. split; [exact C83_pair|exact C83_one].
Qed.

(** [none, [1, 2], {"k": ["1, 2"]}, int] *)
Example C83_example : with_prelude C83_st /\ said (m_objs (t_mem C83_st)) (at_ 3) (bytes_of "[none, [1, 2], {k: [1, 2]}, Type]") /\
  (exists st, call_named env0 60 "toString" [at_ 3] C83_st = OOk ([VStr (bytes_of "[none, [1, 2], {k: [1, 2]}, Type]")], st)) /\
  (exists lo, nth_error (m_objs (t_mem C83_st)) (List.length P + 2) = Some (OList lo) /\ rep lo [at_ 2]) /\ within (t_mem C83_st) (at_ 3).
Proof.
  split; [exact C83_started|]. split; [|split; [|split]].
  - change (bytes_of "[none, [1, 2], {k: [1, 2]}, Type]") with
      (bytes_of "[" ++ join (bytes_of ", ") [bytes_of "none"; bytes_of "[1, 2]"; bytes_of "{" ++ join (bytes_of ", ") (entries [bytes_of "k"] [bytes_of "[1, 2]"]) ++ bytes_of "}"; bytes_of "Type"] ++ bytes_of "]").
    eapply said_list with (vs := [VNone; at_ 0; at_ 4; VType TyInt]); [vm_compute; reflexivity|repeat split; cbn; lia|].
    apply said_cons; [apply said_none|]. apply said_cons; [exact C83_pair|]. apply said_cons; [|apply said_cons; [apply said_type|apply said_nil]].
    eapply said_map with (num := -1) (h := [(VStr (bytes_of "k"), at_ 1)]).
    + vm_compute; reflexivity.
    + split; [split; vm_compute; reflexivity|]. split; [right; vm_compute; reflexivity|]. split; [|vm_compute; reflexivity].
      repeat constructor; cbn; try (intuition discriminate); try (unfold is_byte; vm_compute; intuition discriminate).
    + vm_compute. reflexivity.
    + vm_compute firsts. repeat apply said_cons; try apply said_nil. apply said_str. apply ascii_text. repeat constructor; discriminate.
    + vm_compute map. apply said_cons; [exact C83_one|apply said_nil].
  - eexists. vm_compute. reflexivity.
  - eexists. split; [vm_compute; reflexivity|]. repeat split; cbn; lia.
  - cbn [within C83_st t_mem m_objs]. rewrite app_length. cbn [List.length C83_objs]. lia.
Qed.
Print Assumptions C83_said_partial.
Print Assumptions C83_refused.
Print Assumptions C83_boolean_refuted.
Print Assumptions C83_self_refuted.
Print Assumptions C83_type_refuted.
Print Assumptions C83_ambiguous_refuted.
