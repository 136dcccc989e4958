(** Sources: C72. *)
From Coq Require Import ZArith String List Bool Lia.
From Verif Require Import Base StringModel LexModel ParseModel ParseExamples SysModel SysProofs SourceModel SourceProofs.
Import ListNotations.
Open Scope string_scope.
Open Scope list_scope.
Open Scope Z_scope.

(** * C72 *)
Theorem C72_file : forall cwd fs big file path content, (forall dir, cwd = Some dir -> no_nul dir) -> no_nul file ->
  resolved cwd file path -> fs path = Some content -> Z.of_nat (List.length content) < 2 ^ 31 ->
  SIZEOF_SOURCE + Z.of_nat (List.length path) + Z.of_nat (List.length content) + 2 <= big ->
  exists s, from_file cwd fs big file = ROk s /\ get_text s = Some content /\ get_after s = Some 0 /\
    get_name s = Some path /\ get_path s = Some path /\ s_refs s = 1.
Proof. intros cwd fs big file path content H. exact (file_ok cwd fs big H file path content). Qed.
(** What is missing in the next theorem: the text is the beginning of the file only. *)
Theorem C72_file_only_partial : forall cwd fs big file s, (forall dir, cwd = Some dir -> no_nul dir) -> no_nul file ->
  from_file cwd fs big file = ROk s ->
  exists path content, resolved cwd file path /\ fs path = Some content /\ get_name s = Some path /\ get_path s = Some path /\
    s_refs s = 1 /\ get_after s = Some 0 /\ get_size s < 2 ^ 31 /\
    get_text s = Some (firstn (Z.to_nat (Z.of_nat (List.length content) mod 2 ^ 32)) content).
Proof. intros cwd fs big file s H. exact (file_only cwd fs big H file s). Qed.
Theorem C72_no_file : forall cwd fs big file, (forall dir, cwd = Some dir -> no_nul dir) -> no_nul file ->
  (forall path, resolved cwd file path -> fs path = None) -> from_file cwd fs big file = RErr.
Proof. exact file_missing. Qed.
(** A file of 2^32 + k bytes is read as its first k bytes. *)
Theorem C72_large_file_refuted : exists fs file s content, fs file = Some content /\ from_file None fs (2 ^ 20) file = ROk s /\
  get_text s = Some [120] /\ Z.of_nat (List.length content) = 2 ^ 32 + 1.
Proof. exact file_large. Qed.
Theorem C72_string : forall big name s r size, no_nul s -> -1 <= size < 2 ^ 31 -> Z.of_nat (List.length s) < 2 ^ 31 ->
  let n := if size <? 0 then List.length s else Z.to_nat size in
  SIZEOF_SOURCE + name_len name + Z.of_nat n + 2 <= big -> big < 2 ^ 64 ->
  exists t, from_string big name (s ++ 0 :: r) size = ROk t /\
    get_text t = Some (firstn n s ++ repeat 0 (n - List.length s)) /\ get_size t = Z.of_nat n /\ get_name t = name /\ get_path t = None /\
    s_refs t = 1 /\ get_after t = None.
Proof. exact string_ok. Qed.
(** No source made of a string is terminated; the tokenizer reads behind it after an open quote. *)
Theorem C72_unterminated_refuted : forall big name mem size t, size < 2 ^ 31 -> from_string big name mem size = ROk t -> get_after t = None.
Proof. exact string_after. Qed.
Theorem C72_open_quote_refuted : exists mem t src, from_string (2 ^ 20) None mem (-1) = ROk t /\ get_text t = Some src /\
  parse (match get_after t with Some 0 => true | _ => false end) src = PUB.
Proof.
  exists (bytes "x='a" ++ [0]), (mksource None (map Some (bytes "x='a") ++ [None]) 4 1 false), (bytes "x='a").
  split; [vm_compute; reflexivity|]. split; vm_compute; reflexivity.
Qed.
Theorem C72_alive : forall ops, Z.of_nat (copies ops) < 2 ^ 31 - 1 ->
  (forall pre post, ops = pre ++ post -> (frees pre < 1 + copies pre)%nat) -> exists r, ref_run (Some 1) ops = ROk (Some r) /\ 0 < r.
Proof. exact ref_alive. Qed.
Theorem C72_freed : forall ops, Z.of_nat (copies ops) < 2 ^ 31 - 1 -> ops <> [] ->
  (forall pre post, ops = pre ++ post -> post <> [] -> (frees pre < 1 + copies pre)%nat) -> (frees ops = 1 + copies ops)%nat ->
  ref_run (Some 1) ops = ROk None /\ forall o, ref_run (Some 1) (ops ++ [o]) = RUB.
Proof. exact ref_freed. Qed.

Example C72_example :
  let fs p := if list_eq_dec Z.eq_dec p (bytes "/w/a.noja") then Some (bytes "x=1;") else None in
  resolved (Some (bytes "/w")) (bytes "a.noja") (bytes "/w/a.noja") /\
  match from_file (Some (bytes "/w")) fs 1000 (bytes "a.noja") with
  | ROk s => get_text s = Some (bytes "x=1;") /\ get_after s = Some 0 /\ get_path s = Some (bytes "/w/a.noja")
  | _ => False
  end /\
  from_file (Some (bytes "/w")) fs 1000 (bytes "b.noja") = RErr /\
  match from_string 1000 (Some (bytes "p")) (bytes "x=1;" ++ [0; 7]) 2, from_string 1000 None (bytes "x" ++ [0]) 3 with
  | ROk s, ROk t => get_text s = Some (bytes "x=") /\ get_text t = Some [120; 0; 0]
  | _, _ => False
  end /\
  ref_run (Some 1) [SCopy; SFree; SFree] = ROk None /\ ref_run (Some 1) [SCopy; SFree] = ROk (Some 1).
Proof.
  split; [right; split; [discriminate|]; split; [intros r H; discriminate H|]; exists (bytes "/w"); split; [reflexivity|]; split; [reflexivity|vm_compute; reflexivity]|].
  split; [vm_compute; auto|]. split; [vm_compute; reflexivity|]. split; [vm_compute; auto|]. split; vm_compute; reflexivity.
Qed.
Print Assumptions C72_file.
Print Assumptions C72_file_only_partial.
Print Assumptions C72_no_file.
Print Assumptions C72_large_file_refuted.
Print Assumptions C72_string.
Print Assumptions C72_unterminated_refuted.
Print Assumptions C72_open_quote_refuted.
Print Assumptions C72_alive.
Print Assumptions C72_freed.
