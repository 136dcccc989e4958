(** Sockets and directories: C89, C90. *)
From Coq Require Import ZArith String List Bool Lia.
From Verif Require Import Base StringModel ValueModel ObjModel SysModel BuiltinModel BuiltinProofs NetModel NetSpec NetProofs NetExamples.
Import ListNotations.
Open Scope list_scope.
Open Scope Z_scope.

(** * C89 *)
(** The open descriptors are those the program was handed and did not close, as long as a socket can be made reusable. *)
Theorem C89_descriptors_partial : forall S (K : kernel S) opens objs cs s held, keeps K opens -> (forall s fd, snd (k_reuse K s fd) = None) -> Forall names_int cs ->
  (forall x, In x held -> 0 <= x < 2 ^ 31) -> (forall x, opens s x <-> In x held) ->
  let '(s1, l, _) := net_calls S K objs s cs in forall x, opens s1 x <-> In x (fold_left handed l held).
Proof. intros S K opens objs cs s held Kp NR NI R H. exact (ledger S K objs opens Kp cs NR NI s held R H). Qed.
Example C89_descriptors_ex : keeps (toy true) toy_opens /\ (forall s fd, snd (k_reuse (toy true) s fd) = None) /\ Forall names_int serve /\
  exists l ok, net_calls _ (toy true) [] [] serve = ([5; 3], l, ok) /\ fold_left handed l [] = [5; 3] /\ length l = 8%nat.
Proof.
  split; [apply toy_keeps|]. split; [reflexivity|]. split; [repeat constructor; vm_compute; congruence|]. eexists. eexists. repeat split; vm_compute; reflexivity.
Qed.
(** If it cannot, the descriptor stays open and the program is not told which one it is. *)
Theorem C89_lost_refuted : forall S (K : kernel S) opens objs s d t p s1 s2 fd msg, keeps K opens -> in_int d -> in_int t -> in_int p ->
  k_socket K s d t p = (s1, inl fd) -> k_reuse K s1 fd = (s2, Some msg) -> plain_text msg ->
  net_call S K objs NSocket s [VInt d; VInt t; VInt p; VBool true] = (s2, OOk [VNone; VStr msg]) /\ opens s2 fd.
Proof.
  intros S K opens objs s d t p s1 s2 fd msg Kp D T P A B M. rewrite socket_asks by assumption. rewrite A, B, (none_msg_plain msg M). split; [reflexivity|].
  pose proof (kp_reuse _ _ Kp s1 fd fd) as R. rewrite B in R. cbn [fst] in R. rewrite R. apply (kp_socket _ _ Kp _ _ _ _ _ _ A). left. reflexivity.
Qed.
Example C89_lost_ex : net_call _ (toy false) [] NSocket [] [VInt 2; VInt 1; VInt 0; VBool true] = ([3], OOk [VNone; VStr oops]).
Proof. vm_compute. reflexivity. Qed.

(** Every function asks the system for what it was called with, and hands back what the system answers. *)
Theorem C89_socket : forall S (K : kernel S) objs s d t p rest, in_int d -> in_int t -> in_int p ->
  net_call S K objs NSocket s (VInt d :: VInt t :: VInt p :: rest) =
  match rest with
  | [] | VNone :: _ | VBool false :: _ =>
    match k_socket K s d t p with (s1, inl fd) => (s1, OOk [ret_int fd]) | (s1, inr msg) => (s1, none_msg msg) end
  | VBool true :: _ =>
    match k_socket K s d t p with
    | (s1, inr msg) => (s1, none_msg msg)
    | (s1, inl fd) => match k_reuse K s1 fd with (s2, None) => (s2, OOk [ret_int fd]) | (s2, Some msg) => (s2, none_msg msg) end
    end
  | _ => (s, OErr)
  end.
Proof. exact socket_asks. Qed.
Theorem C89_bind : forall S (K : kernel S) objs s fd port rest, in_int fd -> 0 <= port < 65536 ->
  net_call S K objs NBind s (VInt fd :: VInt AF_INET :: VInt port :: rest) =
  match rest with
  | [] | VNone :: _ =>
    match k_bind K s fd port (0, 0, 0, 0) with (s1, None) => (s1, OOk [VNone]) | (s1, Some msg) => (s1, just_msg msg) end
  | VStr a :: _ =>
    match (match c_string (a ++ [0]) with Some c => k_pton K c | None => None end) with
    | None => (s, OOk [VNone; VStr bad_address])
    | Some addr => match k_bind K s fd port addr with (s1, None) => (s1, OOk [VNone]) | (s1, Some msg) => (s1, just_msg msg) end
    end
  | _ => (s, OErr)
  end.
Proof. exact bind_asks. Qed.
Theorem C89_listen : forall S (K : kernel S) objs s fd n rest, in_int fd -> in_int n -> net_call S K objs NListen s (VInt fd :: VInt n :: rest) =
  match k_listen K s fd n with (s1, None) => (s1, OOk [VNone]) | (s1, Some msg) => (s1, just_msg msg) end.
Proof. exact listen_asks. Qed.
Theorem C89_accept : forall S (K : kernel S) objs s fd rest, in_int fd -> net_call S K objs NAccept s (VInt fd :: rest) =
  match k_accept K s fd with
  | (s1, inl (new, addr, port)) => (s1, OOk [ret_int new; ret_int (addr_number addr); ret_int (swap16 port)])
  | (s1, inr msg) => (s1, none_msg msg)
  end.
Proof. exact accept_asks. Qed.
Theorem C89_close : forall S (K : kernel S) objs s fd rest, in_int fd ->
  net_call S K objs NClose s (VInt fd :: rest) = let (s1, r) := k_close K s fd in (s1, OOk [ret_int r]).
Proof. intros. rewrite close_asks, wrap32_id by assumption. reflexivity. Qed.
Example C89_asks_ex : net_call _ (toy true) [] NBind [7] [VInt 7; VInt 2; VInt 0; VStr (bytes_of "127.0.0.1")] = ([7], OOk [VStr oops]) /\
  net_call _ (toy true) [] NAccept [7] [VInt 7] = ([8; 7], OOk [VInt 8; VInt (-939480896); VInt 20480]) /\ net_call _ (toy true) [] NClose [7; 9] [VInt 9] = ([7], OOk [VInt 0]).
Proof. repeat split; vm_compute; reflexivity. Qed.
(** The address and the port of accept can be told apart from all others. *)
Theorem C89_peer : (forall a b, address a -> address b -> ret_int (addr_number a) = ret_int (addr_number b) -> a = b) /\
  (forall p, 0 <= p < 65536 -> swap16 (swap16 p) = p).
Proof. split; [exact address_one|exact swap_twice]. Qed.
(** A function whose first argument is not an integer asks the system for nothing; with any arguments a function ends. *)
Theorem C89_wrong_argument : forall S (K : kernel S) objs f s argv, (forall z r, argv <> VInt z :: r) -> net_call S K objs f s argv = (s, OErr).
Proof. exact first_not_int. Qed.
Example C89_wrong_argument_ex : forall z r, [VStr (bytes_of "3"); VInt 1] <> VInt z :: r.
Proof. discriminate. Qed.
Theorem C89_ends : forall S (K : kernel S) objs f s argv, polite K ->
  net_call S K objs f s argv = (s, OErr) \/ exists s1 vs, net_call S K objs f s argv = (s1, OOk vs) /\ (1 <= length vs <= 3)%nat.
Proof. exact call_ends. Qed.
Example C89_ends_ex : polite (toy false).
Proof. apply toy_polite. Qed.

(** ** What is not so *)
(** The first result of bind is none when it succeeds, and none when it is refused. *)
Theorem C89_bind_result_refuted : forall S (K : kernel S) objs s fd family port, in_int family -> family <> AF_INET ->
  net_call S K objs NBind s [VInt fd; VInt family; VInt port] = (s, OOk [VNone; VStr bad_family]).
Proof. intros. apply bind_family; auto. Qed.
(** A port above 65535 is another port. *)
Theorem C89_port_refuted : forall S (K : kernel S) objs s fd port rest,
  net_call S K objs NBind s (VInt fd :: VInt AF_INET :: VInt (port + 65536) :: rest) = net_call S K objs NBind s (VInt fd :: VInt AF_INET :: VInt port :: rest).
Proof. exact bind_port. Qed.
(** The port of accept is not the port of the other side. *)
Theorem C89_accept_port_refuted : exists port, 0 <= port < 65536 /\ ret_int (swap16 port) <> VInt port.
Proof. exists 80. split; [lia|]. vm_compute. congruence. Qed.
(** A number that is no descriptor closes one. *)
Theorem C89_alias_refuted : forall S (K : kernel S) objs s fd k, net_call S K objs NClose s [VInt (fd + k * 2 ^ 32)] = net_call S K objs NClose s [VInt fd].
Proof. intros. rewrite !close_asks. unfold wrap32. replace (fd + k * 2 ^ 32 + 2 ^ 31) with (fd + 2 ^ 31 + k * 2 ^ 32) by lia. now rewrite Z.mod_add by lia. Qed.

(** * C90 *)
(** The names of a directory, each once, and then nothing. *)
Theorem C90_listed_partial : forall names n, Forall plain_text names ->
  dir_items n (map DName names) = OOk (firstn n (map (fun t => [VStr t]) names) ++ repeat [] (n - length names)).
Proof. intros names n H. exact (dir_listed names H n). Qed.
Example C90_listed_ex : Forall plain_text (map bytes_of ["."; ".."; "a.nja"]%string) /\
  dir_items 4 (map DName (map bytes_of ["."; ".."; "a.nja"]%string)) = OOk [[VStr (bytes_of ".")]; [VStr (bytes_of "..")]; [VStr (bytes_of "a.nja")]; []].
Proof.
  split; [|vm_compute; reflexivity]. repeat constructor; (apply ascii_plain; [repeat (constructor; [vm_compute; split; congruence|]); constructor|vm_compute; reflexivity]).
Qed.
(** A name that is not text ends the program with an error. *)
Theorem C90_name_refuted : forall names t r n, Forall plain_text names -> Forall is_byte t -> ~ In 0 t -> short t -> ~ text t -> (length names < n)%nat ->
  dir_items n (map DName names ++ DName t :: r) = OErr.
Proof. intros names t r n H B N L T. exact (dir_stops names t r H B N L T n). Qed.
Example C90_name_ex : Forall is_byte [255] /\ ~ In 0 [255] /\ short [255] /\ ~ text [255] /\ dir_items 2 [DName [97]; DName [255]; DName [98]] = OErr.
Proof.
  split; [constructor; [unfold is_byte; lia|constructor]|]. split; [intros [X|[]]; discriminate|]. split; [vm_compute; reflexivity|]. split; [exact not_text_255|vm_compute; reflexivity].
Qed.
(** The directory that is opened is the one named by the path up to its first zero byte. *)
Theorem C90_open : forall opendir p rest, ~ In 0 p -> bin_open_dir opendir (VStr p :: rest) = OOk (opendir p).
Proof. intros opendir p rest H. cbn [bin_open_dir]. rewrite (c_string_no_nul p H). reflexivity. Qed.
Theorem C90_open_wrong : forall opendir a rest, (forall p, a <> VStr p) -> bin_open_dir opendir (a :: rest) = OErr.
Proof. intros opendir a rest H. destruct a as [| | | |p| | |]; try reflexivity. now destruct (H p). Qed.
Example C90_open_ex : ~ In 0 (bytes_of "/tmp").
Proof. vm_compute. intuition discriminate. Qed.
Theorem C90_zero_refuted : forall opendir p q, ~ In 0 p -> bin_open_dir opendir [VStr (p ++ 0 :: q)] = OOk (opendir p).
Proof. exact open_dir_zero. Qed.

Print Assumptions C89_descriptors_partial.
Print Assumptions C89_lost_refuted.
Print Assumptions C89_socket.
Print Assumptions C89_bind.
Print Assumptions C89_listen.
Print Assumptions C89_accept.
Print Assumptions C89_close.
Print Assumptions C89_peer.
Print Assumptions C89_wrong_argument.
Print Assumptions C89_ends.
Print Assumptions C89_bind_result_refuted.
Print Assumptions C89_port_refuted.
Print Assumptions C89_accept_port_refuted.
Print Assumptions C89_alias_refuted.
Print Assumptions C90_listed_partial.
Print Assumptions C90_name_refuted.
Print Assumptions C90_open.
Print Assumptions C90_open_wrong.
Print Assumptions C90_zero_refuted.
