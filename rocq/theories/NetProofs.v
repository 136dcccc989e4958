(** Sockets and directories: proofs. *)
From Coq Require Import ZArith String List Bool Lia.
From Verif Require Import Base Utf8Model StringModel ValueModel ObjModel VmModel SysModel BuiltinModel BuiltinProofs NetModel NetSpec.
Import ListNotations.
Open Scope Z_scope.

Lemma strlen_no_nul s : ~ In 0 s -> c_strlen (s ++ [0]) = Some (length s).
Proof.
  induction s as [|c r IH]; intros H; [reflexivity|]. cbn [app c_strlen length]. destruct (Z.eqb_spec c 0) as [->|N]; [destruct H; left; reflexivity|].
  rewrite IH; [reflexivity|]. intros I. apply H. right. exact I.
Qed.
Lemma c_string_no_nul s : ~ In 0 s -> c_string (s ++ [0]) = Some s.
Proof. intros H. unfold c_string. rewrite (strlen_no_nul s H), firstn_app, Nat.sub_diag, firstn_all. cbn. now rewrite app_nil_r. Qed.

Lemma vstring_new s : ~ In 0 s -> short s -> vstring s = new_string (s ++ [0]) (Z.of_nat (length s)).
Proof.
  intros H L. unfold vstring, new_string, from_string. unfold short in L. rewrite wrap32_id by (unfold in_int; lia). cbn [Z.ltb Z.compare].
  rewrite (strlen_no_nul s H). destruct (Z.ltb_spec (Z.of_nat (length s)) 0); [lia|]. rewrite Nat2Z.id. reflexivity.
Qed.
Lemma vstring_plain s : plain_text s -> vstring s = OOk (VStr s).
Proof. intros (T & L & N). rewrite (vstring_new s N L). apply new_string_text; auto. Qed.
Lemma vstring_bad s : Forall is_byte s -> ~ In 0 s -> short s -> ~ text s -> vstring s = OErr.
Proof.
  intros B N L T. rewrite (vstring_new s N L). unfold short in L.
  destruct (new_string_spec (s ++ [0]) (length s)) as [_ H].
  - apply Forall_app. split; [exact B|]. constructor; [unfold is_byte; lia|constructor].
  - rewrite app_length. lia.
  - lia.
  - apply H. rewrite firstn_app, Nat.sub_diag, firstn_all. cbn. now rewrite app_nil_r.
Qed.
Lemma ascii_plain s : Forall (fun b => 1 <= b < 128) s -> short s -> plain_text s.
Proof.
  intros H L. split; [|split; [exact L|]].
  - apply ascii_text. eapply Forall_impl; [|exact H]. cbn. lia.
  - intros I. rewrite Forall_forall in H. specialize (H 0 I). lia.
Qed.

Lemma bad_family_plain : plain_text bad_family.
Proof. apply ascii_plain; [repeat (constructor; [vm_compute; split; congruence|]); constructor|vm_compute; reflexivity]. Qed.
Lemma bad_address_plain : plain_text bad_address.
Proof. apply ascii_plain; [repeat (constructor; [vm_compute; split; congruence|]); constructor|vm_compute; reflexivity]. Qed.

Lemma none_msg_plain m : plain_text m -> none_msg m = OOk [VNone; VStr m].
Proof. intros H. unfold none_msg. now rewrite (vstring_plain m H). Qed.
Lemma just_msg_plain m : plain_text m -> just_msg m = OOk [VStr m].
Proof. intros H. unfold just_msg. now rewrite (vstring_plain m H). Qed.

Section Net.
Variable S : Type.
Variable K : kernel S.
Variable objs : list hobj.


(** ** What is asked and answered *)
Lemma socket_asks s d t p rest : in_int d -> in_int t -> in_int p ->
  net_call S K objs NSocket s (VInt d :: VInt t :: VInt p :: rest) =
  match rest with
  | [] | VNone :: _ | VBool false :: _ =>
    match k_socket K s d t p with (s1, inl fd) => (s1, OOk [ret_int fd]) | (s1, inr msg) => (s1, none_msg msg) end
  | VBool true :: _ =>
    match k_socket K s d t p with
    | (s1, inr msg) => (s1, none_msg msg)
    | (s1, inl fd) => match k_reuse K s1 fd with (s2, None) => (s2, OOk [ret_int fd]) | (s2, Some msg) => (s2, none_msg msg) end
    end
  | _ => (s, OErr)
  end.
Proof.
  intros D T P. unfold net_call, bin_socket. destruct rest as [|r rest]; cbn; rewrite ?(wrap32_id d D), ?(wrap32_id t T), ?(wrap32_id p P).
  - destruct (k_socket K s d t p) as [s1 [fd|msg]]; reflexivity.
  - destruct r as [|[]| | | | | |]; cbn; rewrite ?(wrap32_id d D), ?(wrap32_id t T), ?(wrap32_id p P); try reflexivity;
      destruct (k_socket K s d t p) as [s1 [fd|msg]]; reflexivity.
Qed.
Lemma bind_asks s fd port rest : in_int fd -> 0 <= port < 65536 ->
  net_call S K objs NBind s (VInt fd :: VInt AF_INET :: VInt port :: rest) =
  match rest with
  | [] | VNone :: _ =>
    match k_bind K s fd port (0, 0, 0, 0) with (s1, None) => (s1, OOk [VNone]) | (s1, Some msg) => (s1, just_msg msg) end
  | VStr a :: _ =>
    match (match c_string (a ++ [0]) with Some c => k_pton K c | None => None end) with
    | None => (s, OOk [VNone; VStr bad_address])
    | Some addr => match k_bind K s fd port addr with (s1, None) => (s1, OOk [VNone]) | (s1, Some msg) => (s1, just_msg msg) end
    end
  | _ => (s, OErr)
  end.
Proof.
  intros F P. assert (Pi : in_int port) by (unfold in_int; lia). pose proof (none_msg_plain _ bad_address_plain) as A.
  unfold net_call, bin_bind. destruct rest as [|r rest].
  - cbn - [none_msg Z.modulo]. rewrite (wrap32_id fd F), (wrap32_id port Pi), Z.mod_small by lia. destruct (k_bind K s fd port (0, 0, 0, 0)) as [s1 [msg|]]; reflexivity.
  - destruct r; cbn - [none_msg Z.modulo bad_address c_string]; rewrite ?(wrap32_id fd F), ?(wrap32_id port Pi), ?Z.mod_small by lia; try reflexivity.
    all: destruct (match c_string (s0 ++ [0]) with Some c => k_pton K c | None => None end) as [addr|]; [|rewrite A; reflexivity];
      destruct (k_bind K s fd port addr) as [s1 [msg|]]; reflexivity.
Qed.
Lemma bind_family s fd family port rest : in_int family -> family <> AF_INET -> (rest = [] \/ exists r t, rest = r :: t /\ (r = VNone \/ exists a, r = VStr a)) ->
  net_call S K objs NBind s (VInt fd :: VInt family :: VInt port :: rest) = (s, OOk [VNone; VStr bad_family]).
Proof.
  intros F N R. pose proof (none_msg_plain _ bad_family_plain) as A. unfold net_call, bin_bind.
  assert (Q : (wrap32 family =? AF_INET) = false) by (rewrite (wrap32_id family F); now apply Z.eqb_neq).
  destruct R as [->|(r & t & -> & [->|(a & ->)])]; cbn - [none_msg bad_family wrap32 AF_INET]; rewrite Q; cbn - [none_msg bad_family]; rewrite A; reflexivity.
Qed.
Lemma wrap32_port z : wrap32 z mod 65536 = z mod 65536.
Proof.
  unfold wrap32. pose proof (Z.div_mod (z + 2 ^ 31) (2 ^ 32) ltac:(lia)) as H. set (q := (z + 2 ^ 31) / 2 ^ 32) in *.
  replace ((z + 2 ^ 31) mod 2 ^ 32 - 2 ^ 31) with (z + (- q * 65536) * 65536) by lia. apply Z.mod_add. lia.
Qed.
Lemma bind_port s fd port rest : net_call S K objs NBind s (VInt fd :: VInt AF_INET :: VInt (port + 65536) :: rest) = net_call S K objs NBind s (VInt fd :: VInt AF_INET :: VInt port :: rest).
Proof.
  assert (Q : wrap32 (port + 65536) mod 65536 = wrap32 port mod 65536).
  { rewrite !wrap32_port. replace (port + 65536) with (port + 1 * 65536) by lia. now rewrite Z.mod_add by lia. }
  unfold net_call, bin_bind. destruct rest as [|r rest]; [|destruct r]; cbn - [none_msg Z.modulo wrap32 Z.add]; rewrite ?Q; reflexivity.
Qed.
Lemma listen_asks s fd n rest : in_int fd -> in_int n -> net_call S K objs NListen s (VInt fd :: VInt n :: rest) =
  match k_listen K s fd n with (s1, None) => (s1, OOk [VNone]) | (s1, Some msg) => (s1, just_msg msg) end.
Proof. intros F N. unfold net_call, bin_listen. cbn. rewrite (wrap32_id fd F), (wrap32_id n N). destruct (k_listen K s fd n) as [s1 [msg|]]; reflexivity. Qed.
Lemma accept_asks s fd rest : in_int fd -> net_call S K objs NAccept s (VInt fd :: rest) =
  match k_accept K s fd with
  | (s1, inl (new, addr, port)) => (s1, OOk [ret_int new; ret_int (addr_number addr); ret_int (swap16 port)])
  | (s1, inr msg) => (s1, none_msg msg)
  end.
Proof. intros F. unfold net_call, bin_accept. cbn. rewrite (wrap32_id fd F). destruct (k_accept K s fd) as [s1 [[[new addr] port]|msg]]; reflexivity. Qed.
Lemma close_asks s fd rest : net_call S K objs NClose s (VInt fd :: rest) = let (s1, r) := k_close K s (wrap32 fd) in (s1, OOk [ret_int r]).
Proof. reflexivity. Qed.

(** ** Wrong arguments *)
Lemma first_not_int f s argv : (forall z r, argv <> VInt z :: r) -> net_call S K objs f s argv = (s, OErr).
Proof.
  intros H. unfold net_call. destruct argv as [|a r]; [destruct f; reflexivity|].
  destruct a; try (destruct f; reflexivity). exfalso. eapply H. reflexivity.
Qed.

Lemma parse_ok fmt argv : (exists ps, parse_args objs fmt argv = OOk ps) \/ parse_args objs fmt argv = OErr.
Proof.
  assert (A : forall c v, (exists p, parse_arg objs c v = OOk p) \/ parse_arg objs c v = OErr).
  { intros c v. unfold parse_arg. repeat match goal with |- context [if ?b then _ else _] => destruct b end; try (destruct v); eauto. }
  assert (Q : forall n fmt argv, (length fmt <= n)%nat -> (exists ps, parse_args objs fmt argv = OOk ps) \/ parse_args objs fmt argv = OErr).
  { clear fmt argv. induction n as [|n IH]; intros fmt argv L; (destruct fmt as [|c r]; [left; eexists; reflexivity|]); [cbn in L; lia|]. cbn [length] in L.
    destruct argv as [|arg rest]; [right; reflexivity|]. cbn [parse_args]. destruct (c =? 63).
    - destruct r as [|c2 r2]; [right; reflexivity|]. cbn [length] in L.
      assert (B : (exists p, (match arg with VNone => OOk PgNone | _ => parse_arg objs c2 arg end) = OOk p) \/ (match arg with VNone => OOk PgNone | _ => parse_arg objs c2 arg end) = OErr)
        by (destruct arg; eauto).
      destruct B as [(p & ->)| ->]; [|right; reflexivity]. cbn [obind]. destruct (IH r2 rest) as [(ps & ->)| ->]; [lia|left; eexists; reflexivity|right; reflexivity].
    - destruct (A c arg) as [(p & ->)| ->]; [|right; reflexivity]. cbn [obind]. destruct (IH r rest) as [(ps & ->)| ->]; [lia|left; eexists; reflexivity|right; reflexivity]. }
  exact (Q _ fmt argv (le_n _)).
Qed.
Lemma parse_i r argv ps : parse_args objs (105 :: r) argv = OOk ps -> exists z rest qs, argv = VInt z :: rest /\ ps = PgInt z :: qs /\ parse_args objs r rest = OOk qs.
Proof.
  destruct argv as [|a rest]; [discriminate|]. cbn [parse_args]. change (105 =? 63) with false. cbn [parse_arg]. intros H.
  destruct a; try (cbn in H; discriminate). change (parse_arg objs 105 (VInt z)) with (OOk (PgInt z)) in H. cbn [obind] in H.
  destruct (parse_args objs r rest) as [qs| | | |] eqn:Q; try discriminate. injection H as <-. eauto 8.
Qed.
Lemma parse_none argv ps : parse_args objs [] argv = OOk ps -> ps = [].
Proof. cbn. congruence. Qed.
Lemma parse_opt c argv ps : c <> 63 -> parse_args objs [63; c] argv = OOk ps -> exists a rest p, argv = a :: rest /\ ps = [p] /\ (a = VNone /\ p = PgNone \/ a <> VNone /\ parse_arg objs c a = OOk p).
Proof.
  intros N. destruct argv as [|a rest]; [discriminate|]. cbn [parse_args]. change (63 =? 63) with true. cbv iota. intros H.
  destruct (match a with VNone => OOk PgNone | _ => parse_arg objs c a end) as [p| | | |] eqn:Q; try discriminate. cbn in H. injection H as <-.
  exists a, rest, p. split; [reflexivity|]. split; [reflexivity|]. destruct a; try (right; split; [discriminate|exact Q]). left. split; [reflexivity|congruence].
Qed.

(** ** The descriptors *)
Variable opens : S -> Z -> Prop.
Hypothesis Kp : keeps K opens.


Definition step_ok (c : netfun * list value) (s : S) : Prop :=
  let (f, argv) := c in
  forall held, names_int c -> (forall x, In x held -> 0 <= x < 2 ^ 31) -> (forall x, opens s x <-> In x held) ->
  match net_call S K objs f s argv with
  | (s1, OOk vs) => let h := handed held (f, argv, vs) in (forall x, In x h -> 0 <= x < 2 ^ 31) /\ forall x, opens s1 x <-> In x h
  | (s1, _) => forall x, opens s1 x <-> In x held
  end.

Lemma opened_step held s1 fd : 0 <= fd < 2 ^ 31 -> (forall x, In x held -> 0 <= x < 2 ^ 31) -> (forall x, opens s1 x <-> x = fd \/ In x held) ->
  (forall x, In x (wrap32 fd :: held) -> 0 <= x < 2 ^ 31) /\ forall x, opens s1 x <-> In x (wrap32 fd :: held).
Proof.
  intros R H O. rewrite wrap32_id by (unfold in_int; lia). split; [intros x [<-|I]; [lia|auto]|]. intros x. rewrite O. cbn [In]. intuition.
Qed.
Lemma msg_step held s1 (o : out (list value)) f argv msg : o = none_msg msg \/ o = just_msg msg -> (f = NSocket \/ f = NAccept -> o = none_msg msg) -> f <> NClose ->
  (forall x, In x held -> 0 <= x < 2 ^ 31) -> (forall x, opens s1 x <-> In x held) ->
  match (s1, o) with
  | (s1, OOk vs) => let h := handed held (f, argv, vs) in (forall x, In x h -> 0 <= x < 2 ^ 31) /\ forall x, opens s1 x <-> In x h
  | (s1, _) => forall x, opens s1 x <-> In x held
  end.
Proof.
  intros O F C R H. destruct o as [vs| | | |]; auto. cbv zeta. assert (Q : handed held (f, argv, vs) = held); [|rewrite Q; auto].
  destruct f; try congruence; try reflexivity.
  - specialize (F (or_introl eq_refl)). unfold none_msg in F. destruct (vstring msg) as [v| | | |]; try discriminate. cbn in F. injection F as ->. reflexivity.
  - specialize (F (or_intror eq_refl)). unfold none_msg in F. destruct (vstring msg) as [v| | | |]; try discriminate. cbn in F. injection F as ->. reflexivity.
Qed.

Lemma one_step c s : (forall s fd, snd (k_reuse K s fd) = None) -> step_ok c s.
Proof.
  intros NR. destruct c as [f argv]. intros held NI R H. unfold net_call. set (av := argv ++ repeat VNone (net_argc f - length argv)).
  assert (AV : forall z r, av = VInt z :: r -> (exists r', argv = VInt z :: r') \/ argv = []).
  { intros z r E. unfold av in E. destruct argv as [|a t]; [auto|]. cbn in E. injection E as -> _. eauto. }
  destruct f; cbn [net_argc] in *.
  - unfold bin_socket. destruct (parse_ok (bytes_of "iii?b") av) as [(ps & P)|P]; rewrite P; [|exact H].
    change (bytes_of "iii?b") with [105; 105; 105; 63; 98] in P.
    destruct (parse_i _ _ _ P) as (d & r1 & q1 & E1 & -> & P1). destruct (parse_i _ _ _ P1) as (t & r2 & q2 & E2 & -> & P2). destruct (parse_i _ _ _ P2) as (p & r3 & q3 & E3 & -> & P3).
    destruct (parse_opt 98 _ _ ltac:(lia) P3) as (a & r4 & pa & E4 & -> & _).
    destruct (k_socket K s (wrap32 d) (wrap32 t) (wrap32 p)) as [s1 [fd|msg]] eqn:Q.
    + destruct (kp_socket _ _ Kp _ _ _ _ _ _ Q) as (F & _ & O).
      assert (O' : forall x, opens s1 x <-> x = fd \/ In x held) by (intros x; rewrite O, H; tauto).
      destruct pa as [| |[]| | | | | |]; try exact (opened_step _ _ _ F R O').
      destruct (k_reuse K s1 fd) as [s2 o] eqn:U. pose proof (NR s1 fd) as N. rewrite U in N. cbn [snd] in N. subst o.
      apply (opened_step held s2 fd F R). intros x. pose proof (kp_reuse _ _ Kp s1 fd x) as V. rewrite U in V. cbn [fst] in V. rewrite V. apply O'.
    + apply (msg_step held s1 _ NSocket argv msg); auto; try discriminate. intros x. rewrite (kp_socket_fails _ _ Kp _ _ _ _ _ _ Q). apply H.
  - unfold bin_bind. destruct (parse_ok (bytes_of "iii?s") av) as [(ps & P)|P]; rewrite P; [|exact H].
    change (bytes_of "iii?s") with [105; 105; 105; 63; 115] in P.
    destruct (parse_i _ _ _ P) as (d & r1 & q1 & E1 & -> & P1). destruct (parse_i _ _ _ P1) as (t & r2 & q2 & E2 & -> & P2). destruct (parse_i _ _ _ P2) as (p & r3 & q3 & E3 & -> & P3).
    destruct (parse_opt 115 _ _ ltac:(lia) P3) as (a & r4 & pa & E4 & -> & _).
    destruct (negb (wrap32 t =? AF_INET)); [apply (msg_step held s _ NBind argv bad_family); auto; try discriminate|].
    destruct (match pa with PgStr _ => _ | _ => _ end) as [addr|]; [|apply (msg_step held s _ NBind argv bad_address); auto; try discriminate].
    pose proof (kp_bind _ _ Kp s (wrap32 d) (wrap32 p mod 65536) addr) as B. destruct (k_bind K s (wrap32 d) (wrap32 p mod 65536) addr) as [s1 [msg|]]; cbn [fst] in B.
    + apply (msg_step held s1 _ NBind argv msg); auto; try discriminate; [intros [X|X]; discriminate X|]. intros x. rewrite B. apply H.
    + cbn. split; [exact R|]. intros x. rewrite B. apply H.
  - unfold bin_listen. destruct (parse_ok (bytes_of "ii") av) as [(ps & P)|P]; rewrite P; [|exact H].
    change (bytes_of "ii") with [105; 105] in P.
    destruct (parse_i _ _ _ P) as (d & r1 & q1 & E1 & -> & P1). destruct (parse_i _ _ _ P1) as (t & r2 & q2 & E2 & -> & P2). rewrite (parse_none _ _ P2).
    pose proof (kp_listen _ _ Kp s (wrap32 d) (wrap32 t)) as B. destruct (k_listen K s (wrap32 d) (wrap32 t)) as [s1 [msg|]]; cbn [fst] in B.
    + apply (msg_step held s1 _ NListen argv msg); auto; try discriminate; [intros [X|X]; discriminate X|]. intros x. rewrite B. apply H.
    + cbn. split; [exact R|]. intros x. rewrite B. apply H.
  - unfold bin_accept. destruct (parse_ok (bytes_of "i") av) as [(ps & P)|P]; rewrite P; [|exact H].
    change (bytes_of "i") with [105] in P. destruct (parse_i _ _ _ P) as (d & r1 & q1 & E1 & -> & P1). rewrite (parse_none _ _ P1).
    destruct (k_accept K s (wrap32 d)) as [s1 [[[fd a] p]|msg]] eqn:Q.
    + destruct (kp_accept _ _ Kp _ _ _ _ _ _ Q) as (F & _ & O). apply (opened_step held s1 fd F R). intros x. rewrite O, H. tauto.
    + apply (msg_step held s1 _ NAccept argv msg); auto; try discriminate. intros x. rewrite (kp_accept_fails _ _ Kp _ _ _ _ Q). apply H.
  - unfold bin_close. destruct (parse_ok (bytes_of "i") av) as [(ps & P)|P]; rewrite P; [|exact H].
    change (bytes_of "i") with [105] in P. destruct (parse_i _ _ _ P) as (d & r1 & q1 & E1 & -> & P1). rewrite (parse_none _ _ P1).
    destruct (AV _ _ E1) as [(r' & ->)| ->]; [|unfold av in E1; discriminate E1]. cbn in NI. rewrite (wrap32_id d NI).
    destruct (k_close K s d) as [s1 r] eqn:Q. cbn [handed ret_int]. destruct (Z.eq_dec r 0) as [->|N].
    + destruct (kp_close _ _ Kp _ _ _ Q) as (_ & O). change (wrap32 0) with 0. cbv iota zeta. split.
      * intros x I. apply filter_In in I. apply R, I.
      * intros x. rewrite O, filter_In, H, negb_true_iff, Z.eqb_neq. tauto.
    + destruct (kp_close_fails _ _ Kp _ _ _ _ Q N) as (-> & O). change (wrap32 (-1)) with (-1). cbv iota zeta. split; [exact R|]. intros x. rewrite O. apply H.
Qed.

Lemma ledger cs : (forall s fd, snd (k_reuse K s fd) = None) -> Forall names_int cs -> forall s held, (forall x, In x held -> 0 <= x < 2 ^ 31) -> (forall x, opens s x <-> In x held) ->
  let '(s1, l, _) := net_calls S K objs s cs in forall x, opens s1 x <-> In x (fold_left handed l held).
Proof.
  intros NR. induction 1 as [|[f argv] cs NI _ IH]; intros s held R H; cbn [net_calls]; [exact H|].
  pose proof (one_step (f, argv) s NR held NI R H) as ST. destruct (net_call S K objs f s argv) as [s1 [vs| | | |]]; try exact ST.
  destruct ST as [R1 H1]. specialize (IH s1 _ R1 H1). destruct (net_calls S K objs s1 cs) as [[s2 l] ok]. exact IH.
Qed.

(** Every call ends: refused without asking the system, or with results. *)
Lemma call_ends f s argv : polite K -> net_call S K objs f s argv = (s, OErr) \/ exists s1 vs, net_call S K objs f s argv = (s1, OOk vs) /\ (1 <= length vs <= 3)%nat.
Proof.
  intros Po. unfold net_call. set (av := argv ++ repeat VNone (net_argc f - length argv)). destruct f.
  - unfold bin_socket. destruct (parse_ok (bytes_of "iii?b") av) as [(ps & P)|P]; rewrite P; [right|left; reflexivity].
    change (bytes_of "iii?b") with [105; 105; 105; 63; 98] in P.
    destruct (parse_i _ _ _ P) as (d & r1 & q1 & E1 & -> & P1). destruct (parse_i _ _ _ P1) as (t & r2 & q2 & E2 & -> & P2). destruct (parse_i _ _ _ P2) as (p & r3 & q3 & E3 & -> & P3).
    destruct (parse_opt 98 _ _ ltac:(lia) P3) as (a & r4 & pa & E4 & -> & _).
    destruct (k_socket K s (wrap32 d) (wrap32 t) (wrap32 p)) as [s1 [fd|msg]] eqn:Q.
    + destruct pa as [| |[]| | | | | |]; try (exists s1; eexists; split; [reflexivity|cbn; lia]).
      destruct (k_reuse K s1 fd) as [s2 [msg|]] eqn:U; [rewrite (none_msg_plain _ (po_reuse _ Po _ _ _ _ U))|]; exists s2; eexists; (split; [reflexivity|cbn; lia]).
    + rewrite (none_msg_plain _ (po_socket _ Po _ _ _ _ _ _ Q)). exists s1. eexists. split; [reflexivity|cbn; lia].
  - unfold bin_bind. destruct (parse_ok (bytes_of "iii?s") av) as [(ps & P)|P]; rewrite P; [right|left; reflexivity].
    change (bytes_of "iii?s") with [105; 105; 105; 63; 115] in P.
    destruct (parse_i _ _ _ P) as (d & r1 & q1 & E1 & -> & P1). destruct (parse_i _ _ _ P1) as (t & r2 & q2 & E2 & -> & P2). destruct (parse_i _ _ _ P2) as (p & r3 & q3 & E3 & -> & P3).
    destruct (parse_opt 115 _ _ ltac:(lia) P3) as (a & r4 & pa & E4 & -> & _).
    destruct (negb (wrap32 t =? AF_INET)); [rewrite (none_msg_plain _ bad_family_plain); exists s; eexists; split; [reflexivity|cbn; lia]|].
    destruct (match pa with PgStr _ => _ | _ => _ end) as [addr|]; [|rewrite (none_msg_plain _ bad_address_plain); exists s; eexists; split; [reflexivity|cbn; lia]].
    destruct (k_bind K s (wrap32 d) (wrap32 p mod 65536) addr) as [s1 [msg|]] eqn:Q; [rewrite (just_msg_plain _ (po_bind _ Po _ _ _ _ _ _ Q))|]; exists s1; eexists; (split; [reflexivity|cbn; lia]).
  - unfold bin_listen. destruct (parse_ok (bytes_of "ii") av) as [(ps & P)|P]; rewrite P; [right|left; reflexivity].
    change (bytes_of "ii") with [105; 105] in P.
    destruct (parse_i _ _ _ P) as (d & r1 & q1 & E1 & -> & P1). destruct (parse_i _ _ _ P1) as (t & r2 & q2 & E2 & -> & P2). rewrite (parse_none _ _ P2).
    destruct (k_listen K s (wrap32 d) (wrap32 t)) as [s1 [msg|]] eqn:Q; [rewrite (just_msg_plain _ (po_listen _ Po _ _ _ _ _ Q))|]; exists s1; eexists; (split; [reflexivity|cbn; lia]).
  - unfold bin_accept. destruct (parse_ok (bytes_of "i") av) as [(ps & P)|P]; rewrite P; [right|left; reflexivity].
    change (bytes_of "i") with [105] in P. destruct (parse_i _ _ _ P) as (d & r1 & q1 & E1 & -> & P1). rewrite (parse_none _ _ P1).
    destruct (k_accept K s (wrap32 d)) as [s1 [[[fd a] p]|msg]] eqn:Q; [|rewrite (none_msg_plain _ (po_accept _ Po _ _ _ _ Q))]; exists s1; eexists; (split; [reflexivity|cbn; lia]).
  - unfold bin_close. destruct (parse_ok (bytes_of "i") av) as [(ps & P)|P]; rewrite P; [right|left; reflexivity].
    change (bytes_of "i") with [105] in P. destruct (parse_i _ _ _ P) as (d & r1 & q1 & E1 & -> & P1). rewrite (parse_none _ _ P1).
    destruct (k_close K s (wrap32 d)) as [s1 r]. exists s1. eexists. split; [reflexivity|cbn; lia].
Qed.
End Net.

(** ** Addresses *)
Lemma swap_twice p : 0 <= p < 65536 -> swap16 (swap16 p) = p.
Proof.
  intros H. unfold swap16. pose proof (Z.div_mod p 256 ltac:(lia)). assert (0 <= p / 256 < 256) by (split; [apply Z.div_pos; lia|apply Z.div_lt_upper_bound; lia]).
  pose proof (Z.mod_pos_bound p 256 ltac:(lia)). rewrite (Z.mod_small (p / 256)) by lia.
  replace ((p mod 256 * 256 + p / 256) mod 256) with (p / 256) by (rewrite Z.add_comm, Z.mod_add, Z.mod_small by lia; reflexivity).
  replace ((p mod 256 * 256 + p / 256) / 256) with (p mod 256) by (rewrite Z.div_add_l, (Z.div_small (p / 256)) by lia; lia).
  rewrite Z.mod_mod by lia. lia.
Qed.
Definition address (a : Z * Z * Z * Z) : Prop := let '(a0, a1, a2, a3) := a in is_byte a0 /\ is_byte a1 /\ is_byte a2 /\ is_byte a3.
Lemma address_one a b : address a -> address b -> ret_int (addr_number a) = ret_int (addr_number b) -> a = b.
Proof.
  destruct a as [[[a0 a1] a2] a3], b as [[[b0 b1] b2] b3]. unfold address, is_byte, ret_int, addr_number. intros A B E. injection E as E.
  unfold wrap32 in E.
  assert (Q : a0 + a1 * 256 + a2 * 65536 + a3 * 16777216 = b0 + b1 * 256 + b2 * 65536 + b3 * 16777216).
  { set (u := a0 + a1 * 256 + a2 * 65536 + a3 * 16777216) in *. set (v := b0 + b1 * 256 + b2 * 65536 + b3 * 16777216) in *.
    assert (0 <= u < 2 ^ 32) by (unfold u; lia). assert (0 <= v < 2 ^ 32) by (unfold v; lia).
    pose proof (Z.div_mod (u + 2 ^ 31) (2 ^ 32) ltac:(lia)). pose proof (Z.div_mod (v + 2 ^ 31) (2 ^ 32) ltac:(lia)). lia. }
  assert (a0 = b0 /\ a1 = b1 /\ a2 = b2 /\ a3 = b3) by lia. destruct H as (-> & -> & -> & ->). reflexivity.
Qed.

(** ** Directories *)
Lemma dir_listed names : Forall plain_text names -> forall n, dir_items n (map DName names) = OOk (firstn n (map (fun t => [VStr t]) names) ++ repeat [] (n - length names)).
Proof.
  induction 1 as [|t names T _ IH]; intros n.
  - cbn [map length]. rewrite Nat.sub_0_r, firstn_nil. cbn [app]. induction n as [|n IHn]; [reflexivity|]. cbn [dir_items bin_next_dir_item obind repeat]. rewrite IHn. reflexivity.
  - destruct n as [|n]; [reflexivity|]. cbn [dir_items map bin_next_dir_item firstn length Nat.sub app]. rewrite (vstring_plain t T). cbn [obind]. rewrite IH. reflexivity.
Qed.
Lemma dir_stops names t r : Forall plain_text names -> Forall is_byte t -> ~ In 0 t -> short t -> ~ text t -> forall n, (length names < n)%nat ->
  dir_items n (map DName names ++ DName t :: r) = OErr.
Proof.
  intros H B N L T. induction H as [|u names U _ IH]; intros n G; (destruct n as [|n]; [cbn in G; lia|]); cbn [dir_items map app bin_next_dir_item].
  - rewrite (vstring_bad t B N L T). reflexivity.
  - rewrite (vstring_plain u U). cbn [obind]. rewrite IH by (cbn in G; lia). reflexivity.
Qed.
Lemma strlen_cut p q : ~ In 0 p -> c_strlen (p ++ 0 :: q) = Some (length p).
Proof.
  induction p as [|c r IH]; intros H; [reflexivity|]. cbn [app c_strlen length]. destruct (Z.eqb_spec c 0) as [->|N]; [destruct H; left; reflexivity|].
  rewrite IH; [reflexivity|]. intros I. apply H. right. exact I.
Qed.
Lemma open_dir_zero opendir p q : ~ In 0 p -> bin_open_dir opendir [VStr (p ++ 0 :: q)] = OOk (opendir p).
Proof.
  intros H. cbn [bin_open_dir]. rewrite <- app_assoc. cbn [app]. unfold c_string. rewrite (strlen_cut p (q ++ [0]) H), firstn_app, Nat.sub_diag, firstn_all.
  cbn. now rewrite app_nil_r.
Qed.

Lemma not_text_255 : ~ text [255].
Proof.
  intros T. assert (L : short [255]) by (vm_compute; reflexivity). pose proof (new_string_text [255] [0] T L) as H. vm_compute in H. discriminate.
Qed.
