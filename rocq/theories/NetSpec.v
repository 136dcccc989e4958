(** Sockets: what a system keeps, and what a program knows it holds. *)
From Coq Require Import ZArith List Bool.
From Verif Require Import Base ValueModel BuiltinProofs NetModel.
Import ListNotations.
Open Scope Z_scope.

(** Texts that strings can hold and C can end with a zero byte. *)
Definition plain_text (t : list Z) : Prop := text t /\ short t /\ ~ In 0 t.

(** A system hands out descriptors that are not open, and closes those that are. [opens s x]: the descriptor [x] is open. *)
Record keeps {S} (K : kernel S) (opens : S -> Z -> Prop) : Prop := mkkeeps {
  kp_socket : forall s d t p s1 fd, k_socket K s d t p = (s1, inl fd) -> 0 <= fd < 2 ^ 31 /\ ~ opens s fd /\ (forall x, opens s1 x <-> x = fd \/ opens s x);
  kp_socket_fails : forall s d t p s1 msg, k_socket K s d t p = (s1, inr msg) -> forall x, opens s1 x <-> opens s x;
  kp_reuse : forall s fd x, opens (fst (k_reuse K s fd)) x <-> opens s x;
  kp_bind : forall s fd port a x, opens (fst (k_bind K s fd port a)) x <-> opens s x;
  kp_listen : forall s fd n x, opens (fst (k_listen K s fd n)) x <-> opens s x;
  kp_accept : forall s l s1 fd a p, k_accept K s l = (s1, inl (fd, a, p)) -> 0 <= fd < 2 ^ 31 /\ ~ opens s fd /\ (forall x, opens s1 x <-> x = fd \/ opens s x);
  kp_accept_fails : forall s l s1 msg, k_accept K s l = (s1, inr msg) -> forall x, opens s1 x <-> opens s x;
  kp_close : forall s fd s1, k_close K s fd = (s1, 0) -> opens s fd /\ (forall x, opens s1 x <-> opens s x /\ x <> fd);
  kp_close_fails : forall s fd s1 r, k_close K s fd = (s1, r) -> r <> 0 -> r = -1 /\ forall x, opens s1 x <-> opens s x }.

(** What a program holds after a call, from its arguments and results alone. *)
Definition handed (held : list Z) (c : netfun * list value * list value) : list Z :=
  match c with
  | (NSocket, _, [VInt fd]) => fd :: held
  | (NAccept, _, [VInt fd; _; _]) => fd :: held
  | (NClose, VInt fd :: _, [VInt 0]) => filter (fun x => negb (x =? fd)) held
  | _ => held
  end.
(** A call that names a descriptor that an int can hold. *)
Definition names_int (c : netfun * list value) : Prop := match c with (NClose, VInt fd :: _) => in_int fd | _ => True end.

(** The messages of the system are texts. *)
Record polite {S} (K : kernel S) : Prop := mkpolite {
  po_socket : forall s d t p s1 msg, k_socket K s d t p = (s1, inr msg) -> plain_text msg;
  po_reuse : forall s fd s1 msg, k_reuse K s fd = (s1, Some msg) -> plain_text msg;
  po_bind : forall s fd p a s1 msg, k_bind K s fd p a = (s1, Some msg) -> plain_text msg;
  po_listen : forall s fd n s1 msg, k_listen K s fd n = (s1, Some msg) -> plain_text msg;
  po_accept : forall s fd s1 msg, k_accept K s fd = (s1, inr msg) -> plain_text msg }.
