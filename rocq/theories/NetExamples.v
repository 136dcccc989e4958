(** A system for the examples of PropsNet.v. *)
From Coq Require Import ZArith String List Bool Lia.
From Verif Require Import Base StringModel ValueModel ObjModel BuiltinModel BuiltinProofs NetModel NetSpec NetProofs.
Import ListNotations.
Open Scope Z_scope.

(** The open descriptors; the next one is above all of them, as long as it fits. *)
Definition above (l : list Z) : Z := fold_right (fun x m => Z.max (x + 1) m) 3 l.
Definition oops : list Z := bytes_of "Oops".
Definition toy_open {A} (l : list Z) (f : Z -> A) : list Z * (A + list Z) := if above l <? 2 ^ 31 then (above l :: l, inl (f (above l))) else (l, inr oops).
Definition toy (reusable : bool) : kernel (list Z) := mkkernel (list Z)
  (fun l d t p => if (d =? 2) && (t =? 1) then toy_open l (fun fd => fd) else (l, inr oops))
  (fun l fd => (l, if reusable then None else Some oops))
  (fun a => if if list_eq_dec Z.eq_dec a (bytes_of "127.0.0.1") then true else false then Some (127, 0, 0, 1) else None)
  (fun l fd port a => (l, if existsb (Z.eqb fd) l && negb (port =? 0) then None else Some oops))
  (fun l fd n => (l, if existsb (Z.eqb fd) l then None else Some oops))
  (fun l fd => if existsb (Z.eqb fd) l then toy_open l (fun new => (new, (192, 168, 0, 200), 80)) else (l, inr oops))
  (fun l fd => if existsb (Z.eqb fd) l then (filter (fun x => negb (x =? fd)) l, 0) else (l, -1)).
Definition toy_opens (l : list Z) (x : Z) : Prop := In x l.

Lemma above_all l x : In x l -> x < above l.
Proof. induction l as [|y l IH]; [intros []|]. change (above (y :: l)) with (Z.max (y + 1) (above l)). cbn [In]. intros [->|H]; [lia|]. specialize (IH H). lia. Qed.
Lemma above_pos l : 3 <= above l.
Proof. induction l as [|y l IH]; [cbn; lia|]. change (above (y :: l)) with (Z.max (y + 1) (above l)). lia. Qed.
Lemma toy_open_ok {A} l (f : Z -> A) l1 a : toy_open l f = (l1, inl a) -> exists fd, a = f fd /\ l1 = fd :: l /\ 0 <= fd < 2 ^ 31 /\ ~ In fd l.
Proof.
  unfold toy_open. destruct (Z.ltb_spec (above l) (2 ^ 31)); [|discriminate]. intros E. injection E as <- <-. exists (above l). pose proof (above_pos l).
  repeat split; auto; try lia. intros I. apply above_all in I. lia.
Qed.
Lemma toy_open_fails {A} l (f : Z -> A) l1 m : toy_open l f = (l1, inr m) -> l1 = l /\ m = oops.
Proof. unfold toy_open. destruct (Z.ltb_spec (above l) (2 ^ 31)); [discriminate|]. intros E. injection E as <- <-. auto. Qed.
Lemma toy_in fd l : existsb (Z.eqb fd) l = true <-> In fd l.
Proof. rewrite existsb_exists. split; [intros (x & I & E); apply Z.eqb_eq in E; subst; exact I|intros I; exists fd; split; [exact I|apply Z.eqb_refl]]. Qed.

Lemma toy_keeps r : keeps (toy r) toy_opens.
Proof.
  constructor; unfold toy_opens; cbn [toy k_socket k_reuse k_bind k_listen k_accept k_close fst].
  - intros l d t p s1 fd H. destruct ((d =? 2) && (t =? 1)); [|discriminate]. apply toy_open_ok in H. destruct H as (x & -> & -> & R & N). repeat split; auto; try apply R; cbn; intuition.
  - intros l d t p s1 msg H x. destruct ((d =? 2) && (t =? 1)); [apply toy_open_fails in H; destruct H as [-> _]|injection H as -> _]; reflexivity.
  - reflexivity.
  - reflexivity.
  - reflexivity.
  - intros l fd s1 new a p H. destruct (existsb (Z.eqb fd) l); [|discriminate]. apply toy_open_ok in H. destruct H as (x & E & -> & R & N). injection E as -> -> ->. repeat split; auto; try apply R; cbn; intuition.
  - intros l fd s1 msg H x. destruct (existsb (Z.eqb fd) l); [apply toy_open_fails in H; destruct H as [-> _]|injection H as -> _]; reflexivity.
  - intros l fd s1 H. destruct (existsb (Z.eqb fd) l) eqn:Q; [|discriminate]. injection H as <-. split; [now apply toy_in|]. intros x. rewrite filter_In, negb_true_iff, Z.eqb_neq. tauto.
  - intros l fd s1 r0 H N. destruct (existsb (Z.eqb fd) l); [injection H as _ <-; congruence|]. injection H as <- <-. split; [reflexivity|reflexivity].
Qed.
Lemma oops_plain : plain_text oops.
Proof. apply ascii_plain; [repeat (constructor; [vm_compute; split; congruence|]); constructor|vm_compute; reflexivity]. Qed.
Lemma toy_polite r : polite (toy r).
Proof.
  constructor; cbn [toy k_socket k_reuse k_bind k_listen k_accept].
  - intros l d t p s1 msg H. destruct ((d =? 2) && (t =? 1)); [apply toy_open_fails in H; destruct H as [_ ->]|injection H as _ <-]; apply oops_plain.
  - intros l fd s1 msg H. destruct r; [discriminate|]. injection H as _ <-. apply oops_plain.
  - intros l fd p a s1 msg H. destruct (existsb (Z.eqb fd) l && negb (p =? 0)); [discriminate|]. injection H as _ <-. apply oops_plain.
  - intros l fd n s1 msg H. destruct (existsb (Z.eqb fd) l); [discriminate|]. injection H as _ <-. apply oops_plain.
  - intros l fd s1 msg H. destruct (existsb (Z.eqb fd) l); [apply toy_open_fails in H; destruct H as [_ ->]|injection H as _ <-]; apply oops_plain.
Qed.

(** A server that accepts twice and closes one of the three sockets. *)
Definition serve : list (netfun * list value) :=
  [(NSocket, [VInt 2; VInt 1; VInt 0; VBool true]); (NBind, [VInt 3; VInt 2; VInt 8080; VStr (bytes_of "127.0.0.1")]); (NListen, [VInt 3; VInt 5]);
   (NAccept, [VInt 3]); (NAccept, [VInt 3]); (NClose, [VInt 4]); (NClose, [VInt 4]); (NSocket, [VInt 9; VInt 1; VInt 0])].
