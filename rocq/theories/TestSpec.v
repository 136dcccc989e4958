(** What the texts of tests are, and what a directory of tests holds: definitions for the statements of C82, independent of the
    functions of [TestModel]. *)
From Coq Require Import ZArith String List Bool.
From Verif Require Import Base BuiltinModel TestModel.
Import ListNotations.
Open Scope list_scope.
Open Scope Z_scope.

(** Letters and the underscore (field.c:53-56, in the C locale). *)
Definition is_letter (c : Z) : Prop := 65 <= c <= 90 \/ 97 <= c <= 122 \/ c = 95.
(** Space, tab, newline, vertical tab, form feed, return (isspace in the C locale, field.c:81, 107). *)
Definition is_space (c : Z) : Prop := c = 32 \/ 9 <= c <= 13.

(** A field as it is written: the spaces before it, its name, the spaces after the name, its brackets ([true]: square), its
    body (tests/ in the repository; field.c:76-136). *)
Record wfield := mkw { w_before : list Z; w_name : list Z; w_mid : list Z; w_square : bool; w_body : list Z }.
(** The closing bracket (field.c:86-91). *)
Definition w_close (w : wfield) : Z := if w_square w then 93 else 125.
(** The text of a field (field.c:76-136). *)
Definition w_text (w : wfield) : list Z :=
  w_before w ++ [64] ++ w_name w ++ w_mid w ++ [if w_square w then 91 else 123] ++ w_body w ++ [w_close w].
(** Well written: the body has neither an at sign nor the closing bracket (field.c:76-136). *)
Definition w_ok (w : wfield) : Prop :=
  Forall is_space (w_before w) /\ w_name w <> [] /\ Forall is_letter (w_name w) /\ Forall is_space (w_mid w) /\
  ~ In 64 (w_body w) /\ ~ In (w_close w) (w_body w).
(** The text of fields followed by spaces (test.c:44-86). *)
Definition ws_text (ws : list wfield) (tail : list Z) : list Z := concat (map w_text ws) ++ tail.
(** Names and bodies (test.c:36-42). *)
Definition ws_pairs (ws : list wfield) : list (list Z * list Z) := map (fun w => (w_name w, w_body w)) ws.

(** How many at signs a text has (field.c:108). *)
Definition ats (s : list Z) : nat := count_occ Z.eq_dec s 64.

(** Entries that are passed over (run.c:154). *)
Definition hidden (n : list Z) : Prop := exists r, n = 46 :: r.
(** Names of tests (run.c:184-185). *)
Definition is_test (n : list Z) : Prop := exists b, n = b ++ bytes_of ".noja-test".

(** The contents of the tests below a directory, in the order they are met (run.c:141-211). *)
Inductive found : list dentry -> list (list Z) -> Prop :=
| found_nil : found [] []
| found_hidden e l c : hidden (d_name e) -> found l c -> found (e :: l) c
| found_dir n i l a b : ~ hidden n -> found i a -> found l b -> found (DDir n i :: l) (a ++ b)
| found_test n t l c : ~ hidden n -> is_test n -> found l c -> found (DFile n t :: l) (t :: c)
| found_file n t l c : ~ hidden n -> ~ is_test n -> found l c -> found (DFile n t :: l) c
| found_other n l c : ~ hidden n -> found l c -> found (DOther n :: l) c.

(** The path of an entry (run.c:159-163). *)
Definition joins (dir n p : list Z) : Prop :=
  (exists d, dir = d ++ [47]) /\ p = dir ++ n \/
  (exists d c, dir = d ++ [c] /\ c <> 47) /\ p = dir ++ 47 :: n.
(** The paths of all entries that are not passed over have at most 1023 characters (run.c:159). *)
Inductive fits : list Z -> list dentry -> Prop :=
| fits_nil dir : fits dir []
| fits_hidden dir e l : hidden (d_name e) -> fits dir l -> fits dir (e :: l)
| fits_dir dir n i l p : joins dir n p -> Z.of_nat (List.length p) <= 1023 -> fits p i -> fits dir l -> fits dir (DDir n i :: l)
| fits_file dir n t l p : joins dir n p -> Z.of_nat (List.length p) <= 1023 -> fits dir l -> fits dir (DFile n t :: l)
| fits_other dir n l p : joins dir n p -> Z.of_nat (List.length p) <= 1023 -> fits dir l -> fits dir (DOther n :: l).

(** How many tests ended in a way (run.c:191-206). *)
Definition ended (r : tresult) (l : list tresult) : Z :=
  Z.of_nat (List.length (filter (fun x => match r, x with
    TPassed, TPassed | TFailed, TFailed | TAborted, TAborted => true | _, _ => false end) l)).
