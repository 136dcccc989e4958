(** Strings for the examples of PropsCalc.v and of the files that follow it. *)
From Coq Require Import ZArith String List Bool Lia.
From Verif Require Import Base Utf8Spec StringModel CalcSpec ParseExamples.
Import ListNotations.
Open Scope Z_scope.

Definition src_text : list Z := bytes "return 'noja' == 'noja' and 'noja' != 'Noja' and not ('1' == 1);".
Definition src_text_bad : list Z := bytes "return 1 < 2 and 'a' + 'b' == 'ab';".

Lemma chars_ascii s : forallb (fun c => (0 <=? c) && (c <? 128)) s = true -> Z.of_nat (List.length s) < 2 ^ 31 -> chars s.
Proof.
  intros F L. exists (List.map (fun c => [c]) s). split; [|split; [|exact L]].
  - rewrite forallb_forall in F. apply Forall_forall. intros u Hu. apply in_map_iff in Hu. destruct Hu as (c & <- & Hc). specialize (F c Hc).
    apply andb_true_iff in F. rewrite Z.leb_le, Z.ltb_lt in F. split; [constructor; [split; lia|constructor]|]. split; [unfold Utf8Spec.lead_len; replace (c <? 192) with true by (symmetry; apply Z.ltb_lt; lia); reflexivity|lia].
  - clear. induction s as [|c s IH]; cbn; congruence.
Qed.
Ltac chars_solve := apply chars_ascii; [reflexivity|vm_compute; reflexivity].
