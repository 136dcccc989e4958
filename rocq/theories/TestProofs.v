(** Reading tests: proofs for C82. *)
From Coq Require Import ZArith String List Bool Lia.
From Verif Require Import Base StringModel BuiltinModel TestModel TestSpec.
Import ListNotations.
Open Scope list_scope.
Open Scope Z_scope.

Lemma name_char_iff : forall c, name_char c = true <-> is_letter c.
Proof.
  intros c. unfold name_char, is_letter.
  rewrite !orb_true_iff, !andb_true_iff, !Z.leb_le, Z.eqb_eq. tauto.
Qed.
Lemma space_char_iff : forall c, space_char c = true <-> is_space c.
Proof. intros c. unfold space_char, is_space. rewrite orb_true_iff, andb_true_iff, !Z.leb_le, Z.eqb_eq. tauto. Qed.

Lemma take_while_app : forall p a b, Forall (fun c => p c = true) a ->
  match b with [] => True | c :: _ => p c = false end -> take_while p (a ++ b) = (a, b).
Proof.
  induction a as [|x a IH]; intros b Ha Hb; cbn [app].
  - destruct b as [|c b]; cbn; [reflexivity|]. rewrite Hb. reflexivity.
  - inversion Ha; subst. cbn. rewrite H1, IH; auto.
Qed.
Lemma take_while_split : forall p s a b, take_while p s = (a, b) ->
  s = a ++ b /\ Forall (fun c => p c = true) a /\ match b with [] => True | c :: _ => p c = false end.
Proof.
  induction s as [|x s IH]; intros a b H; cbn in H.
  - injection H as <- <-. auto.
  - destruct (p x) eqn:E.
    + destruct (take_while p s) as [a' b'] eqn:Et. injection H as <- <-.
      destruct (IH a' b' eq_refl) as (-> & Hf & Hb). auto.
    + injection H as <- <-. repeat split; auto.
Qed.

Lemma same_text_iff : forall a b, same_text a b = true <-> a = b.
Proof. intros a b. unfold same_text. destruct (list_eq_dec Z.eq_dec a b); split; congruence. Qed.

Lemma parse_field_body_at : forall mid (sq : bool) body rest, Forall is_space mid -> ~ In 64 body -> ~ In (if sq then 93 else 125) body ->
  parse_field_body (mid ++ [if sq then 91 else 123] ++ body ++ [if sq then 93 else 125] ++ rest) = (body, rest).
Proof.
  intros mid sq body rest Hm H64 Hc. unfold parse_field_body.
  rewrite take_while_app.
  2: { eapply Forall_impl; [|exact Hm]. intros c; apply space_char_iff. }
  2: { destruct sq; reflexivity. }
  cbn [snd].
  assert (Hb : forall t, Forall (fun c => negb (c =? 64) && negb (c =? t) = true) body <-> ~ In 64 body /\ ~ In t body).
  { intros t. rewrite Forall_forall. split.
    - intros H. split; intros Hi; specialize (H _ Hi); rewrite Z.eqb_refl in H; [discriminate H|rewrite andb_false_r in H; discriminate H].
    - intros [A B] c Hi. apply andb_true_iff. split; apply negb_true_iff, Z.eqb_neq; intros ->; contradiction. }
  destruct sq; cbn -[take_while].
  - rewrite take_while_app; [reflexivity|apply Hb; auto|reflexivity].
  - rewrite take_while_app; [reflexivity|apply Hb; auto|reflexivity].
Qed.

Lemma parse_field_at : forall gen w rest, w_ok w ->
  parse_field gen (w_text w ++ rest) =
  inr (mktf (w_name w) (w_body w) (place gen 128 (w_name w)) (place gen 512 (w_body w)), rest).
Proof.
  intros gen [bef name mid sq body] rest (Hb & Hn & Hl & Hm & H64 & Hc). unfold w_text, w_close in *. cbn in *.
  unfold parse_field, find_field. rewrite <- !app_assoc.
  rewrite take_while_app; [|eapply Forall_impl; [|exact Hb]; intros c; apply space_char_iff|reflexivity].
  cbn [snd]. cbn [app if_follows]. rewrite Z.eqb_refl.
  unfold parse_field_name.
  rewrite <- ?app_assoc. 
  rewrite take_while_app; [|eapply Forall_impl; [|exact Hl]; intros c; apply name_char_iff|].
  2: { destruct mid as [|c mid]; cbn; [destruct sq; reflexivity|].
       inversion Hm; subst. destruct (name_char c) eqn:E; [|reflexivity]. apply name_char_iff in E.
       unfold is_letter, is_space in *. lia. }
  destruct name as [|n0 name]; [contradiction|].
  pose proof (parse_field_body_at mid sq body rest Hm H64 Hc) as E. cbn [app] in E. cbn [app]; rewrite <- ?app_assoc; cbn [app]. rewrite E.
  reflexivity.
Qed.

Lemma parse_field_end : forall gen tail, Forall is_space tail -> parse_field gen tail = inl TE_NOFIELD.
Proof.
  intros gen tail H. unfold parse_field, find_field.
  rewrite <- (app_nil_r tail), take_while_app; [reflexivity| |exact I].
  eapply Forall_impl; [|exact H]. intros c; apply space_char_iff.
Qed.

(** ** Any text *)
Lemma parse_field_inv : forall gen s f r, parse_field gen s = inr (f, r) ->
  exists bef rest, s = bef ++ 64 :: rest /\ Forall is_space bef /\
    tf_name f <> [] /\ Forall is_letter (tf_name f) /\ ~ In 64 (tf_body f) /\
    tf_nin f = place gen 128 (tf_name f) /\ tf_bin f = place gen 512 (tf_body f) /\
    exists used, rest = used ++ r /\ ~ In 64 used.
Proof.
  intros gen s f r H. unfold parse_field, find_field in H.
  destruct (take_while space_char s) as [bef s1] eqn:E1. cbn [snd] in H.
  destruct (take_while_split _ _ _ _ E1) as (-> & Hbef & _).
  destruct s1 as [|c s1]; [discriminate H|]. cbn [if_follows] in H.
  destruct (c =? 64) eqn:Ec; [|discriminate H]. apply Z.eqb_eq in Ec. subst c.
  unfold parse_field_name in H. destruct (take_while name_char s1) as [n s2] eqn:E2.
  destruct n as [|n0 n]; [discriminate H|].
  destruct (take_while_split _ _ _ _ E2) as (-> & Hname & _).
  destruct (parse_field_body s2) as [b r'] eqn:E3. injection H as <- <-. cbn [tf_name tf_body tf_nin tf_bin].
  exists bef, ((n0 :: n) ++ s2). split; [reflexivity|].
  split; [eapply Forall_impl; [|exact Hbef]; intros c; apply space_char_iff|].
  split; [discriminate|].
  assert (Hl : Forall is_letter (n0 :: n)) by (eapply Forall_impl; [|exact Hname]; intros c; apply name_char_iff).
  split; [exact Hl|].
  unfold parse_field_body in E3. destruct (take_while space_char s2) as [sp s3] eqn:E4. cbn [snd] in E3.
  destruct (take_while_split _ _ _ _ E4) as (-> & Hsp & _).
  assert (Hno : ~ In 64 sp).
  { intros Hi. rewrite Forall_forall in Hsp. specialize (Hsp _ Hi). discriminate Hsp. }
  assert (Hnn : ~ In 64 (n0 :: n)).
  { intros Hi. rewrite Forall_forall in Hl. specialize (Hl _ Hi). unfold is_letter in Hl. lia. }
  assert (Hbody : forall term s4 b0 r0, take_while (fun c => negb (c =? 64) && match term with Some t => negb (c =? t) | None => true end) s4 = (b0, r0) ->
    s4 = b0 ++ r0 /\ ~ In 64 b0).
  { intros term s4 b0 r0 E. destruct (take_while_split _ _ _ _ E) as (-> & Hf & _). split; [reflexivity|].
    intros Hi. rewrite Forall_forall in Hf. specialize (Hf _ Hi). discriminate Hf. }
  assert (Hcons : forall t r0 r1, match if_follows t r0 with Some r' => r' | None => r0 end = r1 -> t <> 64 -> exists u, r0 = u ++ r1 /\ ~ In 64 u).
  { intros t r0 r1 E Ht. destruct r0 as [|d r0]; cbn in E.
    - subst. exists []. split; [reflexivity|intros []].
    - destruct (d =? t) eqn:Ed; subst r1.
      + apply Z.eqb_eq in Ed. subst d. exists [t]. split; [reflexivity|]. intros [|[]]. congruence.
      + exists []. split; [reflexivity|intros []]. }
  assert (Hopen : forall o s5, if_follows o s3 = Some s5 -> s3 = o :: s5).
  { intros o s5. destruct s3 as [|d s3]; cbn; [discriminate|]. destruct (d =? o) eqn:Ed; [|discriminate].
    apply Z.eqb_eq in Ed. subst. intros [= ->]. reflexivity. }
  destruct (if_follows 91 s3) as [s5|] eqn:E91; [|destruct (if_follows 123 s3) as [s5|] eqn:E123].
  - destruct (take_while _ s5) as [b0 r0] eqn:E5. injection E3 as <- E3.
    destruct (Hbody (Some 93) _ _ _ E5) as [-> Hb]. destruct (Hcons 93 _ _ E3) as (u & -> & Hu); [discriminate|].
    rewrite (Hopen _ _ E91). repeat (split; [assumption || reflexivity|]).
    exists ((n0 :: n) ++ sp ++ [91] ++ b0 ++ u). split; [now rewrite <- !app_assoc|].
    intros Hi. rewrite !in_app_iff in Hi. destruct Hi as [?|[?|[[?|[]]|[?|?]]]]; try contradiction. discriminate.
  - destruct (take_while _ s5) as [b0 r0] eqn:E5. injection E3 as <- E3.
    destruct (Hbody (Some 125) _ _ _ E5) as [-> Hb]. destruct (Hcons 125 _ _ E3) as (u & -> & Hu); [discriminate|].
    rewrite (Hopen _ _ E123). repeat (split; [assumption || reflexivity|]).
    exists ((n0 :: n) ++ sp ++ [123] ++ b0 ++ u). split; [now rewrite <- !app_assoc|].
    intros Hi. rewrite !in_app_iff in Hi. destruct Hi as [?|[?|[[?|[]]|[?|?]]]]; try contradiction. discriminate.
  - destruct (take_while _ s3) as [b0 r0] eqn:E5. injection E3 as <- <-.
    destruct (Hbody None _ _ _ E5) as [-> Hb]. repeat (split; [assumption || reflexivity|]).
    exists ((n0 :: n) ++ sp ++ b0). split; [now rewrite <- !app_assoc|].
    intros Hi. rewrite !in_app_iff in Hi. destruct Hi as [?|[?|?]]; contradiction.
Qed.

Lemma parse_field_shorter : forall gen s f r, parse_field gen s = inr (f, r) -> (List.length r < List.length s)%nat.
Proof.
  intros gen s f r H. destruct (parse_field_inv _ _ _ _ H) as (bef & rest & -> & _ & _ & _ & _ & _ & _ & u & -> & _).
  rewrite app_length. cbn. rewrite app_length. lia.
Qed.

Lemma query_loop_none : forall t fs name, query_loop t fs name = ROk None ->
  ~ In name (map tf_name fs).
Proof.
  induction fs as [|f fs IH]; intros name H; cbn in *; [tauto|].
  destruct (negb (readable t (tf_nin f))); [discriminate H|].
  destruct (same_text name (tf_name f)) eqn:E; [discriminate H|].
  intros [Hi|Hi].
  - assert (same_text name (tf_name f) = true) by (apply same_text_iff; congruence). congruence.
  - exact (IH _ H Hi).
Qed.

Section Any.
Variable moves : nat -> bool.

Lemma parse_loop_ends : forall fuel t s, (List.length s < fuel)%nat -> parse_loop moves fuel t s <> PtFuel.
Proof.
  induction fuel as [|fuel IH]; intros t s Hl; [lia|]. cbn [parse_loop].
  destruct (if Z.of_nat (List.length (t_fields t)) =? t_cap t then grow moves t else t) as [fs cap gen].
  cbn [t_gen t_fields t_cap]. destruct (parse_field gen s) as [e|[f r]] eqn:E.
  - destruct e; try discriminate; destruct (free_test _); discriminate.
  - destruct (query _ _) as [[g|]| |]; try discriminate. apply IH. apply parse_field_shorter in E. lia.
Qed.
Lemma parse_test_ends : forall s, parse_test moves s <> PtFuel.
Proof. intros s. apply parse_loop_ends. lia. Qed.

(** What is known of the fields read so far. *)
Definition plain_field (f : tfield) : Prop :=
  tf_name f <> [] /\ Forall is_letter (tf_name f) /\ ~ In 64 (tf_body f).
Definition placed (g : nat) (f : tfield) : Prop :=
  tf_nin f = place g 128 (tf_name f) /\ tf_bin f = place g 512 (tf_body f).
Definition inv (t : ntest) : Prop :=
  Forall plain_field (t_fields t) /\ NoDup (map tf_name (t_fields t)) /\
  (t_gen t = 0%nat /\ t_cap t = 8 /\ (List.length (t_fields t) <= 8)%nat /\ Forall (placed 0) (t_fields t) \/
   (0 < t_gen t)%nat /\ 8 < t_cap t /\ (8 <= List.length (t_fields t))%nat /\ Forall (placed 0) (firstn 8 (t_fields t))).

Lemma inv_grow : forall t, inv t -> inv (if Z.of_nat (List.length (t_fields t)) =? t_cap t then grow moves t else t).
Proof.
  intros [fs cap gen] (Hp & Hd & H). destruct (_ =? _) eqn:E; [|repeat split; assumption]. apply Z.eqb_eq in E.
  unfold inv, grow. cbn [t_fields t_cap t_gen] in *. split; [exact Hp|]. split; [exact Hd|]. right.
  destruct H as [(-> & -> & Hl & Hf)|(Hg & Hc & Hl & Hf)].
  - repeat split; try lia. rewrite firstn_all2; [exact Hf|lia].
  - destruct gen as [|gen]; [lia|]. repeat split; try lia; [|exact Hf]. destruct (moves (S gen)); lia.
Qed.

Definition settled (t : ntest) : Prop :=
  t_gen t = 0%nat /\ (List.length (t_fields t) < 8)%nat /\ Forall (placed 0) (t_fields t) \/
  (0 < t_gen t)%nat /\ (8 <= List.length (t_fields t))%nat /\ Forall (placed 0) (firstn 8 (t_fields t)).

Lemma grow_settled : forall t, inv t -> settled (if Z.of_nat (List.length (t_fields t)) =? t_cap t then grow moves t else t).
Proof.
  intros t H. pose proof (inv_grow t H) as (_ & _ & G). destruct H as (_ & _ & H). unfold settled.
  destruct (_ =? _) eqn:E; [apply Z.eqb_eq in E|apply Z.eqb_neq in E]; destruct G as [(A & B & C & D)|(A & B & C & D)]; try tauto.
  - exfalso. destruct t as [fs cap gen]. cbn [grow t_fields t_cap t_gen] in *. destruct gen; [lia|]. destruct (moves _); lia.
  - left. split; [exact A|]. split; [lia|exact D].
Qed.

Lemma inv_push : forall t f, inv t -> Z.of_nat (List.length (t_fields t)) <> t_cap t ->
  plain_field f -> placed (t_gen t) f -> ~ In (tf_name f) (map tf_name (t_fields t)) ->
  inv (mknt (t_fields t ++ [f]) (t_cap t) (t_gen t)).
Proof.
  intros [fs cap gen] f (Hp & Hd & H) Hn Hf Hpl Hni. unfold inv. cbn [t_fields t_cap t_gen] in *.
  split; [apply Forall_app; auto|]. split.
  - rewrite map_app. cbn. apply NoDup_Add with (a := tf_name f) (l := map tf_name fs).
    + rewrite <- (app_nil_r (map tf_name fs)) at 1. apply Add_app.
    + auto.
  - destruct H as [(-> & -> & Hl & Hq)|(Hg & Hc & Hl & Hq)]; rewrite app_length; cbn [List.length].
    + left. repeat split; try lia. apply Forall_app; auto.
    + right. repeat split; try lia. rewrite firstn_app. replace (8 - List.length fs)%nat with 0%nat by lia. cbn. rewrite app_nil_r. exact Hq.
Qed.

Lemma cap_after : forall t, inv t ->
  let t' := if Z.of_nat (List.length (t_fields t)) =? t_cap t then grow moves t else t in
  Z.of_nat (List.length (t_fields t')) <> t_cap t'.
Proof.
  intros t H. destruct (_ =? _) eqn:E; cbv zeta; [|apply Z.eqb_neq; exact E]. apply Z.eqb_eq in E. unfold grow. cbn [t_fields t_cap].
  destruct H as (_ & _ & [(_ & B & C & _)|(_ & B & C & _)]); lia.
Qed.

Lemma parse_loop_inv : forall fuel t s t', inv t -> parse_loop moves fuel t s = PtOk t' -> inv t' /\ settled t'.
Proof.
  induction fuel as [|fuel IH]; intros t s t' Hi H; [discriminate H|]. cbn [parse_loop] in H.
  pose proof (inv_grow t Hi) as Hg. pose proof (grow_settled t Hi) as Hs. pose proof (cap_after t Hi) as Hc. cbv zeta in Hc.
  destruct (if Z.of_nat (List.length (t_fields t)) =? t_cap t then grow moves t else t) as [fs cap gen].
  destruct (parse_field _ s) as [e|[f r]] eqn:E.
  - destruct e; try (destruct (free_test _); discriminate H). injection H as <-. auto.
  - destruct (query _ _) as [[g|]| |] eqn:Eq; try discriminate H.
    eapply IH; [|exact H]. destruct (parse_field_inv _ _ _ _ E) as (bef & rest & _ & _ & A & B & C & D & F & _).
    apply inv_push; auto; [repeat split; auto|split; auto|]. exact (query_loop_none _ _ _ Eq).
Qed.

Lemma inv_start : inv (mknt [] 8 0).
Proof. split; [constructor|]. split; [constructor|]. left. cbn. repeat split; try lia. constructor. Qed.

Lemma parse_test_inv : forall s t, parse_test moves s = PtOk t -> inv t /\ settled t.
Proof. intros s t. apply parse_loop_inv, inv_start. Qed.

Lemma test_names : forall s t, parse_test moves s = PtOk t ->
  NoDup (map tf_name (t_fields t)) /\
  forall f, In f (t_fields t) -> tf_name f <> [] /\ Forall is_letter (tf_name f) /\ ~ In 64 (tf_body f).
Proof.
  intros s t H. destruct (parse_test_inv s t H) as [(A & B & _) _]. split; [exact B|].
  intros f Hi. rewrite Forall_forall in A. exact (A f Hi).
Qed.

Lemma free_fails : forall t, settled t -> (8 <= List.length (t_fields t))%nat ->
  (exists f, In f (firstn 8 (t_fields t)) /\ (Z.of_nat (List.length (tf_name f)) < 128 \/ Z.of_nat (List.length (tf_body f)) < 512)) ->
  free_test t = false.
Proof.
  intros t Hs Hl (f & Hi & Hsh). destruct Hs as [(_ & Hn & _)|(Hg & _ & Hf)]; [lia|].
  destruct (free_test t) eqn:E; [|reflexivity]. unfold free_test in E. rewrite forallb_forall in E.
  assert (Hin : In f (t_fields t)).
  { rewrite <- (firstn_skipn 8 (t_fields t)). apply in_or_app. auto. }
  specialize (E f Hin). rewrite Forall_forall in Hf. destruct (Hf f Hi) as [P Q]. unfold free_ok in E. rewrite P, Q in E.
  apply andb_true_iff in E as [E1 E2].
  destruct Hsh as [Hsh|Hsh]; unfold place in *; apply Z.ltb_lt in Hsh; rewrite Hsh in *.
  - apply Nat.eqb_eq in E1. lia.
  - apply Nat.eqb_eq in E2. lia.
Qed.

Lemma many_never_pass : forall types s t, parse_test moves s = PtOk t -> (8 <= List.length (t_fields t))%nat ->
  (exists f, In f (firstn 8 (t_fields t)) /\ (Z.of_nat (List.length (tf_name f)) < 128 \/ Z.of_nat (List.length (tf_body f)) < 512)) ->
  run_test_string moves types s <> TDone TPassed /\ run_test_string moves types s <> TDone TFailed.
Proof.
  intros types s t H Hl Hs. destruct (parse_test_inv s t H) as [_ St]. pose proof (free_fails t St Hl Hs) as Hf.
  unfold run_test_string. rewrite H, Hf.
  destruct (query t _) as [[g|]| |]; try (split; discriminate). destruct (negb _); [split; discriminate|].
  destruct (find_type _ _) as [y|]; [|split; discriminate].
  destruct (ordered _ _) as [[l|]| |]; try (split; discriminate).
  destruct (tt_run y l); split; discriminate.
Qed.

(** ** Few fields: nothing undefined in the reading *)
Lemma ats_app : forall a b, ats (a ++ b) = (ats a + ats b)%nat.
Proof. intros a b. apply count_occ_app. Qed.

Definition young (t : ntest) : Prop := t_gen t = 0%nat /\ t_cap t = 8 /\ Forall (placed 0) (t_fields t).
Lemma place_readable : forall t room s, readable t (place 0 room s) = true.
Proof. intros. unfold place. destruct (_ <? _); reflexivity. Qed.
Lemma young_query : forall t fs name, Forall (placed 0) fs -> exists o, query_loop t fs name = ROk o /\
  match o with Some f => In f fs | None => True end.
Proof.
  induction fs as [|f fs IH]; intros name H; [exists None; split; [reflexivity|exact I]|].
  inversion H; subst. cbn. destruct H2 as [Hp _]. rewrite Hp, place_readable. cbn.
  destruct (same_text name (tf_name f)); [exists (Some f); auto|].
  destruct (IH name H3) as (o & E & Ho). exists o. split; [exact E|]. destruct o; auto.
Qed.
Lemma young_free : forall t, young t -> free_test t = true.
Proof.
  intros t (Hg & _ & Hf). apply forallb_forall. intros f Hi. rewrite Forall_forall in Hf. destruct (Hf f Hi) as [A B].
  unfold free_ok. rewrite A, B, Hg. unfold place. destruct (_ <? _); destruct (_ <? _); reflexivity.
Qed.

Lemma parse_loop_young : forall fuel t s, young t ->
  (List.length (t_fields t) + ats s <= 7)%nat ->
  match parse_loop moves fuel t s with PtOk t' => young t' | PtUB => False | _ => True end.
Proof.
  induction fuel as [|fuel IH]; intros t s Hy Hl; [exact I|]. cbn [parse_loop].
  destruct Hy as (Hg & Hc & Hf). destruct (_ =? _) eqn:E; [apply Z.eqb_eq in E; lia|]. clear E.
  assert (Hy : young t) by (repeat split; assumption).
  destruct (parse_field _ s) as [e|[f r]] eqn:Ep.
  - destruct e; rewrite ?young_free by exact Hy; auto.
  - unfold query. destruct (young_query t (t_fields t) (tf_name f) Hf) as (o & -> & _).
    destruct o; [exact I|].
    destruct (parse_field_inv _ _ _ _ Ep) as (bef & rest & -> & _ & _ & _ & _ & A & B & u & -> & _).
    apply IH.
    + repeat split; cbn; auto. apply Forall_app. split; [exact Hf|]. constructor; [|constructor]. rewrite Hg in *. split; assumption.
    + cbn. rewrite app_length. cbn. rewrite ats_app in Hl. change (ats (64 :: u ++ r)) with (S (ats (u ++ r))) in Hl. rewrite ats_app in Hl. lia.
Qed.

Lemma few_young : forall s, (ats s <= 7)%nat ->
  match parse_test moves s with PtOk t' => young t' | PtUB => False | _ => True end.
Proof. intros s H. apply parse_loop_young; [repeat split; constructor|cbn; exact H]. Qed.

Lemma young_ordered : forall t names, young t -> exists o, ordered t names = ROk o.
Proof.
  intros t names (Hg & Hc & Hf). induction names as [|n names IH]; cbn; [eauto|].
  unfold query. destruct (young_query t (t_fields t) n Hf) as (o & -> & Ho). destruct o as [f|]; [|eauto].
  rewrite Forall_forall in Hf. destruct (Hf f Ho) as [_ B]. rewrite B, place_readable. cbn.
  destruct IH as (o & ->). destruct o; eauto.
Qed.

Lemma few_safe : forall types s, (ats s <= 7)%nat -> run_test_string moves types s = TStuck ->
  exists y inputs, In y types /\ tt_run y inputs = TStuck.
Proof.
  intros types s Hc H. pose proof (few_young s Hc) as Hy. unfold run_test_string in H.
  destruct (parse_test moves s) as [t|e| |]; try discriminate H; [|contradiction].
  pose proof Hy as (Hg & Hcap & Hf).
  unfold query in H. destruct (young_query t (t_fields t) (bytes_of "type") Hf) as (o & Eo & Ho). rewrite Eo in H.
  destruct o as [f|]; [|discriminate H]. rewrite Forall_forall in Hf. destruct (Hf f Ho) as [_ B].
  rewrite B, place_readable in H. cbn [negb] in H.
  destruct (find_type types (tf_body f)) as [y|] eqn:Ey; [|discriminate H].
  destruct (young_ordered t (tt_fields y) Hy) as (l & El). rewrite El in H. destruct l as [l|]; [|discriminate H].
  exists y, l. split; [unfold find_type in Ey; apply find_some in Ey; tauto|].
  destruct (tt_run y l) eqn:Er; try (discriminate H); [|reflexivity].
  rewrite young_free in H by exact Hy. discriminate H.
Qed.

(** ** Written fields *)
Definition fld (w : wfield) : tfield := mktf (w_name w) (w_body w) (place 0 128 (w_name w)) (place 0 512 (w_body w)).

Lemma query_fld : forall t ws name,
  query_loop t (map fld ws) name = ROk (option_map fld (find (fun w => same_text name (w_name w)) ws)).
Proof.
  induction ws as [|w ws IH]; intros name; cbn; [reflexivity|]. rewrite place_readable. cbn.
  destruct (same_text name (w_name w)); [reflexivity|apply IH].
Qed.
Lemma find_none_names : forall ws name, ~ In name (map w_name ws) -> find (fun w => same_text name (w_name w)) ws = None.
Proof.
  induction ws as [|w ws IH]; intros name H; cbn; [reflexivity|].
  destruct (same_text name (w_name w)) eqn:E; [apply same_text_iff in E; exfalso; apply H; left; congruence|]. apply IH. intros Hi. apply H. right. exact Hi.
Qed.

Lemma parse_written : forall ws fuel done rest, Forall w_ok ws -> NoDup (map w_name (done ++ ws)) ->
  (List.length done + List.length ws <= 7)%nat ->
  (List.length (concat (map w_text ws) ++ rest) < fuel)%nat ->
  exists fuel', (List.length rest < fuel')%nat /\
    parse_loop moves fuel (mknt (map fld done) 8 0) (concat (map w_text ws) ++ rest) =
    parse_loop moves fuel' (mknt (map fld (done ++ ws)) 8 0) rest.
Proof.
  induction ws as [|w ws IH]; intros fuel done rest Hok Hnd Hl Hfuel.
  - exists fuel. rewrite app_nil_r. split; [exact Hfuel|reflexivity].
  - inversion Hok; subst. destruct fuel as [|fuel]; [lia|]. cbn [map concat] in *. rewrite <- app_assoc in *.
    cbn [parse_loop t_fields t_cap t_gen]. rewrite map_length.
    cbn [List.length] in Hl.
    replace (Z.of_nat (List.length done) =? 8) with false by (symmetry; apply Z.eqb_neq; lia).
    cbn [t_gen]. rewrite parse_field_at by assumption. unfold query. cbn [t_fields tf_name]. rewrite query_fld.
    rewrite find_none_names.
    2: { rewrite map_app in Hnd. cbn in Hnd. apply NoDup_remove_2 in Hnd. intros Hi. apply Hnd, in_or_app. auto. }
    cbn [option_map].
    destruct (IH fuel (done ++ [w]) rest) as (fuel' & Hf' & E); auto.
    + rewrite <- app_assoc. exact Hnd.
    + rewrite app_length. cbn. lia.
    + rewrite app_length in Hfuel. assert (0 < List.length (w_text w))%nat; [|lia].
      unfold w_text. rewrite app_length. cbn. lia.
    + exists fuel'. split; [exact Hf'|]. rewrite <- app_assoc in E. cbn [app] in E. rewrite <- E, map_app. reflexivity.
Qed.

Lemma read_written : forall ws tail, Forall w_ok ws -> NoDup (map w_name ws) -> (List.length ws <= 7)%nat -> Forall is_space tail ->
  parse_test moves (ws_text ws tail) = PtOk (mknt (map fld ws) 8 0).
Proof.
  intros ws tail Hok Hnd Hl Ht. unfold parse_test, ws_text.
  destruct (parse_written ws (S (List.length (concat (map w_text ws) ++ tail))) [] tail) as (fuel' & Hf & E); auto.
  cbn [map] in E. rewrite E. cbn [app]. destruct fuel' as [|fuel']; [lia|]. cbn [parse_loop t_fields t_cap t_gen].
  rewrite map_length. replace (Z.of_nat (List.length ws) =? 8) with false by (symmetry; apply Z.eqb_neq; lia).
  cbn [t_gen]. rewrite parse_field_end by exact Ht. reflexivity.
Qed.

Lemma duplicate_refused : forall ws w rest, Forall w_ok ws -> NoDup (map w_name ws) -> (List.length ws <= 7)%nat -> w_ok w ->
  In (w_name w) (map w_name ws) -> parse_test moves (concat (map w_text ws) ++ w_text w ++ rest) = PtErr TE_DUPL.
Proof.
  intros ws w rest Hok Hnd Hl Hw Hi. unfold parse_test.
  destruct (parse_written ws (S (List.length (concat (map w_text ws) ++ w_text w ++ rest))) [] (w_text w ++ rest)) as (fuel' & Hf & E); auto.
  cbn [map] in E. rewrite E. cbn [app]. destruct fuel' as [|fuel']; [lia|]. cbn [parse_loop t_fields t_cap t_gen].
  rewrite map_length. replace (Z.of_nat (List.length ws) =? 8) with false by (symmetry; apply Z.eqb_neq; lia).
  cbn [t_gen]. rewrite parse_field_at by exact Hw. unfold query. cbn [t_fields tf_name]. rewrite query_fld.
  destruct (find _ ws) as [w'|] eqn:Ef; [reflexivity|]. exfalso.
  apply in_map_iff in Hi as (w' & En & Hi). pose proof (find_none _ _ Ef _ Hi) as Hn. cbn in Hn.
  rewrite <- En in Hn. rewrite (proj2 (same_text_iff _ _) eq_refl) in Hn. discriminate Hn.
Qed.

Lemma find_pair : forall ws n b, NoDup (map w_name ws) -> In (n, b) (ws_pairs ws) ->
  exists w, find (fun w => same_text n (w_name w)) ws = Some w /\ w_body w = b.
Proof.
  induction ws as [|w ws IH]; intros n b Hnd Hi; [destruct Hi|]. cbn in Hi, Hnd |- *. inversion Hnd; subst.
  destruct Hi as [E|Hi].
  - injection E as <- <-. rewrite (proj2 (same_text_iff _ _) eq_refl). eauto.
  - destruct (same_text n (w_name w)) eqn:E; [|exact (IH _ _ H2 Hi)].
    apply same_text_iff in E. subst n. exfalso. apply H1. unfold ws_pairs in Hi. apply in_map_iff in Hi as (w' & Ew & Hi).
    injection Ew as En _. rewrite <- En. now apply in_map.
Qed.

Lemma run_written : forall types ws tail y b1 b2 n1 n2,
  Forall w_ok ws -> NoDup (map w_name ws) -> (List.length ws <= 7)%nat -> Forall is_space tail ->
  find_type types (tt_name y) = Some y -> tt_fields y = [n1; n2] ->
  In (bytes_of "type", tt_name y) (ws_pairs ws) -> In (n1, b1) (ws_pairs ws) -> In (n2, b2) (ws_pairs ws) ->
  run_test_string moves types (ws_text ws tail) = tt_run y [b1; b2].
Proof.
  intros types ws tail y b1 b2 n1 n2 Hok Hnd Hl Ht Hy Hfs Hty H1 H2. unfold run_test_string.
  rewrite read_written by assumption.
  assert (Hq : forall n b, In (n, b) (ws_pairs ws) -> exists w, query (mknt (map fld ws) 8 0) n = ROk (Some (fld w)) /\ w_body w = b).
  { intros n b Hi. destruct (find_pair ws n b Hnd Hi) as (w & Ef & Hb). exists w. split; [|exact Hb].
    unfold query. cbn [t_fields]. rewrite query_fld, Ef. reflexivity. }
  destruct (Hq _ _ Hty) as (wt & Et & Hbt). rewrite Et. change (tf_bin (fld wt)) with (place 0 512 (w_body wt)). rewrite place_readable. cbn [negb].
  change (tf_body (fld wt)) with (w_body wt). rewrite Hbt, Hy, Hfs.
  destruct (Hq _ _ H1) as (w1 & E1 & Hb1). destruct (Hq _ _ H2) as (w2 & E2 & Hb2).
  cbn [ordered]. rewrite E1, E2. change (tf_bin (fld w1)) with (place 0 512 (w_body w1)). change (tf_bin (fld w2)) with (place 0 512 (w_body w2)).
  change (tf_body (fld w1)) with (w_body w1). change (tf_body (fld w2)) with (w_body w2). rewrite !place_readable. cbn [negb]. rewrite Hb1, Hb2.
  destruct (tt_run y [b1; b2]); try reflexivity.
  rewrite young_free; [reflexivity|]. repeat split. cbn [t_fields]. apply Forall_forall. intros f Hi.
  apply in_map_iff in Hi as (w & <- & _). split; reflexivity.
Qed.
End Any.
