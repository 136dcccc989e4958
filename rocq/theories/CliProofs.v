(** Proofs about the command line. *)
From Coq Require Import ZArith String List Lia Bool.
From Verif Require Import Base StringModel AsmModel CliModel CliSpec.
Import ListNotations.
Open Scope list_scope.
Open Scope Z_scope.

Lemma is_word_iff a w : is_word a w = true <-> word w a.
Proof. unfold is_word, word. destruct (list_eq_dec Z.eq_dec a (bytes_of w)); split; auto; discriminate. Qed.
Lemma is_word_two a w v : is_word a w || is_word a v = true <-> word w a \/ word v a.
Proof. rewrite orb_true_iff, !is_word_iff. reflexivity. Qed.
Lemma has_dash_iff p : has_dash p = true <-> dashed p.
Proof. unfold has_dash, dashed. destruct p as [|c r]; [split; [discriminate|intros (r & H); discriminate]|]. rewrite Z.eqb_eq. split; [intros ->; eauto|intros (q & H); congruence]. Qed.

(** * Numbers *)
Lemma is_blank_iff c : is_blank c = true <-> blank_char c.
Proof. unfold is_blank, blank_char. rewrite orb_true_iff, andb_true_iff, Z.eqb_eq, !Z.leb_le. tauto. Qed.
Lemma digit_iff c : (48 <=? c) && (c <=? 57) = true <-> digit_char c.
Proof. unfold digit_char. rewrite andb_true_iff, !Z.leb_le. tauto. Qed.

Lemma skip_split s : exists b, Forall blank_char b /\ s = b ++ skip_blank s /\ forall c t, skip_blank s = c :: t -> ~ blank_char c.
Proof.
  induction s as [|c r (b & A & B & C)]; [exists []; repeat split; [constructor|discriminate]|]. cbn [skip_blank]. destruct (is_blank c) eqn:K.
  - exists (c :: b). split; [constructor; [apply is_blank_iff; exact K|exact A]|]. split; [cbn; now rewrite <- B|exact C].
  - exists []. split; [constructor|]. split; [reflexivity|]. intros d t H. inversion H; subst. rewrite <- is_blank_iff. congruence.
Qed.
Lemma digits_split s : forall acc, exists ds r, Forall digit_char ds /\ s = ds ++ r /\ (forall c t, r = c :: t -> ~ digit_char c) /\
  digits_value s acc = fold_left (fun n c => n * 10 + (c - 48)) ds acc.
Proof.
  induction s as [|c s IH]; intros acc; [exists [], []; repeat split; [constructor|discriminate]|]. cbn [digits_value]. destruct (_ && _) eqn:K.
  - destruct (IH (acc * 10 + (c - 48))) as (ds & r & A & B & C & D). exists (c :: ds), r. split; [constructor; [apply digit_iff; exact K|exact A]|]. split; [cbn; now rewrite B|]. split; [exact C|exact D].
  - exists [], (c :: s). split; [constructor|]. split; [reflexivity|]. split; [|reflexivity]. intros d t H. inversion H; subst. rewrite <- digit_iff. congruence.
Qed.

(** The value before the test whether it fits. *)
Definition atoi_value (s : list Z) : Z :=
  match skip_blank s with 43 :: r => digits_value r 0 | 45 :: r => - digits_value r 0 | r => digits_value r 0 end.
Lemma atoi_starts s : starts_with s (atoi_value s).
Proof.
  unfold atoi_value. destruct (skip_split s) as (b & A & B & C). destruct (skip_blank s) as [|c q] eqn:K.
  - cbn. apply (sw_plain s b [] []); auto; try discriminate. 
  - destruct (Z.eq_dec c 43) as [->|N1].
    { destruct (digits_split q 0) as (ds & r & D1 & D2 & D3 & ->). apply (sw_plus s b ds r); auto. now rewrite B, D2. }
    destruct (Z.eq_dec c 45) as [->|N2].
    { destruct (digits_split q 0) as (ds & r & D1 & D2 & D3 & ->). apply (sw_minus s b ds r); auto. now rewrite B, D2. }
    replace (match c with 43 => _ | 45 => _ | _ => _ end) with (digits_value (c :: q) 0).
    2: { destruct c as [|p|p]; try reflexivity. do 6 (destruct p; try reflexivity); congruence. }
    destruct (digits_split (c :: q) 0) as (ds & r & D1 & D2 & D3 & ->). apply (sw_plain s b ds r); auto; [|now rewrite B, D2].
    intros -> d t H. cbn in D2. rewrite H in D2. inversion D2; subst. split; [eapply C; reflexivity|auto].
Qed.

Lemma skip_blanks b r : Forall blank_char b -> (forall c t, r = c :: t -> ~ blank_char c) -> skip_blank (b ++ r) = r.
Proof.
  intros F N. induction F as [|c b H F IH]; cbn [app skip_blank].
  - destruct r as [|c t]; [reflexivity|]. cbn. destruct (is_blank c) eqn:K; [|reflexivity]. apply is_blank_iff in K. now destruct (N c t eq_refl).
  - apply is_blank_iff in H. now rewrite H.
Qed.
Lemma digits_take ds r : forall acc, Forall digit_char ds -> (forall c t, r = c :: t -> ~ digit_char c) ->
  digits_value (ds ++ r) acc = fold_left (fun n c => n * 10 + (c - 48)) ds acc.
Proof.
  induction ds as [|c ds IH]; intros acc F N; cbn [app].
  - destruct r as [|c t]; [reflexivity|]. cbn. destruct (_ && _) eqn:K; [|reflexivity]. apply digit_iff in K. now destruct (N c t eq_refl).
  - inversion F; subst. cbn [digits_value fold_left]. match goal with H : digit_char c |- _ => apply digit_iff in H; rewrite H end. auto.
Qed.
Lemma not_blank_digit c : digit_char c -> ~ blank_char c. Proof. unfold digit_char, blank_char. lia. Qed.
Lemma starts_atoi s n : starts_with s n -> n = atoi_value s.
Proof.
  intros H. inversion H as [b ds r A B C D E|b ds r A B C E|b ds r A B C E]; subst; unfold atoi_value.
  - rewrite skip_blanks; [|exact A|].
    + destruct ds as [|d ds].
      * cbn [app]. destruct r as [|c t]; [reflexivity|]. destruct (D eq_refl c t eq_refl) as (_ & N1 & N2).
        replace (match c with 43 => _ | 45 => _ | _ => _ end) with (digits_value (c :: t) 0)
          by (destruct c as [|p|p]; try reflexivity; do 6 (destruct p; try reflexivity); congruence).
        symmetry. apply (digits_take [] (c :: t) 0); [constructor|exact C].
      * cbn [app]. assert (N : d <> 43 /\ d <> 45) by (inversion B; subst; unfold digit_char in *; lia). destruct N as [N1 N2].
        replace (match d with 43 => _ | 45 => _ | _ => _ end) with (digits_value (d :: ds ++ r) 0)
          by (destruct d as [|p|p]; try reflexivity; do 6 (destruct p; try reflexivity); congruence).
        symmetry. apply (digits_take (d :: ds) r 0); assumption.
    + intros c t X. destruct ds as [|d ds]; cbn [app] in X; [apply (D eq_refl c t X)|]. inversion X; subst. apply not_blank_digit. now inversion B.
  - rewrite skip_blanks; [|exact A|intros c t X; inversion X; subst; unfold blank_char; lia]. symmetry. now apply digits_take.
  - rewrite skip_blanks; [|exact A|intros c t X; inversion X; subst; unfold blank_char; lia]. f_equal. symmetry. now apply digits_take.
Qed.
Lemma atoi_fits s : atoi s = if (- 2 ^ 31 <=? atoi_value s) && (atoi_value s <? 2 ^ 31) then Some (atoi_value s) else None.
Proof. reflexivity. Qed.

(** * The loop over the arguments *)
(** What one option changes. *)
Definition apply_opt (o : opt) (c : cfg) : cfg :=
  match o with
  | Help => mkcfg MHelp (c_profile c) (c_inline c) (c_output c) (c_input c) (c_heap c)
  | Inline => mkcfg (c_mode c) (c_profile c) true (c_output c) (c_input c) (c_heap c)
  | Assembly => mkcfg MAssembly (c_profile c) (c_inline c) (c_output c) (c_input c) (c_heap c)
  | Diagram => mkcfg MDiagram (c_profile c) (c_inline c) (c_output c) (c_input c) (c_heap c)
  | Profile => mkcfg (c_mode c) true (c_inline c) (c_output c) (c_input c) (c_heap c)
  | Output p => mkcfg (c_mode c) (c_profile c) (c_inline c) (Some p) (c_input c) (c_heap c)
  | Heap p => mkcfg (c_mode c) (c_profile c) (c_inline c) (c_output c) (c_input c) (atoi_value p mod 2 ^ 64)
  end.

Lemma heap_value p n : starts_with p n -> - 2 ^ 31 <= n < 2 ^ 31 -> n <> 0 -> atoi p = Some (atoi_value p) /\ (atoi_value p mod 2 ^ 64 =? 0) = false.
Proof.
  intros S R N. apply starts_atoi in S. subst n. rewrite atoi_fits. destruct (Z.leb_spec (- 2 ^ 31) (atoi_value p)); [|lia]. destruct (Z.ltb_spec (atoi_value p) (2 ^ 31)); [|lia].
  split; [reflexivity|]. apply Z.eqb_neq. intros E. destruct (Z.lt_ge_cases (atoi_value p) 0) as [L|L].
  - rewrite <- (Z_mod_plus_full _ 1) in E. rewrite Z.mod_small in E; lia.
  - rewrite Z.mod_small in E; lia.
Qed.

Lemma parse_one name o ws l c : spells o ws -> usable o -> parse_args name (ws ++ l) c = parse_args name l (apply_opt o c).
Proof.
  intros S U. inversion S as [a H|a H|a H|a H|a H|a p H|a p H]; subst; unfold word in H; try (destruct H as [-> | ->]; reflexivity); try (subst a; reflexivity).
  - assert (D : has_dash p = false) by (inversion U as [? X| |]; subst; [now destruct (X p)|]; destruct (has_dash p) eqn:K; [apply has_dash_iff in K; contradiction|reflexivity]).
    destruct H as [-> | ->]; cbn [app parse_args is_word]; cbn; now rewrite D.
  - assert (D : has_dash p = false /\ exists n, starts_with p n /\ - 2 ^ 31 <= n < 2 ^ 31 /\ n <> 0).
    { inversion U as [? X Y| |q n X]; subst; [now destruct (Y p)|]. split; [|eauto]. destruct (has_dash p) eqn:K; [apply has_dash_iff in K; contradiction|reflexivity]. }
    destruct D as (D & n & A & B & C). destruct (heap_value p n A B C) as [V W].
    destruct H as [-> | ->]; cbn [app]; unfold parse_args; fold parse_args; cbn [is_word];
      match goal with |- context [is_word (bytes_of ?s) "-h"] => change (is_word (bytes_of s) "-h") with false; change (is_word (bytes_of s) "--help") with false;
        change (is_word (bytes_of s) "-i") with false; change (is_word (bytes_of s) "--inline") with false; change (is_word (bytes_of s) "-a") with false; change (is_word (bytes_of s) "--assembly") with false;
        change (is_word (bytes_of s) "--diagram-ast") with false; change (is_word (bytes_of s) "-p") with false; change (is_word (bytes_of s) "--profile") with false;
        change (is_word (bytes_of s) "-o") with false; change (is_word (bytes_of s) "--output") with false end; cbn [orb];
      rewrite D, V, W; reflexivity.
Qed.

Lemma parse_all name os ws : spell_all os ws -> Forall usable os -> forall rest c, parse_args name (ws ++ rest) c = parse_args name rest (fold_left (fun c o => apply_opt o c) os c).
Proof.
  induction 1 as [|o ws os l S A IH]; intros U rest c; [reflexivity|]. inversion U; subst. rewrite <- app_assoc. rewrite (parse_one name o); [|exact S|assumption]. cbn [fold_left]. auto.
Qed.

Lemma not_word a w : ~ option_word a -> In w ["-h"; "--help"; "-i"; "--inline"; "-a"; "--assembly"; "--diagram-ast"; "-p"; "--profile"; "-o"; "--output"; "-H"; "--heap"]%string -> is_word a w = false.
Proof. intros N I. destruct (is_word a w) eqn:K; [|reflexivity]. apply is_word_iff in K. exfalso. apply N. exists w. auto. Qed.

Lemma parse_stop name rest c : stops rest -> c_input c = None -> parse_args name rest c = PGo (mkcfg (c_mode c) (c_profile c) (c_inline c) (c_output c) (hd_error rest) (c_heap c)).
Proof.
  intros S I. destruct S as [|a r N]; [destruct c; cbn in *; now subst|]. cbn [parse_args hd_error]. rewrite !(not_word a) by (try exact N; cbn; tauto). reflexivity.
Qed.

(** The state the options lead to. *)
Definition final (os : list opt) : cfg := fold_left (fun c o => apply_opt o c) os cfg0.

Lemma last_snoc {A} (f : opt -> option A) os o : last_some f (os ++ [o]) = match f o with Some a => Some a | None => last_some f os end.
Proof. induction os as [|x os IH]; cbn; [destruct (f o); reflexivity|]. rewrite IH. destruct (f o); reflexivity. Qed.

Lemma final_snoc os o : final (os ++ [o]) = apply_opt o (final os).
Proof. unfold final. now rewrite fold_left_app. Qed.

Lemma final_input os : c_input (final os) = None.
Proof. induction os as [|o os IH] using rev_ind; [reflexivity|]. rewrite final_snoc. destruct o; exact IH. Qed.

Lemma final_asks os rest : asks os rest (mkcfg (c_mode (final os)) (c_profile (final os)) (c_inline (final os)) (c_output (final os)) (hd_error rest) (c_heap (final os))).
Proof.
  induction os as [|o os IH] using rev_ind.
  - split; cbn; try reflexivity; split; (discriminate || tauto).
  - rewrite final_snoc. destruct IH as [A B C D E F]. cbn in A, B, C, D, F. split; cbn; rewrite ?last_snoc, ?in_app_iff; destruct o; cbn [apply_opt c_mode c_profile c_inline c_output c_heap says_mode says_output says_heap or_else In]; try assumption; try reflexivity.
    all: try (rewrite B; split; [tauto|intros [X|[X|[]]]; [exact X|discriminate]]).
    all: try (rewrite C; split; [tauto|intros [X|[X|[]]]; [exact X|discriminate]]).
    all: try (split; [intros _; right; left; reflexivity|reflexivity]).
    exists (atoi_value size). split; [apply atoi_starts|reflexivity].
Qed.

Lemma asks_one os rest c d : asks os rest c -> asks os rest d -> c = d.
Proof.
  intros [A1 A2 A3 A4 A5 A6] [B1 B2 B3 B4 B5 B6]. destruct c as [m p i o inp h], d as [m2 p2 i2 o2 inp2 h2]. cbn in *. subst.
  assert (p = p2) by (destruct p, p2; try reflexivity; exfalso; [assert (false = true) by tauto|assert (false = true) by tauto]; discriminate).
  assert (i = i2) by (destruct i, i2; try reflexivity; exfalso; [assert (false = true) by tauto|assert (false = true) by tauto]; discriminate).
  subst. f_equal. destruct (last_some says_heap os); [|congruence]. destruct A6 as (n & S1 & ->), B6 as (n2 & S2 & ->). apply starts_atoi in S1, S2. congruence.
Qed.

Lemma parse_line name os rest args c : line_of os rest args -> stops rest -> asks os rest c -> parse_args name args cfg0 = PGo c.
Proof.
  intros (ws & S & U & ->) T A. rewrite (parse_all name os ws S U). fold (final os). rewrite parse_stop; [|exact T|apply final_input]. f_equal. eapply asks_one; [apply final_asks|exact A].
Qed.

Lemma parse_refused name os rest args p : line_of os rest args -> refused rest p -> exists t, parse_args name args cfg0 = PStop t /\ begins p t.
Proof.
  intros (ws & S & U & ->) R. rewrite (parse_all name os ws S U). generalize (fold_left (fun c o => apply_opt o c) os cfg0). intros c.
  inversion R as [a r W D|a r W D|a q r W D Z0]; subst.
  - eexists. split; [|eexists; rewrite <- app_assoc; reflexivity].
    destruct W as [-> | ->]; (destruct D as [-> | (q & t & -> & D)]; [reflexivity|]); apply has_dash_iff in D; cbn [parse_args is_word]; cbn; rewrite D; reflexivity.
  - eexists. split; [|eexists; rewrite <- app_assoc; reflexivity].
    destruct W as [-> | ->]; (destruct D as [-> | (q & t & -> & D)]; [reflexivity|]); apply has_dash_iff in D; cbn [parse_args is_word]; cbn; rewrite D; reflexivity.
  - assert (D' : has_dash q = false) by (destruct (has_dash q) eqn:K; [apply has_dash_iff in K; contradiction|reflexivity]).
    assert (V : atoi q = Some 0) by (rewrite atoi_fits, <- (starts_atoi _ _ Z0); reflexivity).
    eexists. split; [destruct W as [-> | ->]; cbn [parse_args is_word]; cbn - [Z.modulo atoi Z.pow]; rewrite D', V; reflexivity|]. eexists. reflexivity.
Qed.

Lemma parse_large name os rest args : line_of os rest args -> too_large rest -> parse_args name args cfg0 = PUndef.
Proof.
  intros (ws & S & U & ->) R. rewrite (parse_all name os ws S U). generalize (fold_left (fun c o => apply_opt o c) os cfg0). intros c.
  inversion R as [a q n r W D S2 B]; subst.
  assert (D' : has_dash q = false) by (destruct (has_dash q) eqn:K; [apply has_dash_iff in K; contradiction|reflexivity]).
  assert (V : atoi q = None).
  { rewrite atoi_fits, <- (starts_atoi _ _ S2). destruct (Z.leb_spec (- 2 ^ 31) n); [|reflexivity]. destruct (Z.ltb_spec n (2 ^ 31)); [|reflexivity]. lia. }
  destruct W as [-> | ->]; cbn [parse_args is_word]; cbn - [Z.modulo atoi Z.pow]; rewrite D', V; reflexivity.
Qed.

(** Every line is of one of the three kinds. *)
Lemma word_dec a w : {word w a} + {~ word w a}.
Proof. unfold word. apply list_eq_dec. apply Z.eq_dec. Qed.

Lemma line_cons o ws os rest args : spells o ws -> usable o -> line_of os rest args -> line_of (o :: os) rest (ws ++ args).
Proof. intros S U (l & A & B & ->). exists (ws ++ l). split; [now constructor|]. split; [now constructor|]. now rewrite app_assoc. Qed.

Lemma line_kinds : forall n args, (List.length args <= n)%nat -> exists os rest, line_of os rest args /\ (stops rest \/ (exists p, refused rest p) \/ too_large rest).
Proof.
  induction n as [|n IH]; intros args L.
  - destruct args; [|cbn in L; lia]. exists [], []. split; [exists []; repeat split; constructor|]. left. constructor.
  - destruct args as [|a r]; [exists [], []; split; [exists []; repeat split; constructor|left; constructor]|]. cbn in L.
    assert (One : forall o, spells o [a] -> usable o -> exists os rest, line_of os rest (a :: r) /\ (stops rest \/ (exists p, refused rest p) \/ too_large rest)).
    { intros o S U. destruct (IH r ltac:(lia)) as (os & rest & A & B). exists (o :: os), rest. split; [|exact B]. apply (line_cons o [a]); assumption. }
    assert (P : forall o, (forall p, o <> Output p) -> (forall p, o <> CliSpec.Heap p) -> usable o) by (intros; now constructor).
    assert (Here : forall p, refused (a :: r) p -> exists os rest, line_of os rest (a :: r) /\ (stops rest \/ (exists p, refused rest p) \/ too_large rest)).
    { intros p R. exists [], (a :: r). split; [exists []; repeat split; constructor|]. right. left. eauto. }
    destruct (word_dec a "-h"); [apply (One Help); [constructor; auto|apply P; discriminate]|]. destruct (word_dec a "--help"); [apply (One Help); [constructor; auto|apply P; discriminate]|].
    destruct (word_dec a "-i"); [apply (One Inline); [constructor; auto|apply P; discriminate]|]. destruct (word_dec a "--inline"); [apply (One Inline); [constructor; auto|apply P; discriminate]|].
    destruct (word_dec a "-a"); [apply (One Assembly); [constructor; auto|apply P; discriminate]|]. destruct (word_dec a "--assembly"); [apply (One Assembly); [constructor; auto|apply P; discriminate]|].
    destruct (word_dec a "--diagram-ast"); [apply (One Diagram); [constructor; auto|apply P; discriminate]|].
    destruct (word_dec a "-p"); [apply (One Profile); [constructor; auto|apply P; discriminate]|]. destruct (word_dec a "--profile"); [apply (One Profile); [constructor; auto|apply P; discriminate]|].
    assert (O : word "-o" a \/ word "--output" a \/ ~ (word "-o" a \/ word "--output" a)) by (destruct (word_dec a "-o"), (word_dec a "--output"); tauto).
    assert (Hh : word "-H" a \/ word "--heap" a \/ ~ (word "-H" a \/ word "--heap" a)) by (destruct (word_dec a "-H"), (word_dec a "--heap"); tauto).
    assert (Dd : forall p, dashed p \/ ~ dashed p) by (intros p; destruct (has_dash p) eqn:K; [left; apply has_dash_iff; exact K|right; rewrite <- has_dash_iff; congruence]).
    destruct (or_assoc (word "-o" a) (word "--output" a) (~ (word "-o" a \/ word "--output" a))) as [_ O1]. destruct (O1 O) as [Y|N1].
    { destruct r as [|p r]; [eapply Here; apply rf_output; auto|]. destruct (Dd p) as [X|X]; [eapply Here; apply rf_output; [exact Y|right; eauto]|].
      cbn in L. destruct (IH r ltac:(lia)) as (os & rest & A & B). exists (Output p :: os), rest. split; [|exact B]. apply (line_cons _ [a; p]); [constructor; exact Y|constructor; exact X|exact A]. }
    destruct (or_assoc (word "-H" a) (word "--heap" a) (~ (word "-H" a \/ word "--heap" a))) as [_ H1]. destruct (H1 Hh) as [Y|N2].
    { destruct r as [|p r]; [eapply Here; apply rf_heap; auto|]. destruct (Dd p) as [X|X]; [eapply Here; apply rf_heap; [exact Y|right; eauto]|].
      pose proof (atoi_starts p) as V. destruct (Z.eq_dec (atoi_value p) 0) as [E|E]; [rewrite E in V; eapply Here; apply rf_zero; eassumption|].
      assert (Rg : - 2 ^ 31 <= atoi_value p < 2 ^ 31 \/ ~ (- 2 ^ 31 <= atoi_value p < 2 ^ 31)) by lia. destruct Rg as [Rg|Rg].
      - cbn in L. destruct (IH r ltac:(lia)) as (os & rest & A & B). exists (CliSpec.Heap p :: os), rest. split; [|exact B]. apply (line_cons _ [a; p]); [constructor; exact Y|eapply us_heap; eauto|exact A].
      - exists [], (a :: p :: r). split; [exists []; repeat split; constructor|]. right. right. econstructor; eauto. }
    exists [], (a :: r). split; [exists []; repeat split; constructor|]. left. constructor. intros (w & I & W). cbn [In] in I. repeat (destruct I as [<-|I]; [first [contradiction|apply N1; auto; fail|apply N2; auto; fail]|]). exact I.
Qed.

(** * What is done *)
Lemma heap_bytes_of n : - 2 ^ 31 <= n < 2 ^ 31 -> heap_bytes (n mod 2 ^ 64) = if n <? 0 then 65536 else n.
Proof.
  intros R. unfold heap_bytes. cbv zeta. replace ((n mod 2 ^ 64 + 2 ^ 31) mod 2 ^ 32) with (n + 2 ^ 31); [replace (n + 2 ^ 31 - 2 ^ 31) with n by ring; reflexivity|].
  rewrite (Z.mod_eq n (2 ^ 64)) by lia. replace (n - 2 ^ 64 * (n / 2 ^ 64) + 2 ^ 31) with (n + 2 ^ 31 + (- (2 ^ 32 * (n / 2 ^ 64))) * 2 ^ 32) by ring.
  rewrite Z_mod_plus_full. symmetry. apply Z.mod_small. lia.
Qed.

Lemma line_help w name os rest args c : line_of os rest args -> stops rest -> asks os rest c -> c_mode c = MHelp -> cli_main w (name :: args) = CExit [EOut (help_text name)] 0.
Proof. intros L S A M. unfold cli_main. now rewrite (parse_line name os rest args c L S A), M. Qed.

Lemma line_refused w name os rest args p : line_of os rest args -> refused rest p -> exists t, cli_main w (name :: args) = CExit [EErr t] (-1) /\ begins p t.
Proof. intros L R. destruct (parse_refused name _ _ _ _ L R) as (t & P & B). exists t. unfold cli_main. rewrite P. auto. Qed.

Lemma line_missing w name os rest args c : line_of os rest args -> stops rest -> asks os rest c -> c_mode c <> MHelp -> c_input c = None ->
  cli_main w (name :: args) = CExit [EErr (bytes_of "Error: No input file" ++ [10] ++ usage_text name)] (-1).
Proof.
  intros L S A M I. unfold cli_main. rewrite (parse_line name os rest args c L S A). unfold do_diagram, do_run. rewrite I. destruct (c_mode c); try reflexivity. congruence.
Qed.

Lemma line_draw w name os rest args c i : line_of os rest args -> stops rest -> asks os rest c -> c_mode c = MDiagram -> c_input c = Some i ->
  match w_draw w (c_inline c) i with
  | inr report => cli_main w (name :: args) = CExit [EErr report] (-1)
  | inl t =>
    match c_output c with
    | None => cli_main w (name :: args) = CExit [EOut t] 0
    | Some p => if w_open w p then cli_main w (name :: args) = CExit [EFile p t] 0 else exists e, cli_main w (name :: args) = CExit [EErr e] (-1)
    end
  end.
Proof.
  intros L S A M I. unfold cli_main. rewrite (parse_line name os rest args c L S A), M. unfold do_diagram. rewrite I. destruct (w_draw w (c_inline c) i) as [t|r]; [|reflexivity].
  destruct (c_output c) as [p|]; [|reflexivity]. destruct (w_open w p); [reflexivity|eauto].
Qed.

Lemma line_run w name os rest args c i asm : line_of os rest args -> stops rest -> asks os rest c -> (c_mode c = MAssembly /\ asm = true \/ c_mode c = MDefault /\ asm = false) ->
  c_input c = Some i -> w_start w (heap_bytes (c_heap c)) (c_profile c) = true -> w_plug w (heap_bytes (c_heap c)) (c_profile c) = None ->
  let r := w_run w asm (c_inline c) (heap_bytes (c_heap c)) (c_profile c) i in
  match rr_fail r with
  | Some report => cli_main w (name :: args) = CExit (rr_effs r ++ [EErr report]) (-1)
  | None => exists own, cli_main w (name :: args) = CExit (rr_effs r ++ own) 0 /\
      (In Profile os -> c_output c = None -> rr_prof r <> [] -> own = [EOut (rr_prof r)]) /\
      (In Profile os -> forall p, c_output c = Some p -> w_open w p = true -> own = [EFile p (rr_prof r)]) /\
      (~ In Profile os -> c_output c = None -> own = [])
  end.
Proof.
  intros L S A M I St Pl r. unfold cli_main. rewrite (parse_line name os rest args c L S A). pose proof (as_profile _ _ _ A) as P.
  assert (D : match rr_fail r with Some report => do_run w name c = CExit (rr_effs r ++ [EErr report]) (-1) | None => exists own, do_run w name c = CExit (rr_effs r ++ own) 0 /\
      (In Profile os -> c_output c = None -> rr_prof r <> [] -> own = [EOut (rr_prof r)]) /\
      (In Profile os -> forall p, c_output c = Some p -> w_open w p = true -> own = [EFile p (rr_prof r)]) /\
      (~ In Profile os -> c_output c = None -> own = []) end).
  { unfold do_run. rewrite I, St, Pl. cbn [negb]. replace (match c_mode c with MAssembly => true | _ => false end) with asm by (destruct M as [[-> ->]|[-> ->]]; reflexivity).
    fold r. destruct (rr_fail r) as [rep|]; [reflexivity|]. eexists. split; [reflexivity|]. split; [|split].
    - intros H O N. apply P in H. rewrite O, H. destruct (rr_prof r); [congruence|reflexivity].
    - intros H p O K. apply P in H. now rewrite O, H, K.
    - intros H O. rewrite O. destruct (c_profile c); [exfalso; apply H; apply P; reflexivity|reflexivity]. }
  destruct M as [[-> _]|[-> _]]; exact D.
Qed.

Lemma line_status w argv l code : cli_main w argv = CExit l code ->
  (code = 0 \/ code = -1) /\ (code <> 0 -> exists done t, l = done ++ [EErr t] /\ (done = [] \/ exists a b h p i, done = rr_effs (w_run w a b h p i))).
Proof.
  unfold cli_main. destruct argv as [|name args]; [discriminate|]. destruct (parse_args name args cfg0) as [c|t|]; [| |discriminate].
  2: { intros H. inversion H; subst. split; [auto|]. intros _. exists [], t. auto. }
  assert (D : forall r, do_diagram w name c = r \/ do_run w name c = r \/ r = CExit [EOut (help_text name)] 0 -> r = CExit l code ->
    (code = 0 \/ code = -1) /\ (code <> 0 -> exists done t, l = done ++ [EErr t] /\ (done = [] \/ exists a b h p i, done = rr_effs (w_run w a b h p i)))).
  { unfold do_diagram, do_run. intros r R H.
    assert (Err : forall t, CExit [EErr t] (-1) = CExit l code -> (code = 0 \/ code = -1) /\ (code <> 0 -> exists done t, l = done ++ [EErr t] /\ (done = [] \/ exists a b h p i, done = rr_effs (w_run w a b h p i))))
      by (intros t X; inversion X; subst; split; [auto|]; intros _; exists [], t; auto).
    assert (Ok : forall k, CExit k 0 = CExit l code -> (code = 0 \/ code = -1) /\ (code <> 0 -> exists done t, l = done ++ [EErr t] /\ (done = [] \/ exists a b h p i, done = rr_effs (w_run w a b h p i))))
      by (intros k X; inversion X; subst; split; [auto|congruence]).
    destruct R as [R|[R|R]]; subst r.
    - destruct (c_input c) as [i|]; [|eauto]. destruct (w_draw w (c_inline c) i); [|eauto]. destruct (c_output c) as [p|]; [|eauto]. destruct (w_open w p); eauto.
    - destruct (c_input c) as [i|]; [|eauto]. destruct (negb _); [eauto|]. destruct (w_plug w _ _); [eauto|]. cbv zeta in H.
      match type of H with context [rr_fail ?r] => destruct (rr_fail r) as [rep|] eqn:F end; [|eauto].
      inversion H; subst. split; [auto|]. intros _. eexists _, _. split; [reflexivity|]. right. do 5 eexists. reflexivity.
    - eauto. }
  destruct (c_mode c); intros H; eapply D; try exact H; auto.
Qed.

Lemma line_unstarted w name os rest args c i : line_of os rest args -> stops rest -> asks os rest c -> (c_mode c = MAssembly \/ c_mode c = MDefault) -> c_input c = Some i ->
  (w_start w (heap_bytes (c_heap c)) (c_profile c) = false -> exists t, cli_main w (name :: args) = CExit [EErr t] (-1)) /\
  (w_start w (heap_bytes (c_heap c)) (c_profile c) = true -> forall t, w_plug w (heap_bytes (c_heap c)) (c_profile c) = Some t -> cli_main w (name :: args) = CExit [EErr t] (-1)).
Proof.
  intros L S A M I. unfold cli_main. rewrite (parse_line name os rest args c L S A).
  split; [intros F; exists (bytes_of "Error: Failed to initialize runtime
")|intros F t P]; (assert (Q : do_run w name c = match w_start w (heap_bytes (c_heap c)) (c_profile c), w_plug w (heap_bytes (c_heap c)) (c_profile c) with
    | false, _ => CExit [EErr (bytes_of "Error: Failed to initialize runtime
")] (-1) | true, Some r => CExit [EErr r] (-1) | _, _ => do_run w name c end)
    by (unfold do_run; rewrite I, F; cbn [negb]; rewrite ?P; reflexivity)); rewrite F in Q; rewrite ?P in Q; destruct M as [-> | ->]; exact Q.
Qed.
