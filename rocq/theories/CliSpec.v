(** What a command line asks for. *)
From Coq Require Import ZArith String List Bool.
From Verif Require Import Base StringModel AsmModel CliModel.
Import ListNotations.
Open Scope list_scope.
Open Scope Z_scope.

Inductive opt := Help | Inline | Assembly | Diagram | Profile | Output (path : list Z) | Heap (size : list Z).

Definition word (w : string) (a : list Z) : Prop := a = bytes_of w.
(** The arguments that spell an option. *)
Inductive spells : opt -> list (list Z) -> Prop :=
| sp_h a : word "-h" a \/ word "--help" a -> spells Help [a]
| sp_i a : word "-i" a \/ word "--inline" a -> spells Inline [a]
| sp_a a : word "-a" a \/ word "--assembly" a -> spells Assembly [a]
| sp_d a : word "--diagram-ast" a -> spells Diagram [a]
| sp_p a : word "-p" a \/ word "--profile" a -> spells Profile [a]
| sp_o a p : word "-o" a \/ word "--output" a -> spells (Output p) [a; p]
| sp_H a p : word "-H" a \/ word "--heap" a -> spells (Heap p) [a; p].
Inductive spell_all : list opt -> list (list Z) -> Prop :=
| sa_nil : spell_all [] []
| sa_cons o ws os l : spells o ws -> spell_all os l -> spell_all (o :: os) (ws ++ l).

(** An argument that starts an option. *)
Definition option_word (a : list Z) : Prop := exists w, In w ["-h"; "--help"; "-i"; "--inline"; "-a"; "--assembly"; "--diagram-ast"; "-p"; "--profile"; "-o"; "--output"; "-H"; "--heap"]%string /\ word w a.

(** The number a text starts with, blanks and a sign in front. *)
Definition blank_char (c : Z) : Prop := c = 32 \/ 9 <= c <= 13.
Definition digit_char (c : Z) : Prop := 48 <= c <= 57.
Definition decimal (ds : list Z) : Z := fold_left (fun n c => n * 10 + (c - 48)) ds 0.
Inductive starts_with (s : list Z) : Z -> Prop :=
| sw_plain b ds r : Forall blank_char b -> Forall digit_char ds -> (forall c t, r = c :: t -> ~ digit_char c) ->
    (ds = [] -> forall c t, r = c :: t -> ~ blank_char c /\ c <> 43 /\ c <> 45) -> s = b ++ ds ++ r -> starts_with s (decimal ds)
| sw_plus b ds r : Forall blank_char b -> Forall digit_char ds -> (forall c t, r = c :: t -> ~ digit_char c) -> s = b ++ 43 :: ds ++ r -> starts_with s (decimal ds)
| sw_minus b ds r : Forall blank_char b -> Forall digit_char ds -> (forall c t, r = c :: t -> ~ digit_char c) -> s = b ++ 45 :: ds ++ r -> starts_with s (- decimal ds).

Definition dashed (p : list Z) : Prop := exists r, p = 45 :: r.
(** An option with an argument it can use. *)
Inductive usable : opt -> Prop :=
| us_plain o : (forall p, o <> Output p) -> (forall p, o <> Heap p) -> usable o
| us_output p : ~ dashed p -> usable (Output p)
| us_heap p n : ~ dashed p -> starts_with p n -> - 2 ^ 31 <= n < 2 ^ 31 -> n <> 0 -> usable (Heap p).

(** The last of the options that say something. *)
Fixpoint last_some {A} (f : opt -> option A) (os : list opt) : option A :=
  match os with
  | [] => None
  | o :: r => match last_some f r with Some a => Some a | None => f o end
  end.
Definition says_mode (o : opt) : option cmode := match o with Help => Some MHelp | Assembly => Some MAssembly | Diagram => Some MDiagram | _ => None end.
Definition says_output (o : opt) : option (list Z) := match o with Output p => Some p | _ => None end.
Definition says_heap (o : opt) : option (list Z) := match o with Heap p => Some p | _ => None end.
Definition or_else {A} (o : option A) (d : A) : A := match o with Some a => a | None => d end.

(** What the options and the arguments behind them ask for. *)
Record asks (os : list opt) (rest : list (list Z)) (c : cfg) : Prop := mkasks {
  as_mode : c_mode c = or_else (last_some says_mode os) MDefault;
  as_profile : c_profile c = true <-> In Profile os;
  as_inline : c_inline c = true <-> In Inline os;
  as_output : c_output c = last_some says_output os;
  as_input : c_input c = hd_error rest;
  as_heap : match last_some says_heap os with
            | None => c_heap c = 2 ^ 20
            | Some p => exists n, starts_with p n /\ c_heap c = n mod 2 ^ 64
            end }.

(** Where the options end: at the end of the line, or at the name of the input. *)
Inductive stops : list (list Z) -> Prop :=
| st_end : stops []
| st_input a r : ~ option_word a -> stops (a :: r).
(** Options that are not accepted, with the first words of the report. *)
Inductive refused : list (list Z) -> list Z -> Prop :=
| rf_output a r : word "-o" a \/ word "--output" a -> (r = [] \/ exists p t, r = p :: t /\ dashed p) -> refused (a :: r) (bytes_of "Missing file path after " ++ a)
| rf_heap a r : word "-H" a \/ word "--heap" a -> (r = [] \/ exists p t, r = p :: t /\ dashed p) -> refused (a :: r) (bytes_of "Missing byte count after " ++ a)
| rf_zero a p r : word "-H" a \/ word "--heap" a -> ~ dashed p -> starts_with p 0 -> refused (a :: p :: r) (bytes_of "Invalid heap size").
(** A heap size that is too large for an int. *)
Inductive too_large : list (list Z) -> Prop :=
| tl_heap a p n r : word "-H" a \/ word "--heap" a -> ~ dashed p -> starts_with p n -> ~ (- 2 ^ 31 <= n < 2 ^ 31) -> too_large (a :: p :: r).

(** The line read as options up to where they end. *)
Definition line_of (os : list opt) (rest args : list (list Z)) : Prop := exists ws, spell_all os ws /\ Forall usable os /\ args = ws ++ rest.

(** [t] begins with [p]. *)
Definition begins (p t : list Z) : Prop := exists r, t = p ++ r.
