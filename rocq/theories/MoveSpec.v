(** Specification for C80: what a collection does to the state of the machine, and states that differ only in where objects are. *)
From Coq Require Import ZArith List Lia Bool.
From Verif Require Import Base StringModel ValueModel MapModel ListModel ExeModel ObjModel FrameModel VmModel BuiltinModel ShowModel GcModel.
Import ListNotations.
Open Scope Z_scope.

(** * Collections *)

(** Renaming of locations. *)
Definition ren (f : nat -> nat) (v : value) : value := match v with VRef l => VRef (f l) | _ => v end.
Definition ren_obj (f : nat -> nat) (o : hobj) : hobj :=
  match o with
  | OList l => OList (mklobj (l_cap l) (l_count l) (map (option_map (ren f)) (l_cells l)))
  | OMap m => OMap (mkmap (m_mapper m) (map (ren f) (m_keys m)) (map (ren f) (m_vals m)))
  | OClosure prev vars => OClosure (option_map (ren f) prev) (ren f vars)
  | OFun code clo => OFun code (ren f clo)
  | ONullable item => ONullable (ren f item)
  | OSum a b => OSum (ren f a) (ren f b)
  | ONative _ _ | OSMap _ | OForeign _ _ => o
  end.
Definition ren_frame (f : nat -> nat) (fr : vframe) : vframe :=
  mkfr (f_pc fr) (map (ren f) (f_stack fr)) (ren f (f_locals fr)) (option_map (ren f) (f_clo fr)) (f_want fr).

(** What an object refers to. *)
Inductive refers : hobj -> nat -> Prop :=
| ref_item : forall lo l, In (Some (VRef l)) (l_cells lo) -> refers (OList lo) l
| ref_key : forall mo l, In (VRef l) (m_keys mo) -> refers (OMap mo) l
| ref_val : forall mo l, In (VRef l) (m_vals mo) -> refers (OMap mo) l
| ref_prev : forall vars l, refers (OClosure (Some (VRef l)) vars) l
| ref_vars : forall prev l, refers (OClosure prev (VRef l)) l
| ref_clo : forall code l, refers (OFun code (VRef l)) l
| ref_nullable : forall l, refers (ONullable (VRef l)) l
| ref_sum1 : forall b l, refers (OSum (VRef l) b) l
| ref_sum2 : forall a l, refers (OSum a (VRef l)) l.

(** What a frame refers to: its variables, its closure, its values. *)
Definition frame_refers (fr : vframe) (l : nat) : Prop :=
  f_locals fr = VRef l \/ f_clo fr = Some (VRef l) \/ In (VRef l) (f_stack fr).

(** The objects a running program can reach: from runtime->builtins and from every frame. *)
Inductive live (b : option value) (s : vstate) : nat -> Prop :=
| live_builtins : forall l, b = Some (VRef l) -> live b s l
| live_frame : forall fr l, In fr (v_cur s :: v_rest s) -> frame_refers fr l -> live b s l
| live_obj : forall l o l2, live b s l -> nth_error (m_objs (v_mem s)) l = Some o -> refers o l2 -> live b s l2.

(** Whatever can be reached is there. *)
Definition whole (b : option value) (s : vstate) : Prop :=
  forall l, live b s l -> exists o, nth_error (m_objs (v_mem s)) l = Some o.

(** A collection: the live objects get new places, different ones for different objects, where they are found with the places
    they refer to renamed; so do all frames and the builtins. Nothing is said about the other objects, except that the
    store has not become larger. *)
Definition collected (b : option value) (s : vstate) (b' : option value) (s' : vstate) : Prop :=
  exists f,
    (forall l l2, live b s l -> live b s l2 -> f l = f l2 -> l = l2) /\
    (forall l, live b s l -> exists o, nth_error (m_objs (v_mem s)) l = Some o /\
       nth_error (m_objs (v_mem s')) (f l) = Some (ren_obj f o)) /\
    (length (m_objs (v_mem s')) <= length (m_objs (v_mem s)))%nat /\
    m_pend (v_mem s') = m_pend (v_mem s) /\
    b' = option_map (ren f) b /\
    v_codes s' = v_codes s /\
    v_cur s' = ren_frame f (v_cur s) /\
    v_rest s' = map (ren_frame f) (v_rest s).

(** The environment with another builtins object. *)
Definition with_builtins (E : env) (b : option value) : env :=
  mkenv (e_native E) (e_smap E) (e_fselect E) (e_finsert E) b.

(** What the instruction about to run writes to the standard output: something only if it calls the native function print
    (number 7), within the limits. *)
Definition prints (ff : Z -> list Z) (fb : nat -> list Z) (x : executable) (s : vstate) : out (list Z) :=
  match exe_fetch x (f_pc (v_cur s)), f_stack (v_cur s) with
  | ROk (Some (OP_CALL, [PInt argc; PInt want])), VRef l :: r =>
    match nth_error (m_objs (v_mem s)) l with
    | Some (ONative id np) =>
      let args := firstn (Z.to_nat (wrap32 argc)) r in
      if (Nat.eqb id N_print) && (wrap32 argc <=? 32) && (0 <=? wrap32 argc) && (wrap32 argc <=? Z.of_nat (length r)) &&
         (Z.of_nat (length (v_cur s :: v_rest s)) <? MAX_FRAMES)
      then obind (bin_print ff fb (m_objs (v_mem s)) (if np <? 0 then args else adjust np args)) (fun y => OOk (fst y))
      else OOk []
    | _ => OOk []
    end
  | _, _ => OOk []
  end.

(** What at most [n] instructions write, instruction by instruction. *)
Fixpoint written ff fb (E : env) (size : Z) (x : executable) (n : nat) (s : vstate) : list (out (list Z)) :=
  match n with
  | O => []
  | S k => prints ff fb x s :: match step E size x s with SNext t => written ff fb E size x k t | _ => [] end
  end.

(** A run of the machine with collections before any of its instructions, as many as one likes. [gc_run ff fb E size x n b s w r]: at most
    [n] instructions from [s] write [w] and give [r]. *)
Inductive gc_run ff fb (E : env) (size : Z) (x : executable) : nat -> option value -> vstate -> list (out (list Z)) -> sres -> Prop :=
| gr_here : forall b s, gc_run ff fb E size x 0 b s [] (SNext s)
| gr_collect : forall n b s b' s' w r, collected b s b' s' -> gc_run ff fb E size x n b' s' w r -> gc_run ff fb E size x n b s w r
| gr_step : forall n b s s' w r, step (with_builtins E b) size x s = SNext s' -> gc_run ff fb E size x n b s' w r ->
    gc_run ff fb E size x (S n) b s (prints ff fb x s :: w) r
| gr_stop : forall n b s r, step (with_builtins E b) size x s = r -> (forall s', r <> SNext s') ->
    gc_run ff fb E size x (S n) b s [prints ff fb x s] r.

(** * States that differ only in where objects are *)

(** Two values, the places of the second named by those of the first. *)
Inductive vrel (R : nat -> nat -> Prop) : value -> value -> Prop :=
| vr_ref : forall l l', R l l' -> vrel R (VRef l) (VRef l')
| vr_imm : forall v, (forall l, v <> VRef l) -> vrel R v v.

Inductive oprel {A B} (Q : A -> B -> Prop) : option A -> option B -> Prop :=
| or_none : oprel Q None None
| or_some : forall a b, Q a b -> oprel Q (Some a) (Some b).

Inductive orel (R : nat -> nat -> Prop) : hobj -> hobj -> Prop :=
| or_list : forall cap count cells cells', Forall2 (oprel (vrel R)) cells cells' ->
    orel R (OList (mklobj cap count cells)) (OList (mklobj cap count cells'))
| or_map : forall mapper ks ks' vs vs', Forall2 (vrel R) ks ks' -> Forall2 (vrel R) vs vs' ->
    orel R (OMap (mkmap mapper ks vs)) (OMap (mkmap mapper ks' vs'))
| or_clo : forall p p' v v', oprel (vrel R) p p' -> vrel R v v' -> orel R (OClosure p v) (OClosure p' v')
| or_fun : forall c v v', vrel R v v' -> orel R (OFun c v) (OFun c v')
| or_nat : forall id argc, orel R (ONative id argc) (ONative id argc)
| or_nul : forall v v', vrel R v v' -> orel R (ONullable v) (ONullable v')
| or_sum : forall a a' b b', vrel R a a' -> vrel R b b' -> orel R (OSum a b) (OSum a' b')
| or_smap : forall id, orel R (OSMap id) (OSMap id)
| or_for : forall t id, orel R (OForeign t id) (OForeign t id).

(** The two stores hold the same objects at the places [R] connects, each place with one at most. The second store is not
    larger. *)
Definition mrel (R : nat -> nat -> Prop) (m m' : mem) : Prop :=
  (forall l l' k, R l l' -> R l k -> l' = k) /\
  (forall l l' k, R l l' -> R k l' -> l = k) /\
  (forall l l', R l l' -> exists o o', nth_error (m_objs m) l = Some o /\ nth_error (m_objs m') l' = Some o' /\ orel R o o') /\
  m_pend m = m_pend m' /\ (length (m_objs m') <= length (m_objs m))%nat.

Definition ext (R S : nat -> nat -> Prop) : Prop := forall l l', R l l' -> S l l'.

(** Results: the same outcome, with values that differ only in where objects are. What runs out of a bound inside one operation
    is not considered. *)
Definition osim {A B} (Q : A -> B -> Prop) (x : out A) (x' : out B) : Prop :=
  match x' with
  | OOk b => exists a, x = OOk a /\ Q a b
  | OErr => x = OErr
  | OUB => x = OUB
  | OLoop | OFuel => True
  end.

(** After an operation more places may be connected. *)
Definition grows (R : nat -> nat -> Prop) (Q : (nat -> nat -> Prop) -> Prop) : Prop := exists S, ext R S /\ Q S.
Definition rmem (R : nat -> nat -> Prop) (m m' : mem) : Prop := grows R (fun S => mrel S m m').
Definition rval (R : nat -> nat -> Prop) (x x' : value * mem) : Prop :=
  grows R (fun S => mrel S (snd x) (snd x') /\ vrel S (fst x) (fst x')).
Definition ropt (R : nat -> nat -> Prop) (x x' : option value * mem) : Prop :=
  grows R (fun S => mrel S (snd x) (snd x') /\ oprel (vrel S) (fst x) (fst x')).
Definition rvals (R : nat -> nat -> Prop) (x x' : list value * mem) : Prop :=
  grows R (fun S => mrel S (snd x) (snd x') /\ Forall2 (vrel S) (fst x) (fst x')).

(** An environment whose functions do not depend on where objects are. *)
Record blind (E : env) : Prop := {
  bl_native : forall R m m' id argv argv', mrel R m m' -> Forall2 (vrel R) argv argv' ->
    osim (rvals R) (e_native E id argv m) (e_native E id argv' m');
  bl_smap : forall R m m' id key key', mrel R m m' -> vrel R key key' ->
    osim (ropt R) (e_smap E id key m) (e_smap E id key' m');
  bl_fselect : forall R m m' t id key key', mrel R m m' -> vrel R key key' ->
    osim (ropt R) (e_fselect E t id key m) (e_fselect E t id key' m');
  bl_finsert : forall R m m' t id key key' val val', mrel R m m' -> vrel R key key' -> vrel R val val' ->
    osim (rmem R) (e_finsert E t id key val m) (e_finsert E t id key' val' m')
}.

Definition frel (R : nat -> nat -> Prop) (f f' : vframe) : Prop :=
  f_pc f = f_pc f' /\ f_want f = f_want f' /\ Forall2 (vrel R) (f_stack f) (f_stack f') /\
  vrel R (f_locals f) (f_locals f') /\ oprel (vrel R) (f_clo f) (f_clo f').
Definition srel (R : nat -> nat -> Prop) (s s' : vstate) : Prop :=
  mrel R (v_mem s) (v_mem s') /\ v_codes s = v_codes s' /\ frel R (v_cur s) (v_cur s') /\
  Forall2 (frel R) (v_rest s) (v_rest s').

(** Two ends of a run: the same one, and the results differ only in where objects are. *)
Definition same_end (r r' : sres) : Prop :=
  match r' with
  | SNext s' => exists R s, r = SNext s /\ srel R s s'
  | SDone vs' m' => exists R vs m, r = SDone vs m /\ mrel R m m' /\ Forall2 (vrel R) vs vs'
  | SErr => r = SErr | SLimit => r = SLimit | SBad => r = SBad | SUB => r = SUB
  | SLoop => True
  end.

(** The same text, instruction by instruction. If the run with collections is in a recursion without end, the other one goes on
    from there. *)
Definition same_text (w w' : list (out (list Z))) (r' : sres) : Prop :=
  exists w1 more, w = w1 ++ more /\ Forall2 (osim eq) w1 w' /\ (r' <> SLoop -> more = []).

(** * The state as heap.c holds it *)

(** The slots the walk method of an object visits, in order (o_list.c:189-195, o_map.c:193-202, o_closure.c:81-87, run.c:35-39,
    o_nullable.c:61-65, o_sum.c:62-67). *)
Definition held (o : hobj) : list (option value) :=
  match o with
  | OList lo => firstn (Z.to_nat (l_count lo)) (l_cells lo)
  | OMap mo => flat_map (fun kv => [Some (fst kv); Some (snd kv)]) (combine (m_keys mo) (m_vals mo))
  | OClosure prev vars => [prev; Some vars]
  | OFun _ clo => [Some clo]
  | ONullable item => [Some item]
  | OSum a b => [Some a; Some b]
  | ONative _ _ | OSMap _ | OForeign _ _ => []
  end.
(** The roots in the order of runtime.c:728-758: builtins, locals and closure of every frame, all values on the stack. *)
Definition root_values (b : option value) (s : vstate) : list (option value) :=
  b :: flat_map (fun fr => [Some (f_locals fr); f_clo fr]) (v_cur s :: v_rest s) ++ map Some (flat_map f_stack (v_cur s :: v_rest s)).

(** A slot of the heap holds a value: the block of the object, or a block without references and with the contents [sc] gives to
    numbers, strings and the other values that are not references here. *)
Definition vslot (sc : value -> Z) (h : heap) (rep : nat -> nat) (ov : option value) (slot : option nat) : Prop :=
  match ov, slot with
  | None, None => True
  | Some (VRef l), Some a => a = rep l
  | Some v, Some a => exists o, h_mem h a = Some (CObj o) /\ o_refs o = [] /\ o_data o = sc v
  | _, _ => False
  end.
(** The heap holds everything the program can reach, each object in one block, which refers to the blocks of what the object
    refers to and has the contents [tag] gives to everything else in the object. *)
Definition represents (sc : value -> Z) (tag : hobj -> Z) (b : option value) (s : vstate) (h : heap) (rep : nat -> nat) (roots : list (option nat)) : Prop :=
  (forall l, live b s l -> exists ho o, nth_error (m_objs (v_mem s)) l = Some ho /\ h_mem h (rep l) = Some (CObj o) /\
     o_data o = tag ho /\ Forall2 (vslot sc h rep) (held ho) (o_refs o) /\ (forall k, refers ho k -> In (Some (VRef k)) (held ho))) /\
  (forall l k, live b s l -> live b s k -> rep l = rep k -> l = k) /\
  Forall2 (vslot sc h rep) (root_values b s) roots.
