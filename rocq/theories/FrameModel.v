(** Model of the frame handling of src/lib/runtime.c over the pointer stack of src/lib/utils/stack.c. *)
From Coq Require Import ZArith List Lia Bool.
From Verif Require Import Base StringModel UtilModel.
Import ListNotations.
Open Scope Z_scope.

(** runtime.c:40-72 Frame: normal frames carry the number of stack values they own. Locals, closure and executable are not
    needed here (see VmModel); a failed frame only records a source position. *)
Inductive frame := FNormal (used : Z) | FNative | FFailed.

(** runtime.c:74-92 xRuntime: depth, frame chain (innermost first), stack. *)
Record frt (A : Type) := mkfrt { ft_depth : Z; ft_frames : list frame; ft_stack : stack A }.
Arguments mkfrt {A}. Arguments ft_depth {A}. Arguments ft_frames {A}. Arguments ft_stack {A}.

(** runtime.c:41-42 MAX_FRAME_STACK and MAX_FRAMES. *)
Definition MAX_FRAMES : Z := 16.
(** runtime.c:41. *)
Definition MAX_FRAME_STACK : Z := 16.

(** runtime.c: Runtime_New3 with an empty stack of the configured size. *)
Definition frt_new {A} (stack_size : Z) : frt A := mkfrt 0 [] (stack_new stack_size).

(** runtime.c:396-434 Runtime_Push. [RErr] = error reported (state unchanged). *)
Definition rt_push {A} (r : frt A) (x : A) : res (frt A) :=
  match ft_frames r with
  | [] => RErr
  | FNative :: _ => RErr
  | FFailed :: _ => RErr
  | FNormal used :: fs =>
    if used =? MAX_FRAME_STACK then RErr else
    match stack_push (ft_stack r) x with
    | ROk (Some s) => ROk (mkfrt (ft_depth r) (FNormal (used + 1) :: fs) s)
    | ROk None => RErr
    | _ => RUB
    end
  end.

(** runtime.c:468-470: p[i] = Stack_Top(stack, -i) for i = 0..n-1; a NULL is stored when there is no such value. *)
Fixpoint read_tops {A} (s : stack A) (i : nat) (n : nat) : res (list (option A)) :=
  match n with
  | O => ROk []
  | S n' =>
    match stack_top s (- Z.of_nat i) with
    | ROk x => match read_tops s (S i) n' with ROk l => ROk (x :: l) | RErr => RErr | RUB => RUB end
    | _ => RUB
    end
  end.

(** runtime.c:436-481 Runtime_Pop ([n] is unsigned; [used] is compared after conversion to unsigned). *)
Definition rt_pop {A} (r : frt A) (n : Z) : res (frt A * list (option A)) :=
  match ft_frames r with
  | [] => RErr
  | FNative :: _ => RErr
  | FFailed :: _ => RErr
  | FNormal used :: fs =>
    if used <? n then RErr else
    match read_tops (ft_stack r) 0 (Z.to_nat n) with
    | ROk l =>
      let s := match stack_pop (ft_stack r) n with Some s => s | None => ft_stack r end in
      ROk (mkfrt (ft_depth r) (FNormal (used - n) :: fs) s, l)
    | _ => RUB
    end
  end.

(** runtime.c:483-497 Runtime_Top ([n] <= 0); [None] = NULL. A NULL runtime->frame is dereferenced. *)
Definition rt_top {A} (r : frt A) (n : Z) : res (option A) :=
  match ft_frames r with
  | [] => RUB
  | FNormal used :: _ => if used + n <=? 0 then ROk None else stack_top (ft_stack r) n
  | _ => ROk None
  end.

(** runtime.c:599-609 appendFrame. *)
Definition append_frame {A} (r : frt A) (f : frame) : res (frt A) :=
  if ft_depth r =? MAX_FRAMES then RErr else ROk (mkfrt (ft_depth r + 1) (f :: ft_frames r) (ft_stack r)).

(** runtime.c:651-686 Runtime_PushFrame, 633-649 Runtime_PushNativeFrame, 611-631 Runtime_PushFailedFrame. *)
Definition rt_push_frame {A} (r : frt A) := append_frame r (FNormal 0).
(** runtime.c:633-649 Runtime_PushNativeFrame. *)
Definition rt_push_native {A} (r : frt A) := append_frame r FNative.
(** runtime.c:611-631 Runtime_PushFailedFrame. *)
Definition rt_push_failed {A} (r : frt A) := append_frame r FFailed.

(** runtime.c:688-716 Runtime_PopFrame: the result of Stack_Pop is ignored. *)
Definition rt_pop_frame {A} (r : frt A) : res (frt A) :=
  match ft_frames r with
  | [] => RErr
  | FNormal used :: fs =>
    let s := match stack_pop (ft_stack r) used with Some s => s | None => ft_stack r end in
    ROk (mkfrt (ft_depth r - 1) fs s)
  | _ :: fs => ROk (mkfrt (ft_depth r - 1) fs (ft_stack r))
  end.

(** runtime.c:396-716: One request to the runtime and what the caller gets. *)
Inductive fop (A : Type) := OPush (x : A) | OPop (n : Z) | OTop (n : Z) | OEnter | ONativeF | OFail | OLeave.
Arguments OPush {A}. Arguments OPop {A}. Arguments OTop {A}. Arguments OEnter {A}. Arguments ONativeF {A}. Arguments OFail {A}. Arguments OLeave {A}.
(** runtime.c:396-716, the results of these functions. *)
Inductive fout (A : Type) := Done | Refused | Values (l : list (option A)).
Arguments Done {A}. Arguments Refused {A}. Arguments Values {A}.

(** runtime.c:396-716, one call. *)
Definition fstep {A} (r : frt A) (o : fop A) : res (frt A * fout A) :=
  let keep (x : res (frt A)) := match x with ROk r' => ROk (r', Done) | RErr => ROk (r, Refused) | RUB => RUB end in
  match o with
  | OPush x => keep (rt_push r x)
  | OPop n => match rt_pop r n with ROk (r', l) => ROk (r', Values l) | RErr => ROk (r, Refused) | RUB => RUB end
  | OTop n => match rt_top r n with ROk x => ROk (r, Values [x]) | RErr => ROk (r, Refused) | RUB => RUB end
  | OEnter => keep (rt_push_frame r)
  | ONativeF => keep (rt_push_native r)
  | OFail => keep (rt_push_failed r)
  | OLeave => keep (rt_pop_frame r)
  end.

(** runtime.c:396-716, a sequence of calls. *)
Fixpoint fsteps {A} (r : frt A) (ops : list (fop A)) : res (frt A * list (fout A)) :=
  match ops with
  | [] => ROk (r, [])
  | o :: rest =>
    match fstep r o with
    | ROk (r', out) => match fsteps r' rest with ROk (r2, outs) => ROk (r2, out :: outs) | RErr => RErr | RUB => RUB end
    | _ => RUB
    end
  end.
