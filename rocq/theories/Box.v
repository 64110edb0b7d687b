(** Model of [src/tagged_box.rs]: [TaggedBox<T>]. A box is the raw word of its [TaggedPointer]
    ([/repo/src/tagged_box.rs:15-19], [repr(transparent)]); the type parameter [T] has no run-time
    content. A stored type [U] is a heap type [hty]. *)
From Coq Require Import NArith String Bool List.
From Verif Require Import Words Config Pointer Fmt Mem.
Import ListNotations.
Local Open Scope N_scope.
Local Open Scope m_scope.

(** What the code runs in: the compiled target, the allocator, and the compiler's layout of Rust
    tuples ([repr(Rust)], unspecified by the language).
    Used in [/repo/src/tagged_box.rs:82-104] and [/repo/src/tagged_box_macro/mod.rs:290-304]. *)
Record env : Type := Env {
  tgt : target;
  alloc_fn : allocator;
  tuple_layout : list rty -> hty
}.

Section TaggedBox.
Variable E : env.
Let t := tgt E.

(** [/repo/src/tagged_box.rs:203-208]: [dangling::<U>]; [align] is [align_of::<U>()]. *)
Definition tb_dangling (align d : N) : tagged_ptr := tp_dangling t align d.

(** [/repo/src/tagged_box.rs:82-104]: [TaggedBox::new::<U>(val, discriminant)].
    For a zero-sized type [val] is still owned by the function and is dropped when it returns.
    When [alloc] returns null the [assert!] panics and [val] is dropped by unwinding. Once
    [ptr.write(val)] ran the value is owned by the block; a panic of [TaggedPointer::new] leaves
    both behind. *)
Definition tb_new (U : hty) (val : hval) (d : N) : M tagged_ptr :=
  if h_size U =? 0 then
    drop_hval U val ;;
    ret (tb_dangling (h_align U) d)
  else
    p <- alloc (alloc_fn E) (h_size U) (h_align U) ;;
    match p with
    | None => drop_hval U val ;; raise PanicNullAlloc
    | Some ptr =>
        write_at U ptr val ;;
        of_outcome (tp_new t ptr d)
    end.

(** [/repo/src/tagged_box.rs:175-197]: [new_unchecked], a separate copy of the same body. *)
Definition tb_new_unchecked (U : hty) (val : hval) (d : N) : M tagged_ptr :=
  if h_size U =? 0 then
    drop_hval U val ;;
    ret (tb_dangling (h_align U) d)
  else
    p <- alloc (alloc_fn E) (h_size U) (h_align U) ;;
    match p with
    | None => drop_hval U val ;; raise PanicNullAlloc
    | Some ptr =>
        write_at U ptr val ;;
        of_outcome (tp_new t ptr d)
    end.

(** [/repo/src/tagged_box.rs:419-421]. *)
Definition tb_discriminant (w : tagged_ptr) : N := tp_discriminant t w.

(** [/repo/src/tagged_box.rs:443-445], [470-472], [478-480]. *)
Definition tb_as_ptr (w : tagged_ptr) : N := tp_as_ptr t w.
(** [/repo/src/tagged_box.rs:470-472]. *)
Definition tb_as_mut_ptr (w : tagged_ptr) : N := tp_as_mut_ptr t w.
(** [/repo/src/tagged_box.rs:478-480]. *)
Definition tb_as_u64 (w : tagged_ptr) : N := tp_as_u64 t w.

(** [/repo/src/tagged_box.rs:235-237]: [as_ref::<U>]; modelled as the value seen through the
    reference (a reference must be non-null, aligned, in bounds and point to a valid value). *)
Definition tb_as_ref (U : hty) (w : tagged_ptr) : M hval := read_at U (tp_ref_addr t w).

(** [/repo/src/tagged_box.rs:267-269]: client code changing the value in place through
    [as_mut_ref::<U>()] (e.g. [*b.as_mut_ref() *= 100] or [.push_str(..)]) by any function [f]. *)
Definition tb_modify (U : hty) (w : tagged_ptr) (f : hval -> hval) : M unit :=
  v <- read_at U (tp_mut_ref_addr t w) ;;
  write_at U (tp_mut_ref_addr t w) (f v).

(** Client code [*b.as_mut_ref::<U>() = val]: Rust drops the old value and moves in the new one.
    [as_mut_ref] is [/repo/src/tagged_box.rs:267-269]. *)
Definition tb_assign (U : hty) (w : tagged_ptr) (val : hval) : M unit :=
  old <- read_at U (tp_mut_ref_addr t w) ;;
  drop_hval U old ;;
  write_at U (tp_mut_ref_addr t w) val.

(** Client code [*p = val] for a pointer [p] from [as_mut_ptr] or [into_raw]: the same.
    [as_mut_ptr], [into_raw] are [/repo/src/tagged_box.rs:470-472], [324-326]. *)
Definition assign_at (U : hty) (p : N) (val : hval) : M unit :=
  old <- read_at U p ;;
  drop_hval U old ;;
  write_at U p val.

(** [/repo/src/tagged_box.rs:297-300]: [into_inner::<U>]: reads the value through [as_mut_ptr]; the
    [ManuallyDrop] around the box has no effect since [TaggedBox] has no destructor. *)
Definition tb_into_inner (U : hty) (w : tagged_ptr) : M hval := read_at U (tb_as_mut_ptr w).

(** [/repo/src/tagged_box.rs:324-326]. *)
Definition tb_into_raw (w : tagged_ptr) : N := tp_as_mut_ptr t w.

(** [/repo/src/tagged_box.rs:398-403]; [raw as u64] zero-extends. *)
Definition tb_from_raw (raw d : N) : M tagged_ptr := of_outcome (tp_new t raw d).

(** [/repo/src/tagged_box.rs:354-359]: [Box::from_raw(into_raw(tagged))]; a Rust [Box<U>] is its
    address. *)
Definition tb_into_box (w : tagged_ptr) : N := tb_into_raw w.

(** Dropping a [TaggedBox]: there is no [Drop] impl in [/repo/src/tagged_box.rs] and its fields have
    no destructor, so nothing happens. [/repo/src/tagged_box.rs:15-19]. *)
Definition tb_drop (w : tagged_ptr) : M unit := ret tt.

(** [/repo/src/lib.rs:189-197] instantiated at [/repo/src/tagged_box.rs:591]. *)
Definition tb_fmt (k : radix) (o : fmt_opts) (w : tagged_ptr) : string := fmt_u64 k o (tb_as_u64 w).

End TaggedBox.

(** ** Rust's [Box<U>] (alloc crate), used by [into_box] clients *)

(** Dropping a [Box<U>] at address [p]: destroy the contents, free the block.
    For the [Box] of [/repo/src/tagged_box.rs:354-359]. *)
Definition rbox_drop (U : hty) (p : N) : M unit :=
  v <- read_at U p ;;
  drop_hval U v ;;
  (if h_size U =? 0 then ret tt else dealloc p (h_size U) (h_align U)).

(** [*b]: looking at the contents of a [Box]. For the [Box] of [/repo/src/tagged_box.rs:354-359]. *)
Definition rbox_get (U : hty) (p : N) : M hval := read_at U p.

(** Moving the contents out of a [Box] ([let x = *b;]) frees the block without dropping the value.
    For the [Box] of [/repo/src/tagged_box.rs:354-359]. *)
Definition rbox_unbox (U : hty) (p : N) : M hval :=
  v <- read_at U p ;;
  (if h_size U =? 0 then ret tt else dealloc p (h_size U) (h_align U)) ;;
  ret v.

(** ** Trait impls of [TaggedBox<T>] for [T: TaggableInner] *)

(** [/repo/src/taggable.rs:29-52]: the trait [TaggableInner] for an enum with values [V].
    [ref_from] takes the closure together with the variable it captures and mutates (of any type
    [S]): running it returns the captured variable's final value. *)
Record taggable (V : Type) : Type := Taggable {
  into_tagged_box : V -> M tagged_ptr;
  from_tagged_box : tagged_ptr -> M V;
  ref_from_tagged_box : forall S : Type, tagged_ptr -> (V -> S -> M S) -> S -> M S
}.
Arguments into_tagged_box {V} _ _.
Arguments from_tagged_box {V} _ _.
Arguments ref_from_tagged_box {V} _ {S} _ _ _.

Section Traits.
Context {V : Type}.
Variable I : taggable V.

(** [/repo/src/tagged_box.rs:515-531]; [clone] is the user's [Clone] for the enum. *)
Definition tb_clone (clone : V -> M V) (w : tagged_ptr) : M tagged_ptr :=
  output <- ref_from_tagged_box I w (fun this _ => c <- clone this ;; ret (Some c)) None ;;
  match output with
  | None => raise PanicCloneExpect
  | Some v => into_tagged_box I v
  end.

(** [/repo/src/tagged_box.rs:535-551]. *)
Definition tb_eq (eqf : V -> V -> M bool) (a b : tagged_ptr) : M bool :=
  ref_from_tagged_box I a (fun this eq =>
    ref_from_tagged_box I b (fun other eq => eqf this other) eq) false.

(** [/repo/src/tagged_box.rs:555-571]. *)
Definition tb_partial_cmp (pcmp : V -> V -> M (option comparison)) (a b : tagged_ptr)
  : M (option comparison) :=
  ref_from_tagged_box I a (fun this cmp =>
    ref_from_tagged_box I b (fun other cmp => pcmp this other) cmp) None.

(** [/repo/src/tagged_box.rs:573-589]. *)
Definition tb_cmp (cmpf : V -> V -> M comparison) (a b : tagged_ptr) : M comparison :=
  ref_from_tagged_box I a (fun this cmp =>
    ref_from_tagged_box I b (fun other cmp => cmpf this other) cmp) Eq.

(** A user's fmt impl: options, value and output written so far give the output and whether it
    succeeded. Called in [/repo/src/tagged_box.rs:491], [507]. *)
Definition fmt_impl : Type := fmt_opts -> V -> string -> M (string * bool).

(** [/repo/src/tagged_box.rs:483-497]: [write!(f, "{:?}", this)] formats [this] with default options. *)
Definition tb_debug (dbg : fmt_impl) (o : fmt_opts) (w : tagged_ptr) (out : string) : M (string * bool) :=
  ref_from_tagged_box I w (fun this r => dbg default_opts this (fst r)) (out, true).

(** [/repo/src/tagged_box.rs:499-513]: [write!(f, "{}", this)]. *)
Definition tb_display (disp : fmt_impl) (o : fmt_opts) (w : tagged_ptr) (out : string) : M (string * bool) :=
  ref_from_tagged_box I w (fun this r => disp default_opts this (fst r)) (out, true).

End Traits.

(** [/repo/src/tagged_box.rs:533]: [impl Copy for TaggedBox<T> where T: Copy]: a bitwise copy. *)
Definition tb_copy (w : tagged_ptr) : tagged_ptr := w.
