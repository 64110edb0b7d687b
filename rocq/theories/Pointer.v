(** Model of [src/tagged_pointer.rs]: [TaggedPointer]. *)
From Coq Require Import NArith List String Bool.
From Verif Require Import Words Config.
Import ListNotations.
Local Open Scope N_scope.

(** What the compiled crate depends on besides its source: the setting, whether
    [debug_assertions] are on (debug profile) and the pointer width of the target
    ([/repo/src/lib.rs:173-174] allows 32 and 64). *)
Record target : Type := Target {
  cfg : config;
  debug_assertions : bool;
  ptr_bits : N
}.

(** The settings of [/repo/src/discriminant.rs:71-88] and the pointer widths [/repo/src/lib.rs:173-174] allows. *)
Definition target_ok (t : target) : Prop :=
  In (cfg t) table /\ (ptr_bits t = 32 \/ ptr_bits t = 64).

(** Panics of the crate, with the data shown in the message.
    The lines are given with each. For [/repo/src/tagged_pointer.rs:29-48]. *)
Inductive panic : Type :=
| PanicDiscriminant (d max : N)          (* tagged_pointer.rs:30-35 *)
| PanicPointer (width suggested : N)     (* tagged_pointer.rs:36-43 *)
| PanicNullAlloc                         (* tagged_box.rs:93, 186 *)
| PanicCloneExpect                       (* tagged_box.rs:527-528 *)
| PanicNoVariantInto                     (* tagged_box_macro/mod.rs:258 *)
| PanicNoVariantFrom (total d : N)       (* tagged_box_macro/mod.rs:366-374 *)
| PanicNoVariantRef (total d : N)        (* tagged_box_macro/mod.rs:504-512 *)
| PanicUser (msg : string).              (* raised by user code called by the crate *)

(** Result of a function that may panic and has no other effect.
    For [/repo/src/tagged_pointer.rs:29-48] and for user code. *)
Inductive outcome (A : Type) : Type :=
| Done (a : A)
| Panics (p : panic).
Arguments Done {A} a.
Arguments Panics {A} p.

(** A [TaggedPointer] is its raw word: [/repo/src/tagged_pointer.rs:12-15],
    [#[repr(transparent)] struct TaggedPointer { tagged_ptr: u64 }]. *)
Definition tagged_ptr : Type := N.

Section TaggedPointer.
Variable t : target.
Let c := cfg t.

(** [/repo/src/tagged_pointer.rs:130-132]. *)
Definition store_discriminant (pointer d : N) : N :=
  N.lor pointer (shl64 d (pointer_width c)).

(** [/repo/src/tagged_pointer.rs:138-140]: [(pointer >> POINTER_WIDTH) as Discriminant]. *)
Definition fetch_discriminant (pointer : N) : N :=
  cast (disc_ty_bits c) (shr64 pointer (pointer_width c)).

(** [/repo/src/tagged_pointer.rs:146-148]. *)
Definition strip_discriminant (pointer : N) : N :=
  N.land pointer (discriminant_mask c).

(** [/repo/src/tagged_pointer.rs:29-48]. The two [debug_assert!]s are compiled only with
    [debug_assertions]; they are evaluated in this order. *)
Definition tp_new (ptr d : N) : outcome tagged_ptr :=
  if debug_assertions t && negb (d <=? max_discriminant c) then
    Panics (PanicDiscriminant d (max_discriminant c))
  else if debug_assertions t && negb (ptr <=? max_pointer_value c) then
    Panics (PanicPointer (pointer_width c) (pointer_width c + 1))
  else
    Done (store_discriminant ptr d).

(** [/repo/src/tagged_pointer.rs:51-55]; [align] is [align_of::<T>()]. *)
Definition tp_dangling (align d : N) : tagged_ptr :=
  store_discriminant align d.

(** [/repo/src/tagged_pointer.rs:61-63]. *)
Definition tp_discriminant (p : tagged_ptr) : N := fetch_discriminant p.

(** [/repo/src/tagged_pointer.rs:92-94]. *)
Definition tp_as_u64 (p : tagged_ptr) : N := strip_discriminant p.

(** [/repo/src/tagged_pointer.rs:103-105]. *)
Definition tp_as_raw_u64 (p : tagged_ptr) : N := p.

(** [/repo/src/tagged_pointer.rs:109-111]: [u64 as *const T] truncates on 32-bit targets. *)
Definition tp_as_ptr (p : tagged_ptr) : N := cast (ptr_bits t) (strip_discriminant p).

(** [/repo/src/tagged_pointer.rs:115-117]. *)
Definition tp_as_mut_ptr (p : tagged_ptr) : N := cast (ptr_bits t) (strip_discriminant p).

(** The address behind [as_ref], [/repo/src/tagged_pointer.rs:74-76]. *)
Definition tp_ref_addr (p : tagged_ptr) : N := cast (ptr_bits t) (strip_discriminant p).

(** The address behind [as_mut_ref], [/repo/src/tagged_pointer.rs:86-88]. *)
Definition tp_mut_ref_addr (p : tagged_ptr) : N := cast (ptr_bits t) (strip_discriminant p).

End TaggedPointer.

(** Derived impls, [/repo/src/tagged_pointer.rs:10] on the single field. *)
Definition tp_eq (p q : tagged_ptr) : bool := p =? q.
(** Derived, [/repo/src/tagged_pointer.rs:10]. *)
Definition tp_cmp (p q : tagged_ptr) : comparison := p ?= q.
(** Derived, [/repo/src/tagged_pointer.rs:10]. *)
Definition tp_partial_cmp (p q : tagged_ptr) : option comparison := Some (p ?= q).
(** Derived [Hash], [/repo/src/tagged_pointer.rs:10], feeds the field to the hasher with [write_u64]. *)
Definition tp_hash_input (p : tagged_ptr) : list N := [p].
