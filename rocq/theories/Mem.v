(** The part of the Rust abstract machine the crate's code touches: byte memory, live heap blocks,
    an event log (allocations, deallocations, destructor runs), and the outcomes of running code.

    This file models Rust, not a file of the repository; the crate's functions are in [Box.v] and
    [Macro.v]. Not modelled: aliasing rules. Pointers are addresses; [Provenance.v] adds what
    block they are for. One thread; several are in [Threads.v]. *)
From Coq Require Import NArith String Bool List.
From Verif Require Import Words Config Pointer.
Import ListNotations.
Local Open Scope N_scope.

(** ** Bytes, types, values *)

(** A byte of memory: uninitialised or holding a value.
    Rust, for all of the memory the crate touches. Of the machine under [/repo/src/tagged_box.rs:82-480], not code of the repository. *)
Inductive mbyte : Type := Undef | Byte (b : N).

(** The bytes of one value (of a field type), [ty_size] of them.
    The [val: U] of [/repo/src/tagged_box.rs:82]. *)
Definition leafval : Type := list mbyte.

(** A Rust type of a field or payload, as far as moving its values goes: name, size, alignment,
    which byte strings are valid values, whether it has a destructor, whether it is [Copy].
    The [U] of [/repo/src/tagged_box.rs:82], the [$ty:ty] of [/repo/src/tagged_box_macro/mod.rs:10]. *)
Record rty : Type := Ty {
  ty_name : string;
  ty_size : N;
  ty_align : N;
  ty_valid : leafval -> bool;
  ty_drop : bool;
  ty_copy : bool
}.

(** [v] is a value of type [t]. As [val: U] in [/repo/src/tagged_box.rs:82]. *)
Definition has_type (t : rty) (v : leafval) : Prop :=
  length v = N.to_nat (ty_size t) /\ ty_valid t v = true.

(** A type as stored in the heap: its fields in declaration order, each with its offset.
    [Layout::new::<U>()], [/repo/src/tagged_box.rs:86]. *)
Record hty : Type := Hty {
  h_size : N;
  h_align : N;
  h_fields : list (N * rty)
}.

(** A value of a heap type: its field values in declaration order.
    The [val: U] of [/repo/src/tagged_box.rs:82] with the fields apart. *)
Definition hval : Type := list leafval.

(** The field types. Of the machine under [/repo/src/tagged_box.rs:82-480], not code of the repository. *)
Definition h_types (H : hty) : list rty := map snd (h_fields H).
(** As [val: U] in [/repo/src/tagged_box.rs:82]. *)
Definition hval_ok (H : hty) (vs : hval) : Prop := Forall2 has_type (h_types H) vs.

(** A single (non-struct) type stored directly. As [U = $ty] in [/repo/src/tagged_box_macro/mod.rs:45]. *)
Definition leaf_hty (t : rty) : hty := Hty (ty_size t) (ty_align t) [(0, t)].

(** Rust's [Layout::padding_needed_for] added: the next multiple of [a]. Of the machine under [/repo/src/tagged_box.rs:82-480], not code of the repository. *)
Definition align_up (x a : N) : N := ((x + a - 1) / a) * a.

(** [#[repr(C)]] struct layout: fields in declaration order, each at the next aligned offset; the
    size is rounded up to the alignment.
    Of the local structs, [/repo/src/tagged_box_macro/mod.rs:61-64], [204-205]. *)
Fixpoint reprC_fields (cur : N) (tys : list rty) : list (N * rty) * N :=
  match tys with
  | [] => ([], cur)
  | t :: r =>
      let off := align_up cur (ty_align t) in
      let (fs, e) := reprC_fields (off + ty_size t) r in
      ((off, t) :: fs, e)
  end.

(** Alignment of a [repr(C)] struct: the largest of its fields, [/repo/src/tagged_box_macro/mod.rs:61-64]. *)
Definition max_align (tys : list rty) : N := fold_right (fun t a => N.max (ty_align t) a) 1 tys.

(** Layout of a [repr(C)] struct, [/repo/src/tagged_box_macro/mod.rs:61-64], [204-205]. *)
Definition reprC (tys : list rty) : hty :=
  let (fs, e) := reprC_fields 0 tys in
  Hty (align_up e (max_align tys)) (max_align tys) fs.

(** ** State *)

(** A block of the global allocator, [/repo/src/tagged_box.rs:92]. *)
Record block : Type := Block { b_base : N; b_size : N; b_align : N }.

(** Calls of the allocator ([/repo/src/tagged_box.rs:92]) and destructors run; for statements only, the code does not see it. *)
Inductive event : Type :=
| EvAlloc (base size align : N)
| EvDealloc (base size align : N)
| EvDrop (ty : string) (v : leafval).   (* the destructor of this value ran *)

(** The state the code runs in. Of the machine under [/repo/src/tagged_box.rs:82-480], not code of the repository. *)
Record st : Type := St {
  bytes : N -> mbyte;
  blocks : list block;       (* live heap blocks *)
  events : list event        (* oldest first *)
}.

(** An event happens. Of the machine under [/repo/src/tagged_box.rs:82-480], not code of the repository. *)
Definition log (e : event) (s : st) : st := St (bytes s) (blocks s) (events s ++ [e]).

(** The kinds of undefined behaviour checked for: reading or writing (the first four), freeing, and code the compiler would not accept. Of the machine under [/repo/src/tagged_box.rs:82-480], not code of the repository. *)
Inductive ub : Type :=
| UbNull | UbMisaligned | UbOutOfBlock | UbInvalidValue | UbBadDealloc | UbIllTyped.

(** Outcome of running code in a state. After a panic the state is the one after unwinding.
    Rust, for all functions of the crate. Of the machine under [/repo/src/tagged_box.rs:82-480], not code of the repository. *)
Inductive res (A : Type) : Type :=
| Ok (a : A) (s : st)
| Panicked (p : panic) (s : st)
| UB (u : ub).
Arguments Ok {A} a s.
Arguments Panicked {A} p s.
Arguments UB {A} u.

(** Code that runs in a state. Of the machine under [/repo/src/tagged_box.rs:82-480], not code of the repository. *)
Definition M (A : Type) : Type := st -> res A.

(** Code that just returns. Of the machine under [/repo/src/tagged_box.rs:82-480], not code of the repository. *)
Definition ret {A} (a : A) : M A := fun s => Ok a s.
(** Sequence; a panic or undefined behaviour ends it. Of the machine under [/repo/src/tagged_box.rs:82-480], not code of the repository. *)
Definition bind {A B} (m : M A) (f : A -> M B) : M B := fun s =>
  match m s with
  | Ok a s' => f a s'
  | Panicked p s' => Panicked p s'
  | UB u => UB u
  end.
(** A panic. Of the machine under [/repo/src/tagged_box.rs:82-480], not code of the repository. *)
Definition raise {A} (p : panic) : M A := fun s => Panicked p s.
(** Undefined behaviour. Of the machine under [/repo/src/tagged_box.rs:82-480], not code of the repository. *)
Definition undefined {A} (u : ub) : M A := fun _ => UB u.
(** Code without effects, as [/repo/src/tagged_pointer.rs:29-48]. *)
Definition of_outcome {A} (o : outcome A) : M A :=
  match o with Done a => ret a | Panics p => raise p end.

Declare Scope m_scope.
Delimit Scope m_scope with M.
Notation "x <- m ;; k" := (bind m (fun x => k)) (at level 61, m at next level, right associativity) : m_scope.
Notation "m ;; k" := (bind m (fun _ => k)) (at level 61, right associativity) : m_scope.
Local Open Scope m_scope.

(** ** Memory operations *)

(** The [n] bytes at [a]. Of the machine under [/repo/src/tagged_box.rs:82-480], not code of the repository. *)
Fixpoint load (m : N -> mbyte) (a : N) (n : nat) : leafval :=
  match n with O => [] | S k => m a :: load m (a + 1) k end.

(** Memory with the bytes [l] at [a]. Of the machine under [/repo/src/tagged_box.rs:82-480], not code of the repository. *)
Fixpoint store (m : N -> mbyte) (a : N) (l : leafval) : N -> mbyte :=
  match l with
  | [] => m
  | b :: r => fun x => if x =? a then b else store m (a + 1) r x
  end.

(** Memory with [n] uninitialised bytes at [a]. Of the machine under [/repo/src/tagged_box.rs:82-480], not code of the repository. *)
Definition undef_range (m : N -> mbyte) (a n : N) : N -> mbyte :=
  fun x => if (a <=? x) && (x <? a + n) then Undef else m x.

(** Are the [n] bytes at [p] in block [b]? Of the machine under [/repo/src/tagged_box.rs:82-480], not code of the repository. *)
Definition block_contains (p n : N) (b : block) : bool :=
  (b_base b <=? p) && (p + n <=? b_base b + b_size b).

(** May [n] bytes at [p] be accessed? Zero-sized accesses need no block.
    As in [ptr.read()], [/repo/src/tagged_box.rs:299]. *)
Definition accessible (s : st) (p n : N) : bool :=
  (n =? 0) || existsb (block_contains p n) (blocks s).

(** What an access at type [H] needs, as in [ptr.read()], [/repo/src/tagged_box.rs:299]. *)
Definition check_access (H : hty) (p : N) : M unit := fun s =>
  if p =? 0 then UB UbNull
  else if negb (p mod h_align H =? 0) then UB UbMisaligned
  else if negb (accessible s p (h_size H)) then UB UbOutOfBlock
  else Ok tt s.

(** [ptr.read()], [/repo/src/tagged_box.rs:299], field by field; [None]: invalid bytes. *)
Fixpoint read_fields (m : N -> mbyte) (p : N) (fs : list (N * rty)) : option hval :=
  match fs with
  | [] => Some []
  | (off, t) :: r =>
      let v := load m (p + off) (N.to_nat (ty_size t)) in
      if ty_valid t v then
        match read_fields m p r with Some vs => Some (v :: vs) | None => None end
      else None
  end.

(** [ptr.read()] of a value of type [H] at [p] (a bitwise copy; memory is unchanged).
    As in [/repo/src/tagged_box.rs:299]. *)
Definition read_at (H : hty) (p : N) : M hval :=
  check_access H p ;;
  fun s => match read_fields (bytes s) p (h_fields H) with
           | Some vs => Ok vs s
           | None => UB UbInvalidValue
           end.

(** [ptr.write(val)], [/repo/src/tagged_box.rs:94], field by field. *)
Fixpoint write_fields (m : N -> mbyte) (p : N) (fs : list (N * rty)) (vs : hval) : N -> mbyte :=
  match fs, vs with
  | (off, _) :: r, v :: vr => write_fields (store m (p + off) v) p r vr
  | _, _ => m
  end.

(** [ptr.write(val)]: padding becomes uninitialised. As in [/repo/src/tagged_box.rs:94]. *)
Definition write_mem (H : hty) (p : N) (vs : hval) (m : N -> mbyte) : N -> mbyte :=
  write_fields (undef_range m p (h_size H)) p (h_fields H) vs.

(** [ptr.write(val)], [/repo/src/tagged_box.rs:94]. *)
Definition write_at (H : hty) (p : N) (vs : hval) : M unit :=
  check_access H p ;;
  fun s => Ok tt (St (write_mem H p vs (bytes s)) (blocks s) (events s)).

(** Drop glue: destructors of the fields in declaration order; only types with a destructor leave
    a trace. Destructors are assumed not to panic and not to touch memory of live blocks.
    Rust, for [val] in [/repo/src/tagged_box.rs:82-104] and for client code. *)
Fixpoint drop_events (tys : list rty) (vs : hval) : list event :=
  match tys, vs with
  | t :: tr, v :: vr => (if ty_drop t then [EvDrop (ty_name t) v] else []) ++ drop_events tr vr
  | _, _ => []
  end.

(** A value goes out of scope, as [val] in [/repo/src/tagged_box.rs:84], [93]. *)
Definition drop_hval (H : hty) (vs : hval) : M unit := fun s =>
  Ok tt (St (bytes s) (blocks s) (events s ++ drop_events (h_types H) vs)).

(** ** The allocator *)

(** The global allocator: any function of the whole state (its [events] hold the whole history), the
    size and the alignment; [None] is a null result. Called in [/repo/src/tagged_box.rs:92], [185]. *)
Definition allocator : Type := st -> N -> N -> option N.

(** [alloc::alloc::alloc(layout)]. [/repo/src/tagged_box.rs:92], [185]. *)
Definition alloc (A : allocator) (size align : N) : M (option N) := fun s =>
  match A s size align with
  | None => Ok None s
  | Some p =>
      Ok (Some p)
         (St (undef_range (bytes s) p size) (Block p size align :: blocks s)
             (events s ++ [EvAlloc p size align]))
  end.

(** Same block. Of the machine under [/repo/src/tagged_box.rs:82-480], not code of the repository. *)
Definition block_eqb (x y : block) : bool :=
  (b_base x =? b_base y) && (b_size x =? b_size y) && (b_align x =? b_align y).

(** The block is gone. Of the machine under [/repo/src/tagged_box.rs:82-480], not code of the repository. *)
Fixpoint remove_block (b : block) (l : list block) : list block :=
  match l with
  | [] => []
  | x :: r => if block_eqb x b then r else x :: remove_block b r
  end.

(** [alloc::alloc::dealloc(p, layout)]: the block must be live with exactly this layout.
    Called by [Box<U>] made in [/repo/src/tagged_box.rs:358]. *)
Definition dealloc (p size align : N) : M unit := fun s =>
  if existsb (fun x => block_eqb x (Block p size align)) (blocks s) then
    Ok tt (St (bytes s) (remove_block (Block p size align) (blocks s))
              (events s ++ [EvDealloc p size align]))
  else UB UbBadDealloc.
