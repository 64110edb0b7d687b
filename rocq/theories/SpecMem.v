(** Specifications about types, layouts, the allocator and memory used in the property theorems. *)
From Coq Require Import NArith String Bool List.
From Verif Require Import Words Config Spec Pointer Mem Box.
Import ListNotations.
Local Open Scope N_scope.

(** ** Types, layouts and allocators (Rust's rules) *)

(** Rust: alignments are powers of two, the size is a multiple of the alignment. *)
Definition wf_ty (t : rty) : Prop := power_of_two (ty_align t) /\ ty_size t mod ty_align t = 0.

(** A legal layout: fields inside, aligned and not overlapping; overall alignment at least that of
    every field; size a multiple of the alignment. *)
Definition apart (f g : N * rty) : Prop :=
  fst f + ty_size (snd f) <= fst g \/ fst g + ty_size (snd g) <= fst f.

Record layout_legal (H : hty) : Prop := {
  ll_align : power_of_two (h_align H);
  ll_size : h_size H mod h_align H = 0;
  ll_inside : Forall (fun f => fst f + ty_size (snd f) <= h_size H) (h_fields H);
  ll_aligned : Forall (fun f => fst f mod ty_align (snd f) = 0) (h_fields H);
  ll_maxalign : Forall (fun f => ty_align (snd f) <= h_align H) (h_fields H);
  ll_apart : ForallOrdPairs apart (h_fields H)
}.

(** Contract of the global allocator ([GlobalAlloc::alloc]): a non-null result is aligned, lies
    inside the address space and does not overlap a live block. It may fail at any time. *)
Definition alloc_ok (E : env) : Prop := forall s size align p,
  0 < size -> power_of_two align -> alloc_fn E s size align = Some p ->
  p <> 0 /\ p mod align = 0 /\ p + size <= 2 ^ ptr_bits (tgt E) /\
  (forall b, In b (blocks s) -> p + size <= b_base b \/ b_base b + b_size b <= p).

(** The setting suits the machine: the allocator's addresses fit the reserved width. *)
Definition alloc_fits (E : env) : Prop := forall s size align p,
  0 < size -> power_of_two align -> alloc_fn E s size align = Some p ->
  p <= max_pointer_value (cfg (tgt E)).

Definition tuples_legal (E : env) : Prop := forall tys, Forall wf_ty tys ->
  layout_legal (tuple_layout E tys) /\ h_types (tuple_layout E tys) = tys.

(** Everything assumed about the surroundings. *)
Record env_ok (E : env) : Prop := {
  eo_target : target_ok (tgt E);
  eo_alloc : alloc_ok E;
  eo_fits : alloc_fits E;
  eo_tuples : tuples_legal E
}.

(** [s'] still has every live block of [s], with the same contents. *)
Definition keeps (s s' : st) : Prop := forall b, In b (blocks s) ->
  In b (blocks s') /\ (forall x, b_base b <= x < b_base b + b_size b -> bytes s' x = bytes s x).

(** ** Reading the event log *)

Fixpoint allocations (l : list event) : list (N * N) :=   (* size, alignment *)
  match l with
  | [] => []
  | EvAlloc _ sz al :: r => (sz, al) :: allocations r
  | _ :: r => allocations r
  end.

Fixpoint deallocations (l : list event) : list (N * N) :=
  match l with
  | [] => []
  | EvDealloc _ sz al :: r => (sz, al) :: deallocations r
  | _ :: r => deallocations r
  end.

(** The values destroyed, with their type names. *)
Fixpoint destroyed (l : list event) : list (string * leafval) :=
  match l with
  | [] => []
  | EvDrop n v :: r => (n, v) :: destroyed r
  | _ :: r => destroyed r
  end.

(** What destroying a value amounts to: each field that has a destructor, in declaration order. *)
Definition destructors (H : hty) (vs : hval) : list (string * leafval) :=
  map (fun x => (ty_name (fst x), snd x)) (filter (fun x => ty_drop (fst x)) (combine (h_types H) vs)).

(** ** Boxes *)

(** In state [s] the box [w] lets a client read the value [v] at type [U]. *)
Definition box_holds (E : env) (s : st) (U : hty) (w : tagged_ptr) (v : hval) : Prop :=
  tb_as_ref E U w s = Ok v s /\ read_at U (tb_as_ptr E w) s = Ok v s /\
  tb_into_inner E U w s = Ok v s.
