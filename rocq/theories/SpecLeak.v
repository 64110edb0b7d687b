(** Memory in use. *)
From Coq Require Import NArith String Bool List.
From Verif Require Import Words Config Spec Pointer Mem Box SpecMem Macro Containers.
Import ListNotations.
Local Open Scope N_scope.

(** Bytes of all live blocks. *)
Definition in_use (s : st) : N := fold_right (fun b n => b_size b + n) 0 (blocks s).

(** What the contract of the allocator makes of the heap: blocks in the address space, not overlapping,
    at addresses that fit the setting. *)
Record heap_ok (E : env) (s : st) : Prop := {
  hk_apart : ForallOrdPairs (fun a b => b_base a + b_size a <= b_base b \/ b_base b + b_size b <= b_base a) (blocks s);
  hk_inside : Forall (fun b => 0 < b_size b /\ b_base b + b_size b <= 2 ^ ptr_bits (tgt E)) (blocks s);
  hk_fits : Forall (fun b => 0 < b_base b <= max_pointer_value (cfg (tgt E))) (blocks s)
}.

(** Code that leaves the heap in order. *)
Definition orderly (E : env) {A} (m : M A) : Prop := forall s, heap_ok E s ->
  match m s with Ok _ s' | Panicked _ s' => heap_ok E s' | UB _ => True end.

(** An allocator that only looks at which blocks are live. *)
Definition by_blocks (E : env) : Prop := forall s s' size align, blocks s = blocks s' ->
  alloc_fn E s size align = alloc_fn E s' size align.

(** User impls that leave the heap in order. *)
Record orderly_impls (E : env) (I : impls) : Prop := {
  oi_clone : forall v, orderly E (i_clone I v);
  oi_eq : forall v w, orderly E (i_eq I v w);
  oi_pcmp : forall v w, orderly E (i_pcmp I v w);
  oi_cmp : forall v w, orderly E (i_cmp I v w);
  oi_debug : forall o v out, orderly E (i_debug I o v out);
  oi_display : forall o v out, orderly E (i_display I o v out)
}.
