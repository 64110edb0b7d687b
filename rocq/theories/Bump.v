(** A concrete allocator and environments: the hypotheses of the theorems can be met. *)
From Coq Require Import NArith String Bool List Lia.
From Verif Require Import Words Config Spec SpecMem ConfigFacts Pointer PointerFacts Mem MemFacts Box.
Import ListNotations.
Local Open Scope N_scope.

(** First address above all live blocks (at least 4096). *)
Fixpoint top (l : list block) : N :=
  match l with [] => 4096 | b :: r => N.max (b_base b + b_size b) (top r) end.

(** Bump allocator for a heap ending at 2^31; fails when the heap is full. *)
Definition bump : allocator := fun s size align =>
  let p := align_up (top (blocks s)) align in
  if p + size <=? 2 ^ 31 then Some p else None.

(** An allocator that always fails. *)
Definition no_memory : allocator := fun _ _ _ => None.

Lemma top_ge l b : In b l -> b_base b + b_size b <= top l.
Proof. induction l as [|a l IH]; cbn [In top]; [tauto|]. intros [->|H]; [|specialize (IH H)]; lia. Qed.

Lemma top_pos l : 4096 <= top l.
Proof. induction l; cbn [top]; lia. Qed.

Lemma bump_ok t tl : target_ok t -> alloc_ok (Env t bump tl) /\ alloc_fits (Env t bump tl).
Proof.
  intros Ht.
  assert (L1 : 2 ^ 31 <= 2 ^ ptr_bits t).
  { apply N.pow_le_mono_r; [discriminate|]. destruct (proj2 Ht) as [-> | ->]; lia. }
  assert (L2 : 2 ^ 31 <= 2 ^ pointer_width (cfg t)).
  { apply N.pow_le_mono_r; [discriminate|]. destruct (row_facts _ (proj1 Ht)) as (_&_&Hw&_). lia. }
  split; intros s size align p Hs Ha; cbn [alloc_fn tgt]; unfold bump;
    destruct (N.leb_spec (align_up (top (blocks s)) align + size) (2 ^ 31)); try discriminate;
    intros E; injection E as <-; pose proof (power_of_two_pos _ Ha) as Hp;
    pose proof (align_up_ge (top (blocks s)) _ Hp); pose proof (top_pos (blocks s)).
  - repeat split.
    + lia.
    + apply align_up_mod, Hp.
    + lia.
    + intros b Hb. right. pose proof (top_ge _ b Hb). lia.
  - apply (max_ptr_eq t Ht). lia.
Qed.

Lemma no_memory_ok t tl : alloc_ok (Env t no_memory tl) /\ alloc_fits (Env t no_memory tl).
Proof. split; intros s size align p _ _ H; discriminate H. Qed.

Lemma reprC_tuples t a : tuples_legal (Env t a reprC).
Proof. intros tys H. cbn [tuple_layout]. split; [apply reprC_legal, H|apply reprC_types, H]. Qed.

(** An environment satisfying every assumption, for any target. *)
Definition bump_env (t : target) : env := Env t bump reprC.

Lemma bump_env_ok t : target_ok t -> env_ok (bump_env t).
Proof.
  intros Ht. destruct (bump_ok t reprC Ht). constructor; auto. apply reprC_tuples.
Qed.

Definition st0 : st := St (fun _ => Undef) [] [].

(** ** Some types *)

Definition all_init (v : leafval) : bool :=
  forallb (fun b => match b with Byte x => x <? 256 | Undef => false end) v.
Definition is_bool (v : leafval) : bool :=
  match v with [Byte 0] => true | [Byte 1] => true | _ => false end.

Definition ty_u8 : rty := Ty "u8" 1 1 all_init false true.
Definition ty_u16 : rty := Ty "u16" 2 2 all_init false true.
Definition ty_u32 : rty := Ty "u32" 4 4 all_init false true.
Definition ty_i32 : rty := Ty "i32" 4 4 all_init false true.
Definition ty_u64 : rty := Ty "u64" 8 8 all_init false true.
Definition ty_bool : rty := Ty "bool" 1 1 is_bool false true.
(** Three words of which the first (the pointer) is never zero; has a destructor. *)
Definition str_valid (v : leafval) : bool :=
  all_init v && negb (forallb (fun b => match b with Byte 0 => true | _ => false end) (firstn 8 v)).
Definition ty_string : rty := Ty "String" 24 8 str_valid true false.
Definition ty_unit : rty := Ty "()" 0 1 (fun _ => true) false true.
(** A zero-sized type with a destructor, e.g. a lock guard token. *)
Definition ty_guard : rty := Ty "Guard" 0 1 (fun _ => true) true false.

Lemma wf_u8 : wf_ty ty_u8. Proof. split; [exists 0; split; [lia|reflexivity]|reflexivity]. Qed.
Lemma wf_u16 : wf_ty ty_u16. Proof. split; [exists 1; split; [lia|reflexivity]|reflexivity]. Qed.
Lemma wf_u32 : wf_ty ty_u32. Proof. split; [exists 2; split; [lia|reflexivity]|reflexivity]. Qed.
Lemma wf_i32 : wf_ty ty_i32. Proof. split; [exists 2; split; [lia|reflexivity]|reflexivity]. Qed.
Lemma wf_u64 : wf_ty ty_u64. Proof. split; [exists 3; split; [lia|reflexivity]|reflexivity]. Qed.
Lemma wf_bool : wf_ty ty_bool. Proof. split; [exists 0; split; [lia|reflexivity]|reflexivity]. Qed.
Lemma wf_string : wf_ty ty_string. Proof. split; [exists 3; split; [lia|reflexivity]|reflexivity]. Qed.
Lemma wf_unit : wf_ty ty_unit. Proof. split; [exists 0; split; [lia|reflexivity]|reflexivity]. Qed.
Lemma wf_guard : wf_ty ty_guard. Proof. split; [exists 0; split; [lia|reflexivity]|reflexivity]. Qed.

(** Little-endian bytes of a number. *)
Fixpoint le_bytes (n : nat) (x : N) : leafval :=
  match n with O => [] | S k => Byte (x mod 256) :: le_bytes k (x / 256) end.

Definition a_string : leafval := le_bytes 8 0x7000 ++ le_bytes 8 5 ++ le_bytes 8 5.

(** ** Observing runs (for the examples) *)

Definition result {A} (r : res A) : option A := match r with Ok a _ => Some a | _ => None end.
Definition panic_of {A} (r : res A) : option panic := match r with Panicked p _ => Some p | _ => None end.
Definition ub_of {A} (r : res A) : option ub := match r with UB u => Some u | _ => None end.
Definition log_of {A} (r : res A) : list event :=
  match r with Ok _ s => events s | Panicked _ s => events s | UB _ => [] end.
Definition blocks_of {A} (r : res A) : list block :=
  match r with Ok _ s => blocks s | Panicked _ s => blocks s | UB _ => [] end.
