(** What a [Drop] impl that does things must leave alone, and the calls of a run. What the program is supposed to do is in
    [SpecOwnDrop.v]. *)
From Coq Require Import NArith String Bool List.
From Verif Require Import Words Config Pointer Mem Box SpecMem Macro SpecMacro Containers SpecContainers
  DropPanics KDropPanics OwnDrop SpecOwnDrop Destructors KDestructors SpecKDestructors OwnEffects.
Import ListNotations.
Local Open Scope N_scope.

Section Manners.
Variable act : string -> leafval -> st -> st * bool.

(** [Drop] leaves alone the blocks in [z] that are there when it is run. *)
Definition gentle (z : block -> Prop) : Prop := forall n v s b, In b (blocks s) -> z b ->
  In b (blocks (fst (act n v s))) /\ forall q, b_base b <= q < b_base b + b_size b -> bytes (fst (act n v s)) q = bytes s q.

(** [z] has the blocks of [others] and those of a size that the enum's values have. *)
Definition covers (def : edef) (others : st) (z : block -> Prop) : Prop :=
  (forall b, In b (blocks others) -> z b) /\ (forall b, ksizes def (b_size b) -> z b).

(** [Drop] leaves all blocks alone, keeps none, and runs no destructor. *)
Definition tidy : Prop := forall n v s, harmless s (fst (act n v s)).

End Manners.

Section Calls.
Variables (E : env) (def : edef) (x : expansion) (I : impls) (act : string -> leafval -> st -> st * bool).

(** The allocator has no memory for the block the call needs. *)
Definition oe_starved (o : kop) (c : list kcell) (s : st) : bool :=
  match o with
  | KFrom i => match nth_error c i with Some (KVal v) => no_room E def v s | _ => false end
  | KFromPayload src vals => match payload_variant def src with Some n => no_room E def (EV n vals) s | None => false end
  | KClone i =>
      match nth_error c i with
      | Some (KBox w) => match oe_clone_look E x I act w false s with DOk v s' => no_room E def v s' | _ => false end
      | _ => false
      end
  | _ => false
  end.

(** The calls of a run from state [s]: in which state each is made and whether the allocator has no memory for it. *)
Fixpoint oe_calls (p : kdprog) (c : list kcell) (s : st) : list (st * bool) :=
  match p with
  | KDStop => []
  | KDDo o k =>
      (s, oe_starved o c s) ::
      match oe_step E x I act o c with
      | None => []
      | Some m =>
          match m false s with
          | DOk (r, c') s' => oe_calls (k (KSaw r)) c' s'
          | DPanic q s' => oe_calls (k (kcaught q)) (kd_after_panic o c) s'
          | DAbort _ | DUB _ => []
          end
      end
  end.

End Calls.
