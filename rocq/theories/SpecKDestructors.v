(** What destructors that do things must leave alone in programs of generated containers. What the program is supposed to do is in
    [SpecKDropPanics.v]. *)
From Coq Require Import NArith String Bool List.
From Verif Require Import Words Config Spec Pointer Fmt Mem Box SpecMem Macro SpecMacro Session SpecSession Containers SpecContainers
  DropPanics KDropPanics SpecKDropPanics Destructors KDestructors.
Import ListNotations.
Local Open Scope N_scope.

Section Polite.
Variable E : env.
Variable def : edef.
Variable x : expansion.
Variable I : impls.
Variable act : string -> leafval -> st -> st * bool.

(** The block behind a variable: address and size. The discriminant is the variant's place in the definition. *)
Definition kits_block (y : kcell) : option (N * N) :=
  match y with
  | KBox w =>
      match nth_error (e_variants def) (N.to_nat (tp_discriminant (tgt E) w)) with
      | Some (_, k) =>
          match storage k with
          | Some U => if h_size U =? 0 then None else Some (tp_as_ptr (tgt E) w, h_size U)
          | None => None
          end
      | None => None
      end
  | _ => None
  end.

(** The variable whose value the call destroys in place. *)
Definition kslot (o : kop) : option nat := match o with KAssign i _ _ => Some i | _ => None end.

(** From [s] to [t] no block behind a variable is freed, and none but that of variable [j] changes. The blocks of [others] are left alone, too. *)
Definition kspares (others : st) (c : list kcell) (j : option nat) (s t : st) : Prop :=
  (forall i y p n al, nth_error c i = Some y -> kits_block y = Some (p, n) -> In (Block p n al) (blocks s) ->
     In (Block p n al) (blocks t) /\ (j <> Some i -> forall q, p <= q < p + n -> bytes t q = bytes s q)) /\
  (forall b, In b (blocks others) -> In b (blocks s) ->
     In b (blocks t) /\ forall q, b_base b <= q < b_base b + b_size b -> bytes t q = bytes s q).

(** The destructors the call runs. *)
Definition kvictims (o : kop) (c : list kcell) (s : st) : list (string * leafval) :=
  match o with
  | KFrom i => match nth_error c i with Some (KVal v) => unstored def (no_room E def v s) v | _ => [] end
  | KFromPayload src vals =>
      match payload_variant def src with Some n => unstored def (no_room E def (EV n vals) s) (EV n vals) | None => [] end
  | KClone i =>
      match nth_error c i with
      | Some (KBox w) =>
          match macro_ref E x (option evalue) w (fun v _ => bind (i_clone I v) (fun c => ret (Some c))) None s with
          | Ok (Some v) s' => unstored def (no_room E def v s') v
          | _ => []
          end
      | _ => []
      end
  | KAssign i n _ =>
      match nth_error c i, only_field def n with
      | Some (KBox w), Some t =>
          match read_at (leaf_hty t) (tp_as_ptr (tgt E) w) s with Ok v _ => destructors (leaf_hty t) v | _ => [] end
      | _, _ => []
      end
  | KDropVal i => match nth_error c i with Some (KVal v) => value_destructors def v | _ => [] end
  | _ => []
  end.

(** In every call of a run from state [s], the destructors run leave alone what the program's variables stand for. *)
Fixpoint kpolite (others : st) (p : kdprog) (c : list kcell) (s : st) : Prop :=
  match p with
  | KDStop => True
  | KDDo o k =>
      (forall n v t, In (n, v) (kvictims o c s) -> kspares others c (kslot o) s t -> kspares others c (kslot o) t (fst (act n v t))) /\
      match ke_step E x I act o c with
      | None => True
      | Some m =>
          match m false s with
          | DOk (r, c') s' => kpolite others (k (KSaw r)) c' s'
          | DPanic q s' => kpolite others (k (kcaught q)) (kd_after_panic o c) s'
          | DAbort _ | DUB _ => True
          end
      end
  end.

(** As [SpecKDropPanics.kd_calls]. *)
Fixpoint ke_calls (p : kdprog) (c : list kcell) (s : st) : list (st * bool) :=
  match p with
  | KDStop => []
  | KDDo o k =>
      (s, kstarved E def x I o c s) ::
      match ke_step E x I act o c with
      | None => []
      | Some m =>
          match m false s with
          | DOk (r, c') s' => ke_calls (k (KSaw r)) c' s'
          | DPanic q s' => ke_calls (k (kcaught q)) (kd_after_panic o c) s'
          | DAbort _ | DUB _ => []
          end
      end
  end.

(** The sizes of the blocks the enum's values are stored in. *)
Definition ksizes (z : N) : Prop := exists n k U, In (n, k) (e_variants def) /\ storage k = Some U /\ z = h_size U /\ z <> 0.

End Polite.
