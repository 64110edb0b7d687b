(** What a client program of an enum with a [Drop] impl of its own is supposed to do: the program of [SpecContainers.v] on plain values, and
    beside it the values the impl is run on, which the documentation does not tell. *)
From Coq Require Import NArith String Bool List.
From Verif Require Import Words Config Spec Pointer Fmt Mem Box SpecMem Macro SpecMacro Session SpecSession Containers SpecContainers
  DropPanics KDropPanics OwnDrop.
Import ListNotations.
Local Open Scope N_scope.

Section Plain.
Variable def : edef.

(** Looking at a unit variant runs its [Drop]. *)
Definition fades (v : evalue) : list evalue := match assoc (ev_variant v) (e_variants def) with Some KUnit => [v] | _ => [] end.

(** The values on which a call runs [Drop], in order: every value put into a container, every unit variant looked at, and what goes out
    of scope. *)
Definition od_drops (G : meaning) (o : kop) (a : kastate) : list evalue :=
  let held i := match nth_error (kcells a) i with Some (KABox _ _ v) => fades v | _ => [] end in
  match o with
  | KFrom i | KDropVal i => match nth_error (kcells a) i with Some (KAVal _ v) => [v] | _ => [] end
  | KFromPayload src vals => match payload_variant def src with Some n => [EV n vals] | None => [] end
  | KClone i =>
      match nth_error (kcells a) i with
      | Some (KABox _ _ v) => fades v ++ match m_clone G v with Done c => [c] | Panics _ => [] end
      | _ => []
      end
  | KEq i j | KPartialCmp i j | KCmp i j => held j ++ held i
  | KDebug i _ _ | KDebugValue i _ _ | KDisplay i _ _ | KView i => held i
  | _ => []
  end.

Definition od_event (v : evalue) : string * leafval := (e_name def, concat (ev_fields v)).

(** A call in which [Drop] panicked has done all it would have done, but a container being made is lost. A clone is not even made if it
    is the look at the box that panics. *)
Definition od_blown (o : kop) (a a' : kastate) : list kastate :=
  match o with
  | KFrom i => [kset i KAGone a']
  | KFromPayload _ _ => [kset (List.length (kcells a)) KAGone a']
  | KClone i =>
      kset (List.length (kcells a)) KAGone a' ::
      match nth_error (kcells a) i with
      | Some (KABox _ _ v) => map (fun _ => KAState (kcells a ++ [KAGone]) (knext a) (kdead a) (kmade a) (kboxes a)) (fades v)
      | _ => []
      end
  | _ => [a']
  end.

(** The program compiles and keeps the contracts at every step, whatever the allocator and the user's impls do. *)
Fixpoint od_follows (E : env) (F : st -> meaning) (p : kdprog) (a : kastate) : Prop :=
  match p with
  | KDStop => True
  | KDDo o k =>
      forall s, kcontract E def (F s) a o /\
      forall fail, match kastep def (F s) fail o a with
                   | Some (r, a') => od_follows E F (k (KSaw r)) a' /\
                       forall v b, fail = false -> (forall p, r <> KSawPanic p) -> In v (od_drops (F s) o a) -> In b (od_blown o a a') ->
                         od_follows E F (k (KSawDropPanic (e_name def) (concat (ev_fields v)))) b
                   | None => False
                   end
  end.

Section Goes.
Variable fussy : st -> string -> leafval -> bool.
Definition may_panic (v : evalue) : Prop := exists t, fussy t (e_name def) (concat (ev_fields v)) = true.
Definition may_not (v : evalue) : Prop := exists t, fussy t (e_name def) (concat (ev_fields v)) = false.

(** The runs on plain values, as far as [q]; [calls] says for every call in which state it is made and whether the allocator has no memory
    for it, [drops] what [Drop] is run on. *)
Inductive od_goes (F : st -> meaning) :
    kdprog -> kastate -> list (st * bool) -> list kdobs -> list evalue -> kdprog -> kastate -> Prop :=
| ogoes_here p a : od_goes F p a [] [] [] p a
| ogoes_on o k a s fail r a' calls l drops q b : kastep def (F s) fail o a = Some (r, a') ->
    (forall v, In v (od_drops (F s) o a) -> may_not v) ->
    od_goes F (k (KSaw r)) a' calls l drops q b ->
    od_goes F (KDDo o k) a ((s, fail) :: calls) (KSaw r :: l) (od_drops (F s) o a ++ drops) q b
| ogoes_blown o k a s r a' a1 v calls l drops q b : kastep def (F s) false o a = Some (r, a') -> (forall p, r <> KSawPanic p) ->
    In v (od_drops (F s) o a) -> may_panic v -> In a1 (od_blown o a a') ->
    od_goes F (k (KSawDropPanic (e_name def) (concat (ev_fields v)))) a1 calls l drops q b ->
    od_goes F (KDDo o k) a ((s, false) :: calls) (KSawDropPanic (e_name def) (concat (ev_fields v)) :: l) (od_drops (F s) o a ++ drops) q b.

(** A call that may end the program: one that runs a [Drop] that may panic, together with another or with a panic of the user's impls or
    for lack of memory. *)
Definition od_may_abort (G : meaning) (fail : bool) (o : kop) (a : kastate) : Prop :=
  (exists v, In v (od_drops G o a) /\ may_panic v) /\
  ((2 <= List.length (od_drops G o a))%nat \/ exists p a', kastep def G fail o a = Some (KSawPanic p, a')).

End Goes.
End Plain.

Section Calls.
Variables (E : env) (def : edef) (x : expansion) (I : impls) (fussy : st -> string -> leafval -> bool).

(** The allocator has no memory for the block the call needs. *)
Definition od_starved (o : kop) (c : list kcell) (s : st) : bool :=
  match o with
  | KFrom i => match nth_error c i with Some (KVal v) => no_room E def v s | _ => false end
  | KFromPayload src vals => match payload_variant def src with Some n => no_room E def (EV n vals) s | None => false end
  | KClone i =>
      match nth_error c i with
      | Some (KBox w) => match od_clone_look E x I fussy w false s with DOk v s' => no_room E def v s' | _ => false end
      | _ => false
      end
  | _ => false
  end.

(** The calls of a run from state [s]: in which state each is made and whether the allocator has no memory for it. *)
Fixpoint od_calls (p : kdprog) (c : list kcell) (s : st) : list (st * bool) :=
  match p with
  | KDStop => []
  | KDDo o k =>
      (s, od_starved o c s) ::
      match od_step E x I fussy o c with
      | None => []
      | Some m =>
          match m false s with
          | DOk (r, c') s' => od_calls (k (KSaw r)) c' s'
          | DPanic q s' => od_calls (k (kcaught q)) (kd_after_panic o c) s'
          | DAbort _ | DUB _ => []
          end
      end
  end.

End Calls.
