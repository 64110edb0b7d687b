(** What a client program of a [tagged_box!] enum is supposed to do when destructors may panic: the program of [SpecContainers.v] on
    plain values, with no memory and no drop glue. *)
From Coq Require Import NArith String Bool List.
From Verif Require Import Words Config Spec Pointer Fmt Mem Box SpecMem Macro SpecMacro Session SpecSession Containers SpecContainers
  DropPanics KDropPanics.
Import ListNotations.
Local Open Scope N_scope.

Section Plain.
Variable def : edef.

(** The destructors a call runs itself, for an enum without a [Drop] impl: of a value that does not get into a heap block (there is no
    memory, or it has no bytes to store), of a value overwritten, and of one that goes out of scope. *)
Definition unstored (fail : bool) (v : evalue) : list (string * leafval) :=
  if needs_block def v && negb fail then [] else value_destructors def v.
Definition kloses (G : meaning) (fail : bool) (o : kop) (a : kastate) : list (string * leafval) :=
  match o with
  | KFrom i => match nth_error (kcells a) i with Some (KAVal _ v) => unstored fail v | _ => [] end
  | KFromPayload src vals => match payload_variant def src with Some n => unstored fail (EV n vals) | None => [] end
  | KClone i =>
      match nth_error (kcells a) i with
      | Some (KABox _ _ v) => match m_clone G v with Done c => unstored fail c | Panics _ => [] end
      | _ => []
      end
  | KAssign i _ _ => match nth_error (kcells a) i with Some (KABox _ _ v) => value_destructors def v | _ => [] end
  | KDropVal i => match nth_error (kcells a) i with Some (KAVal _ v) => value_destructors def v | _ => [] end
  | _ => []
  end.

(** A call in which a destructor panicked has done all it would have done, but a container being made is not there: its value was
    destroyed. *)
Definition kburst (j : nat) (a : kastate) : kastate :=
  match nth_error (kcells a) j with
  | Some (KABox id _ v) => KAState (put j KAGone (kcells a)) (knext a) (kdead a ++ [(id, v)]) (kmade a) (kboxes a)
  | _ => a
  end.
Definition kblown (o : kop) (a a' : kastate) : kastate :=
  match o with
  | KFrom i => kburst i a'
  | KFromPayload _ _ | KClone _ => kburst (List.length (kcells a)) a'
  | _ => a'
  end.

(** The program compiles and keeps the contracts at every step, whatever the allocator, the user's impls and the destructors do. *)
Fixpoint kd_follows (E : env) (F : st -> meaning) (p : kdprog) (a : kastate) : Prop :=
  match p with
  | KDStop => True
  | KDDo o k =>
      forall s, kcontract E def (F s) a o /\
      forall fail, match kastep def (F s) fail o a with
                   | Some (r, a') => kd_follows E F (k (KSaw r)) a' /\
                       forall n v, fail = false -> In (n, v) (kloses (F s) false o a) -> kd_follows E F (k (KSawDropPanic n v)) (kblown o a a')
                   | None => False
                   end
  end.

(** The runs on plain values, as far as [q]; [calls] says for every call in which state it is made and whether the allocator has no memory
    for it. A call that ends normally (or out of memory) destroyed nothing whose destructor always panics; one that ends with a
    destructor's panic destroyed something whose destructor may. *)
Inductive kd_goes (fussy : st -> string -> leafval -> bool) (F : st -> meaning) :
    kdprog -> kastate -> list (st * bool) -> list kdobs -> kdprog -> kastate -> Prop :=
| kgoes_here p a : kd_goes fussy F p a [] [] p a
| kgoes_on o k a s fail r a' calls l q b : kastep def (F s) fail o a = Some (r, a') ->
    (forall n v, In (n, v) (kloses (F s) fail o a) -> exists t, fussy t n v = false) ->
    kd_goes fussy F (k (KSaw r)) a' calls l q b -> kd_goes fussy F (KDDo o k) a ((s, fail) :: calls) (KSaw r :: l) q b
| kgoes_blown o k a s r a' n v calls l q b : kastep def (F s) false o a = Some (r, a') -> In (n, v) (kloses (F s) false o a) ->
    (exists t, fussy t n v = true) ->
    kd_goes fussy F (k (KSawDropPanic n v)) (kblown o a a') calls l q b ->
    kd_goes fussy F (KDDo o k) a ((s, false) :: calls) (KSawDropPanic n v :: l) q b.

(** A call that may end the program: one that destroys something whose destructor may panic, while the allocator has no memory for it
    ([fail]) or together with another destructor. *)
Definition kmay_abort (fussy : st -> string -> leafval -> bool) (G : meaning) (fail : bool) (o : kop) (a : kastate) : Prop :=
  (exists n v t, In (n, v) (kloses G fail o a) /\ fussy t n v = true) /\
  (fail = true \/ (2 <= List.length (kloses G fail o a))%nat).

(** No variant has two fields with destructors. *)
Definition ksimple : Prop := forall n k, In (n, k) (e_variants def) -> (List.length (filter ty_drop (kind_types k)) <= 1)%nat.

End Plain.

(** The calls of a run from state [s]: in which state each is made and whether the allocator has no memory for it. *)
Fixpoint kd_calls (E : env) (def : edef) (x : expansion) (I : impls) (fussy : st -> string -> leafval -> bool)
    (p : kdprog) (c : list kcell) (s : st) : list (st * bool) :=
  match p with
  | KDStop => []
  | KDDo o k =>
      (s, kstarved E def x I o c s) ::
      match kd_step E x I fussy o c with
      | None => []
      | Some m =>
          match m false s with
          | DOk (r, c') s' => kd_calls E def x I fussy (k (KSaw r)) c' s'
          | DPanic q s' => kd_calls E def x I fussy (k (kcaught q)) (kd_after_panic o c) s'
          | DAbort _ | DUB _ => []
          end
      end
  end.

(** The program as one of [Containers.v], for destructors that do not panic. *)
Fixpoint kwithout_panics (p : kdprog) : kprog :=
  match p with KDStop => KStop | KDDo o k => KDo o (fun r => kwithout_panics (k (KSaw r))) end.
