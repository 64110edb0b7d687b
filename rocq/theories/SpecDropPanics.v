(** What a client program of the [TaggedBox] API is supposed to do when destructors may panic: the same program on the variables
    of [SpecSession.v], with no memory and no drop glue. *)
From Coq Require Import NArith String Bool List.
From Verif Require Import Words Config Spec Pointer Mem Box SpecMem Session SpecSession DropPanics.
Import ListNotations.
Local Open Scope N_scope.

(** A call in which a destructor panicked has done all it would have done, but one that makes a box does not return it. *)
Definition blown (o : op) (a a' : astate) : astate :=
  match o with
  | NewBox _ _ _ _ => AState (cells a ++ [AGone]) (next a') (dead a') (made a') (freed a')
  | _ => a'
  end.

(** The destructor of a value [o] destroys. *)
Definition among_victims (a a' : astate) (n : string) (v : leafval) : Prop :=
  exists l, dead a' = dead a ++ l /\ In (n, v) (dead_destructors l).

(** The program compiles and keeps the contract at every step, whatever the allocator and the destructors do. (Out of memory, a destructor's
    panic is a second one.) *)
Fixpoint d_follows (E : env) (p : dprog) (a : astate) : Prop :=
  match p with
  | DStop => True
  | DDo o k =>
      contract E a o /\
      forall fail, match astep fail o a with
                   | Some (x, a') => d_follows E (k (Saw x)) a' /\
                                     forall n v, fail = false -> among_victims a a' n v -> d_follows E (k (SawDropPanic n v)) (blown o a a')
                   | None => False
                   end
  end.

(** The runs on plain variables, as far as [q], for destructors that panic when [fussy] says so: a call that ends normally
    (or out of memory) destroyed nothing whose destructor always panics; one that ends with a destructor's panic destroyed
    something whose destructor may. *)
Inductive d_goes (fussy : st -> string -> leafval -> bool) : dprog -> astate -> list dobs -> dprog -> astate -> Prop :=
| goes_here p a : d_goes fussy p a [] p a
| goes_on o k a fail x a' l q b : astep fail o a = Some (x, a') ->
    (forall n v, among_victims a a' n v -> exists s, fussy s n v = false) ->
    d_goes fussy (k (Saw x)) a' l q b -> d_goes fussy (DDo o k) a (Saw x :: l) q b
| goes_blown o k a x a' n v l q b : astep false o a = Some (x, a') -> among_victims a a' n v ->
    (exists s, fussy s n v = true) ->
    d_goes fussy (k (SawDropPanic n v)) (blown o a a') l q b -> d_goes fussy (DDo o k) a (SawDropPanic n v :: l) q b.

(** At which calls of a run from state [s] the allocator has no memory for the block needed. *)
Fixpoint d_shortages (E : env) (fussy : st -> string -> leafval -> bool) (p : dprog) (c : list cell) (s : st) : list bool :=
  match p with
  | DStop => []
  | DDo o k =>
      starved E o s ::
      match d_step E fussy o c with
      | None => []
      | Some m =>
          match m false s with
          | DOk (x, c') s' => d_shortages E fussy (k (Saw x)) c' s'
          | DPanic q s' => d_shortages E fussy (k (caught q)) (d_after_panic o c) s'
          | DAbort _ | DUB _ => []
          end
      end
  end.

(** A call that may end the program: one that destroys something whose destructor may panic, while the allocator has no memory
    for it ([short]; the value to be stored is destroyed by unwinding) or together with another destructor. *)
Definition may_abort (short : bool) (fussy : st -> string -> leafval -> bool) (o : op) (a : astate) : Prop :=
  exists x a' l, astep short o a = Some (x, a') /\ dead a' = dead a ++ l /\
    (exists n v s, In (n, v) (dead_destructors l) /\ fussy s n v = true) /\
    (short = true \/ (2 <= List.length (dead_destructors l))%nat).

(** The program as one of [Session.v], for destructors that do not panic. *)
Fixpoint without_panics (p : dprog) : prog :=
  match p with DStop => Stop | DDo o k => Do o (fun x => without_panics (k (Saw x))) end.

(** A program all of whose boxes are of types with at most one destructor. *)
Definition simple (U : hty) : Prop := (List.length (filter ty_drop (h_types U)) <= 1)%nat.
Fixpoint all_simple (p : dprog) : Prop :=
  match p with
  | DStop => True
  | DDo o k => match o with NewBox _ U _ _ => simple U | _ => True end /\ forall x, all_simple (k x)
  end.
