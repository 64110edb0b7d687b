(** What a client program of the [TaggedBox] API is supposed to do: the same program on variables
    that hold values directly, with no addresses, memory or tags in pointers. *)
From Coq Require Import NArith String Bool List.
From Verif Require Import Words Config Spec Pointer Mem Box SpecMem Session.
Import ListNotations.
Local Open Scope N_scope.

(** Variables with the value they stand for. Every value ever handed to the API is numbered. *)
Inductive acell : Type :=
| ABox (U : hty) (id : nat) (v : hval) (d : N)
| ARaw (U : hty) (id : nat) (v : hval)
| ARust (U : hty) (id : nat) (v : hval)
| AVal (U : hty) (id : nat) (v : hval)
| AGone.

(** [dead]: the values destroyed so far, oldest first; [made], [freed]: blocks of the heap. *)
Record astate : Type := AState {
  cells : list acell;
  next : nat;
  dead : list (nat * hty * hval);
  made : nat;
  freed : nat
}.

Definition a0 : astate := AState [] 0 [] 0 0.

Definition set (i : nat) (x : acell) (a : astate) : astate :=
  AState (put i x (cells a)) (next a) (dead a) (made a) (freed a).
Definition kill (id : nat) (U : hty) (v : hval) (a : astate) : astate :=
  AState (cells a) (next a) (dead a ++ [(id, U, v)]) (made a) (freed a).
Definition free (U : hty) (a : astate) : astate :=
  AState (cells a) (next a) (dead a) (made a) (if h_size U =? 0 then freed a else S (freed a)).

(** [fail]: whether the allocator is out of memory at this step. *)
Definition astep (fail : bool) (o : op) (a : astate) : option (obs * astate) :=
  match o with
  | NewBox _ U val d =>
      let id := next a in
      if h_size U =? 0 then       (* the box works, but the value is destroyed (property C22) *)
        Some (SawNothing, AState (cells a ++ [ABox U id val d]) (S id) (dead a ++ [(id, U, val)]) (made a) (freed a))
      else if fail then
        Some (SawPanic PanicNullAlloc, AState (cells a ++ [AGone]) (S id) (dead a ++ [(id, U, val)]) (made a) (freed a))
      else
        Some (SawNothing, AState (cells a ++ [ABox U id val d]) (S id) (dead a) (S (made a)) (freed a))
  | Read i | ReadPtr i =>
      match nth_error (cells a) i with
      | Some (ABox U id v d) => Some (SawValue v, a)
      | _ => None
      end
  | Tag i =>
      match nth_error (cells a) i with
      | Some (ABox U id v d) => Some (SawTag d, a)
      | _ => None
      end
  | Modify i f =>
      match nth_error (cells a) i with
      | Some (ABox U id v d) => Some (SawNothing, set i (ABox U id (f v) d) a)
      | _ => None
      end
  | Assign i val | AssignPtr i val =>
      match nth_error (cells a) i with
      | Some (ABox U id v d) =>
          let a' := kill id U v (set i (ABox U (next a) val d) a) in
          Some (SawNothing, AState (cells a') (S (next a)) (dead a') (made a') (freed a'))
      | _ => None
      end
  | IntoInner i =>
      match nth_error (cells a) i with
      | Some (ABox U id v d) => Some (SawValue v, set i (AVal U id v) a)
      | _ => None
      end
  | IntoRaw i =>
      match nth_error (cells a) i with
      | Some (ABox U id v d) => Some (SawNothing, set i (ARaw U id v) a)
      | _ => None
      end
  | FromRaw i d =>
      match nth_error (cells a) i with
      | Some (ARaw U id v) => Some (SawNothing, set i (ABox U id v d) a)
      | _ => None
      end
  | IntoBox i =>
      match nth_error (cells a) i with
      | Some (ABox U id v d) => Some (SawNothing, set i (ARust U id v) a)
      | _ => None
      end
  | RawToBox i =>
      match nth_error (cells a) i with
      | Some (ARaw U id v) => Some (SawNothing, set i (ARust U id v) a)
      | _ => None
      end
  | RustRead i =>
      match nth_error (cells a) i with
      | Some (ARust U id v) => Some (SawValue v, a)
      | _ => None
      end
  | RustDrop i =>
      match nth_error (cells a) i with
      | Some (ARust U id v) => Some (SawNothing, free U (kill id U v (set i AGone a)))
      | _ => None
      end
  | RustUnbox i =>
      match nth_error (cells a) i with
      | Some (ARust U id v) => Some (SawValue v, free U (set i (AVal U id v) a))
      | _ => None
      end
  | DropBox i =>
      match nth_error (cells a) i with
      | Some (ABox U id v d) => Some (SawNothing, set i AGone a)     (* nothing is destroyed *)
      | _ => None
      end
  | DropValue i =>
      match nth_error (cells a) i with
      | Some (AVal U id v) => Some (SawNothing, kill id U v (set i AGone a))
      | _ => None
      end
  | RawRead i =>
      match nth_error (cells a) i with
      | Some (ARaw U id v) => Some (SawValue v, a)
      | _ => None
      end
  | RawAssign i val =>
      match nth_error (cells a) i with
      | Some (ARaw U id v) =>
          let a' := kill id U v (set i (ARaw U (next a) val) a) in
          Some (SawNothing, AState (cells a') (S (next a)) (dead a') (made a') (freed a'))
      | _ => None
      end
  end.

(** What the documentation asks of a call besides using the right type: discriminants up to
    [MAX_DISCRIMINANT], and values of the type. *)
Definition contract (E : env) (a : astate) (o : op) : Prop :=
  match o with
  | NewBox _ U val d => layout_legal U /\ hval_ok U val /\ d <= max_discriminant (cfg (tgt E))
  | Modify i f =>
      match nth_error (cells a) i with Some (ABox U _ v _) => hval_ok U (f v) | _ => True end
  | Assign i val | AssignPtr i val =>
      match nth_error (cells a) i with Some (ABox U _ _ _) => hval_ok U val | _ => True end
  | RawAssign i val => match nth_error (cells a) i with Some (ARaw U _ _) => hval_ok U val | _ => True end
  | FromRaw i d => d <= max_discriminant (cfg (tgt E))
  | _ => True
  end.

(** The program compiles and keeps the contract at every step, whatever the allocator does. *)
Fixpoint follows (E : env) (p : prog) (a : astate) : Prop :=
  match p with
  | Stop => True
  | Do o k =>
      contract E a o /\
      forall fail, match astep fail o a with Some (x, a') => follows E (k x) a' | None => False end
  end.

(** The run on plain variables; [fails] says at which steps the allocator fails. *)
Fixpoint arun (p : prog) (fails : list bool) (a : astate) : list obs * astate :=
  match p with
  | Stop => ([], a)
  | Do o k =>
      match astep (hd false fails) o a with
      | Some (x, a') => let (l, e) := arun (k x) (tl fails) a' in (x :: l, e)
      | None => ([], a)
      end
  end.

(** The allocator has no memory for the block the call needs. *)
Definition no_block (E : env) (U : hty) (s : st) : bool :=
  negb (h_size U =? 0) && match alloc_fn E s (h_size U) (h_align U) with None => true | Some _ => false end.
Definition starved (E : env) (o : op) (s : st) : bool :=
  match o with NewBox _ U _ _ => no_block E U s | _ => false end.

(** At which calls of a run from state [s] that happens. *)
Fixpoint shortages (E : env) (p : prog) (c : list cell) (s : st) : list bool :=
  match p with
  | Stop => []
  | Do o k =>
      starved E o s ::
      match step E o c with
      | None => []
      | Some m =>
          match m s with
          | Ok (x, c') s' => shortages E (k x) c' s'
          | Panicked q s' => shortages E (k (SawPanic q)) (after_panic o c) s'
          | UB _ => []
          end
      end
  end.

Definition dead_destructors (l : list (nat * hty * hval)) : list (string * leafval) :=
  flat_map (fun x => destructors (snd (fst x)) (snd x)) l.

(** The numbers of the destroyed values that take up memory. *)
Definition dead_ids (l : list (nat * hty * hval)) : list nat :=
  map (fun x => fst (fst x)) (filter (fun x => negb (h_size (snd (fst x)) =? 0)) l).

Definition cell_id (c : acell) : list nat :=
  match c with
  | ABox U id _ _ | ARaw U id _ | ARust U id _ | AVal U id _ => if h_size U =? 0 then [] else [id]
  | AGone => []
  end.

(** The numbers of the values (that take up memory) still held in some variable. *)
Definition live_ids (a : astate) : list nat := flat_map cell_id (cells a).
