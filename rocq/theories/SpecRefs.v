(** What a client with references is supposed to see: the same program on variables that hold values directly,
    where a reference is just the number of the variable it borrows. *)
From Coq Require Import NArith String Bool List.
From Verif Require Import Words Config Pointer Mem Box SpecMem Session SpecSession Threads Refs.
Import ListNotations.
Local Open Scope N_scope.

(** References: the variable, and whether it may be changed. [None]: not used any more. *)
Definition arefs : Type := list (option (nat * bool)).

(** Rust's rule: at no time a mutable reference and another one to the same variable. *)
Definition some_ref (l : arefs) (i : nat) : bool :=
  existsb (fun r => match r with Some (j, _) => Nat.eqb j i | None => false end) l.
Definition some_mut_ref (l : arefs) (i : nat) : bool :=
  existsb (fun r => match r with Some (j, m) => Nat.eqb j i && m | None => false end) l.

Definition aget (l : arefs) (r : nat) : option (nat * bool) := match nth_error l r with Some x => x | None => None end.

Definition is_abox (a : astate) (i : nat) : bool :=
  match nth_error (cells a) i with Some (ABox _ _ _ _) => true | _ => false end.

(** One step; [None]: not allowed. *)
Definition arstep (fail : bool) (o : rop) (a : astate) (l : arefs) : option (obs * (astate * arefs)) :=
  let still := option_map (fun r : obs * astate => (fst r, (snd r, l))) in
  match o with
  | Call o =>
      match target_of o with
      | None => still (astep fail o a)
      | Some i => if (if by_shared_ref o then some_mut_ref l i else some_ref l i) then None else still (astep fail o a)
      end
  | Borrow i => if is_abox a i && negb (some_mut_ref l i) then Some (SawNothing, (a, l ++ [Some (i, false)])) else None
  | BorrowMut i => if is_abox a i && negb (some_ref l i) then Some (SawNothing, (a, l ++ [Some (i, true)])) else None
  | Look r => match aget l r with Some (i, _) => still (astep fail (Read i) a) | None => None end
  | Update r f => match aget l r with Some (i, true) => still (astep fail (Modify i f) a) | _ => None end
  | Overwrite r val => match aget l r with Some (i, true) => still (astep fail (Assign i val) a) | _ => None end
  | Replace r val =>
      match aget l r with
      | Some (i, true) =>
          match nth_error (cells a) i with
          | Some (ABox U id v d) =>
              Some (SawNothing, (AState (put i (ABox U (next a) val d) (cells a) ++ [AVal U id v]) (S (next a)) (dead a) (made a) (freed a), l))
          | _ => None
          end
      | _ => None
      end
  | Swap r q =>
      if Nat.eqb r q then None else
      match aget l r, aget l q with
      | Some (i, true), Some (j, true) =>
          match nth_error (cells a) i, nth_error (cells a) j with
          | Some (ABox U id v d), Some (ABox U' id' v' d') =>
              Some (SawNothing, (set j (ABox U' id v d') (set i (ABox U id' v' d) a), l))
          | _, _ => None
          end
      | _, _ => None
      end
  | EndRef r => match aget l r with Some _ => Some (SawNothing, (a, put r None l)) | None => None end
  end.

(** What the documentation and the types ask for: as in C38, and values of the type behind the reference. *)
Definition rcontract (E : env) (a : astate) (l : arefs) (o : rop) : Prop :=
  match o with
  | Call o => contract E a o
  | Update r f => match aget l r with Some (i, _) => contract E a (Modify i f) | None => True end
  | Overwrite r val | Replace r val => match aget l r with Some (i, _) => contract E a (Assign i val) | None => True end
  | Swap r q =>
      match aget l r, aget l q with
      | Some (i, _), Some (j, _) =>
          match nth_error (cells a) i, nth_error (cells a) j with
          | Some (ABox U _ _ _), Some (ABox U' _ _ _) => U = U'
          | _, _ => True
          end
      | _, _ => True
      end
  | _ => True
  end.

(** The program compiles and keeps the contract at every step, whatever the allocator does. *)
Fixpoint rfollows (E : env) (p : rprog) (a : astate) (l : arefs) : Prop :=
  match p with
  | RStop => True
  | RDo o k =>
      rcontract E a l o /\
      forall fail, match arstep fail o a l with Some (x, (a', l')) => rfollows E (k x) a' l' | None => False end
  end.

(** The run on plain variables; [fails] says at which steps the allocator fails. *)
Fixpoint rarun (p : rprog) (fails : list bool) (a : astate) (l : arefs) : list obs * (astate * arefs) :=
  match p with
  | RStop => ([], (a, l))
  | RDo o k =>
      match arstep (hd false fails) o a l with
      | Some (x, (a', l')) => let (q, e) := rarun (k x) (tl fails) a' l' in (x :: q, e)
      | None => ([], (a, l))
      end
  end.

(** At which steps of a run from state [s] the allocator has no memory. *)
Fixpoint rshortages (E : env) (p : rprog) (c : list cell) (refs : list (option ref)) (s : st) : list bool :=
  match p with
  | RStop => []
  | RDo o k =>
      match o with Call o => starved E o s | _ => false end ::
      match rstep E o c refs with
      | None => []
      | Some m =>
          match m s with
          | Ok (x, (c', refs')) s' => rshortages E (k x) c' refs' s'
          | Panicked q s' => rshortages E (k (SawPanic q)) (rafter_panic o c) refs s'
          | UB _ => []
          end
      end
  end.

(** ** What references guarantee *)

(** The bytes behind a reference. *)
Definition behind (r : ref) (x : N) : Prop := r_addr r <= x < r_addr r + h_size (r_ty r).

(** The bytes a variable leads to: those of its box, or of what its pointer points to. *)
Definition leads_to (E : env) (c : cell) (x : N) : Prop :=
  match c with
  | CBox U w => tp_as_ptr (tgt E) w <= x < tp_as_ptr (tgt E) w + h_size U
  | CRaw U p | CRust U p => p <= x < p + h_size U
  | CVal _ _ | CGone => False
  end.

(** Every reference is usable: not null, aligned, inside one live block, at a valid value of its type. *)
Definition usable (r : ref) (s : st) : Prop := exists v, read_at (r_ty r) (r_addr r) s = Ok v s.

(** A mutable reference is the only way to the bytes behind it; a shared one overlaps no mutable one. *)
Definition exclusive (refs : list (option ref)) : Prop :=
  forall n m r q x, n <> m -> get_ref refs n = Some r -> get_ref refs m = Some q -> r_mut r = true ->
    behind r x -> ~ behind q x.

(** No other variable leads to the bytes behind a reference. *)
Definition own_memory (E : env) (c : list cell) (refs : list (option ref)) : Prop :=
  forall n r j x b, get_ref refs n = Some r -> j <> r_var r -> nth_error c j = Some b -> behind r x -> ~ leads_to E b x.
