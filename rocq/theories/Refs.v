(** References into boxes that live on while the client does other things. In [Session.v] a reference is used
    up in the call that makes it; here [as_ref] and [as_mut_ref] give references that are kept in variables and
    used later, as long as the borrow checker allows it. *)
From Coq Require Import NArith String Bool List.
From Verif Require Import Words Config Pointer Mem Box Session Threads.
Import ListNotations.
Local Open Scope N_scope.
Local Open Scope m_scope.

(** A reference: the variable it borrows, whether it is [&mut], its type and address.
    The results of [/repo/src/tagged_box.rs:235-237], [267-269]. *)
Record ref : Type := Ref { r_var : nat; r_mut : bool; r_ty : hty; r_addr : N }.

(** Steps of a client: calls as in [Session.v], making references with [as_ref] and [as_mut_ref]
    ([/repo/src/tagged_box.rs:235-237], [267-269]), using references, and a reference's last use. *)
Inductive rop : Type :=
| Call (o : op)
| Borrow (i : nat)                           (* let r = b.as_ref::<U>(); *)
| BorrowMut (i : nat)                        (* let r = b.as_mut_ref::<U>(); *)
| Look (r : nat)                             (* a look at *r *)
| Update (r : nat) (f : hval -> hval)        (* *r changed in place *)
| Overwrite (r : nat) (val : hval)           (* *r = val; *)
| Replace (r : nat) (val : hval)             (* let old = core::mem::replace(r, val); old in a new variable *)
| Swap (r q : nat)                           (* core::mem::swap(r, q); *)
| EndRef (r : nat).                          (* r is not used any more *)

(** ** The borrow checker *)

(** Is there a reference (a mutable one) to variable [i]? Rust, for the lifetimes in
    [/repo/src/tagged_box.rs:235], [267]. *)
Definition borrowed (refs : list (option ref)) (i : nat) : bool :=
  existsb (fun r => match r with Some r => Nat.eqb (r_var r) i | None => false end) refs.
(** A mutable one. Rust, for the lifetimes in [/repo/src/tagged_box.rs:235], [267]. *)
Definition borrowed_mut (refs : list (option ref)) (i : nat) : bool :=
  existsb (fun r => match r with Some r => Nat.eqb (r_var r) i && r_mut r | None => false end) refs.

(** A call with [&self] is rejected while there is a mutable reference, any other while there is any.
    Rust, for the receivers in [/repo/src/tagged_box.rs:82-480]. *)
Definition passes_borrowck (refs : list (option ref)) (o : op) : bool :=
  match target_of o with
  | None => true
  | Some i => if by_shared_ref o then negb (borrowed_mut refs i) else negb (borrowed refs i)
  end.

(** Auxiliary: the reference in variable [r]. For clients of [/repo/src/tagged_box.rs:82-480]. *)
Definition get_ref (refs : list (option ref)) (r : nat) : option ref :=
  match nth_error refs r with Some x => x | None => None end.

Section Refs.
Variable E : env.

(** One step; [None]: does not compile. Making a reference needs a valid value there, so the model reads it.
    [/repo/src/tagged_box.rs:82-480]. *)
Definition rstep (o : rop) (c : list cell) (refs : list (option ref)) : option (M (obs * (list cell * list (option ref)))) :=
  match o with
  | Call o =>
      if passes_borrowck refs o then option_map (fun m => r <- m ;; ret (fst r, (snd r, refs))) (step E o c) else None
  | Borrow i =>
      match nth_error c i with
      | Some (CBox U w) =>
          if borrowed_mut refs i then None else
          Some (tb_as_ref E U w ;; ret (SawNothing, (c, refs ++ [Some (Ref i false U (tp_ref_addr (tgt E) w))])))
      | _ => None
      end
  | BorrowMut i =>
      match nth_error c i with
      | Some (CBox U w) =>
          if borrowed refs i then None else
          Some (read_at U (tp_mut_ref_addr (tgt E) w) ;;
                ret (SawNothing, (c, refs ++ [Some (Ref i true U (tp_mut_ref_addr (tgt E) w))])))
      | _ => None
      end
  | Look r =>
      match get_ref refs r with
      | Some (Ref _ _ U p) => Some (v <- read_at U p ;; ret (SawValue v, (c, refs)))
      | None => None
      end
  | Update r f =>
      match get_ref refs r with
      | Some (Ref _ true U p) => Some (v <- read_at U p ;; write_at U p (f v) ;; ret (SawNothing, (c, refs)))
      | _ => None
      end
  | Overwrite r val =>
      match get_ref refs r with
      | Some (Ref _ true U p) => Some (assign_at U p val ;; ret (SawNothing, (c, refs)))
      | _ => None
      end
  | Replace r val =>
      match get_ref refs r with
      | Some (Ref _ true U p) => Some (v <- read_at U p ;; write_at U p val ;; ret (SawNothing, (c ++ [CVal U v], refs)))
      | _ => None
      end
  | Swap r q =>
      if Nat.eqb r q then None else
      match get_ref refs r, get_ref refs q with
      | Some (Ref _ true U p), Some (Ref _ true U' p') =>
          Some (v <- read_at U p ;; v' <- read_at U' p' ;; write_at U p v' ;; write_at U' p' v ;; ret (SawNothing, (c, refs)))
      | _, _ => None
      end
  | EndRef r =>
      match get_ref refs r with
      | Some _ => Some (ret (SawNothing, (c, put r None refs)))
      | None => None
      end
  end.

(** The variables after a panic that the client catches, as in [Session.v]; only calls panic.
    For clients of [/repo/src/tagged_box.rs:82-480]. *)
Definition rafter_panic (o : rop) (c : list cell) : list cell :=
  match o with Call o => after_panic o c | _ => c end.

(** A client: the next step, and how to go on for each thing it may see. For clients of [/repo/src/tagged_box.rs:82-480]. *)
Inductive rprog : Type := RStop | RDo (o : rop) (k : obs -> rprog).

(** How its run ends. For clients of [/repo/src/tagged_box.rs:82-480]. *)
Inductive rending : Type :=
| RFinished (c : list cell) (refs : list (option ref)) (s : st)
| RUndefined (u : ub)
| RDoesNotCompile.

(** Everything the client sees, and how it ends. For clients of [/repo/src/tagged_box.rs:82-480]. *)
Fixpoint rrun (p : rprog) (c : list cell) (refs : list (option ref)) (s : st) : list obs * rending :=
  match p with
  | RStop => ([], RFinished c refs s)
  | RDo o k =>
      match rstep o c refs with
      | None => ([], RDoesNotCompile)
      | Some m =>
          match m s with
          | Ok (x, (c', refs')) s' => let (l, e) := rrun (k x) c' refs' s' in (x :: l, e)
          | Panicked q s' => let (l, e) := rrun (k (SawPanic q)) (rafter_panic o c) refs s' in (SawPanic q :: l, e)
          | UB u => ([], RUndefined u)
          end
      end
  end.

End Refs.
