(** Several threads using the [TaggedBox] API at once. A [TaggedBox<T>] is [Send] and [Sync] when [T] is
    (see C54), so boxes may be handed to other threads and looked at from several.

    A call is no longer one step: it is the list of memory accesses it makes, and between any two of them
    the other threads run. The calls are those of [Session.v]; [C60_calls] proves that a call run without
    interruption is the one of [Session.v].

    Simplified: accesses happen one at a time in some order. This is what Rust promises to programs
    without data races; that there are none is part of C60. *)
From Coq Require Import NArith String Bool List.
From Verif Require Import Words Config Pointer Mem Box Session.
Import ListNotations.
Local Open Scope N_scope.

(** ** Code as a list of accesses *)

(** One access to memory, and running the destructor of a value, as in [/repo/src/tagged_box.rs:92-94], [299],
    and for [Box<U>] of [/repo/src/tagged_box.rs:358]. *)
Inductive act : Type -> Type :=
| AAlloc (size align : N) : act (option N)          (* alloc::alloc::alloc *)
| ARead (U : hty) (p : N) : act hval                (* ptr.read(), or a look through a reference *)
| AWrite (U : hty) (p : N) (v : hval) : act unit    (* ptr.write(v) *)
| AFree (p size align : N) : act unit               (* alloc::alloc::dealloc *)
| ADrop (U : hty) (v : hval) : act unit.            (* drop glue of a value *)

(** Code that does accesses, choosing each by what the ones before gave.
    For the functions of [/repo/src/tagged_box.rs:82-480]. *)
Inductive code (A : Type) : Type :=
| CRet (a : A)
| CPanic (p : panic)
| CStep (X : Type) (a : act X) (k : X -> code A).
Arguments CRet {A} a.
Arguments CPanic {A} p.
Arguments CStep {A} X a k.

Section Threads.
Variable E : env.

(** An access in a state; the functions are those of [Mem.v]. [/repo/src/tagged_box.rs:92-94], [299]. *)
Definition run_act {X : Type} (a : act X) : M X :=
  match a with
  | AAlloc size align => alloc (alloc_fn E) size align
  | ARead U p => read_at U p
  | AWrite U p v => write_at U p v
  | AFree p size align => dealloc p size align
  | ADrop U v => drop_hval U v
  end.

(** The code run without interruption. For the functions of [/repo/src/tagged_box.rs:82-480]. *)
Fixpoint denote {A} (m : code A) : M A :=
  match m with
  | CRet a => ret a
  | CPanic p => raise p
  | CStep _ a k => bind (run_act a) (fun x => denote (k x))
  end.

(** The memory an access touches: reading, or writing and freeing; [None]: none (an access of no bytes, the
    allocator's work, a destructor). For [/repo/src/tagged_box.rs:92-94], [299]. *)
Inductive touch : Type := TRead (p n : N) | TWrite (p n : N).
(** The same for each access. For [/repo/src/tagged_box.rs:92-94], [299]. *)
Definition touches {X : Type} (a : act X) : option touch :=
  match a with
  | ARead U p => if h_size U =? 0 then None else Some (TRead p (h_size U))
  | AWrite U p _ => if h_size U =? 0 then None else Some (TWrite p (h_size U))
  | AFree p size _ => Some (TWrite p size)
  | AAlloc _ _ | ADrop _ _ => None
  end.

(** ** The calls *)

(** [/repo/src/tagged_box.rs:82-104]; [new_unchecked], [/repo/src/tagged_box.rs:175-197], has the same body. *)
Definition c_new {A} (U : hty) (val : hval) (d : N) (k : tagged_ptr -> code A) : code A :=
  if h_size U =? 0 then
    CStep _ (ADrop U val) (fun _ => k (tb_dangling E (h_align U) d))
  else
    CStep _ (AAlloc (h_size U) (h_align U)) (fun p =>
      match p with
      | None => CStep _ (ADrop U val) (fun _ => CPanic PanicNullAlloc)
      | Some ptr => CStep _ (AWrite U ptr val) (fun _ =>
          match tp_new (tgt E) ptr d with Done w => k w | Panics q => CPanic q end)
      end).

(** [*p = val]: look at the old value, destroy it, move in the new one. For a reference from
    [/repo/src/tagged_box.rs:267-269] or a pointer from [324-326], [470-472]. *)
Definition c_assign {A} (U : hty) (p : N) (val : hval) (k : code A) : code A :=
  CStep _ (ARead U p) (fun old => CStep _ (ADrop U old) (fun _ => CStep _ (AWrite U p val) (fun _ => k))).

(** Freeing the block of a [Box<U>], [/repo/src/tagged_box.rs:358]. *)
Definition c_free {A} (U : hty) (p : N) (k : code A) : code A :=
  if h_size U =? 0 then k else CStep _ (AFree p (h_size U) (h_align U)) (fun _ => k).

(** A call on a variable holding [x]: what the client sees and what the variable (for [NewBox]: the new
    one) holds afterwards. The cases are those of [Session.step]; [None]: does not compile.
    [/repo/src/tagged_box.rs:82-480]. *)
Definition c_call (o : op) (x : option cell) : option (code (obs * cell)) :=
  match o, x with
  | NewBox _ U val d, _ => Some (c_new U val d (fun w => CRet (SawNothing, CBox U w)))
  | Read _, Some (CBox U w) => Some (CStep _ (ARead U (tp_ref_addr (tgt E) w)) (fun v => CRet (SawValue v, CBox U w)))
  | ReadPtr _, Some (CBox U w) => Some (CStep _ (ARead U (tb_as_ptr E w)) (fun v => CRet (SawValue v, CBox U w)))
  | Tag _, Some (CBox U w) => Some (CRet (SawTag (tb_discriminant E w), CBox U w))
  | Modify _ f, Some (CBox U w) => Some (CStep _ (ARead U (tp_mut_ref_addr (tgt E) w)) (fun v =>
      CStep _ (AWrite U (tp_mut_ref_addr (tgt E) w) (f v)) (fun _ => CRet (SawNothing, CBox U w))))
  | Assign _ val, Some (CBox U w) => Some (c_assign U (tp_mut_ref_addr (tgt E) w) val (CRet (SawNothing, CBox U w)))
  | AssignPtr _ val, Some (CBox U w) => Some (c_assign U (tb_as_mut_ptr E w) val (CRet (SawNothing, CBox U w)))
  | IntoInner _, Some (CBox U w) => Some (CStep _ (ARead U (tb_as_mut_ptr E w)) (fun v => CRet (SawValue v, CVal U v)))
  | IntoRaw _, Some (CBox U w) => Some (CRet (SawNothing, CRaw U (tb_into_raw E w)))
  | FromRaw _ d, Some (CRaw U p) =>
      Some (match tp_new (tgt E) p d with Done w => CRet (SawNothing, CBox U w) | Panics q => CPanic q end)
  | IntoBox _, Some (CBox U w) => Some (CRet (SawNothing, CRust U (tb_into_box E w)))
  | RawToBox _, Some (CRaw U p) => Some (CRet (SawNothing, CRust U p))
  | RustRead _, Some (CRust U p) => Some (CStep _ (ARead U p) (fun v => CRet (SawValue v, CRust U p)))
  | RustDrop _, Some (CRust U p) => Some (CStep _ (ARead U p) (fun v => CStep _ (ADrop U v) (fun _ =>
      c_free U p (CRet (SawNothing, CGone)))))
  | RustUnbox _, Some (CRust U p) => Some (CStep _ (ARead U p) (fun v => c_free U p (CRet (SawValue v, CVal U v))))
  | DropBox _, Some (CBox _ _) => Some (CRet (SawNothing, CGone))
  | DropValue _, Some (CVal U v) => Some (CStep _ (ADrop U v) (fun _ => CRet (SawNothing, CGone)))
  | RawRead _, Some (CRaw U p) => Some (CStep _ (ARead U p) (fun v => CRet (SawValue v, CRaw U p)))
  | RawAssign _ val, Some (CRaw U p) => Some (c_assign U p val (CRet (SawNothing, CRaw U p)))
  | _, _ => None
  end.

End Threads.

(** The variable a call works on. For the calls of [/repo/src/tagged_box.rs:82-480]. *)
Definition target_of (o : op) : option nat :=
  match o with
  | NewBox _ _ _ _ => None
  | Read i | ReadPtr i | Tag i | Modify i _ | Assign i _ | AssignPtr i _ | IntoInner i | IntoRaw i | FromRaw i _ | IntoBox i
  | RawToBox i | RustRead i | RustDrop i | RustUnbox i | DropBox i | DropValue i | RawRead i | RawAssign i _ => Some i
  end.

(** ** Threads *)

(** Who may use a variable: one thread, or all through shared references [&TaggedBox<T>].
    Rust's ownership, not code of the repository; the calls are those of [/repo/src/tagged_box.rs:82-480]. *)
Inductive owner : Type := By (t : nat) | Everyone.

(** The calls that take [&self]: [/repo/src/tagged_box.rs:235], [419], [443]. *)
Definition by_shared_ref (o : op) : bool :=
  match o with Read _ | ReadPtr _ | Tag _ => true | _ => false end.

(** May thread [t] make the call? What Rust's ownership rules allow.
    For the calls of [/repo/src/tagged_box.rs:82-480]. *)
Definition allowed (owners : list owner) (t : nat) (o : op) : bool :=
  match target_of o with
  | None => true
  | Some i =>
      match nth_error owners i with
      | Some (By t') => Nat.eqb t t'
      | Some Everyone => by_shared_ref o
      | None => false
      end
  end.

(** What a thread does: calls (its way on depends on what it sees; for a new box it learns the number of
    the variable), handing a variable to a thread, sharing a box from now on, taking the next variable
    handed to it. Clients, not code of the repository. For clients of [/repo/src/tagged_box.rs:82-480]. *)
Inductive tprog : Type :=
| TStop
| TCall (o : op) (k : nat -> obs -> tprog)
| TGive (i t : nat) (k : tprog)
| TShare (i : nat) (k : tprog)
| TTake (k : nat -> tprog).

(** A thread between calls, or inside one with the accesses still to come ([out]: the allocator returned null
    during this call). [Rejected]: a step the compiler does not accept. For clients of [/repo/src/tagged_box.rs:82-480]. *)
Inductive job : Type :=
| Idle (p : tprog)
| Busy (o : op) (out : bool) (m : code (obs * cell)) (k : nat -> obs -> tprog)
| Rejected.

(** [mail]: the variables handed to it, oldest first; [seen]: everything it saw. For clients of [/repo/src/tagged_box.rs:82-480]. *)
Record thread : Type := Thread { doing : job; mail : list nat; seen : list obs }.

(** All threads, all their variables, memory. For clients of [/repo/src/tagged_box.rs:82-480]. *)
Record sys : Type := Sys {
  threads : list thread;
  vars : list cell;
  owners : list owner;
  memory : st
}.

(** A move of a thread; [done]: it completed a call or another step of the program (and whether the
    allocator had failed it). For clients of [/repo/src/tagged_box.rs:82-480]. *)
Inductive moved : Type := Moved (y : sys) (finished : option (nat * bool)) | Broke (u : ub).

(** Did the allocator return null? [/repo/src/tagged_box.rs:92-93]. *)
Definition out_of_memory {X : Type} (a : act X) : X -> bool :=
  match a in act X return X -> bool with
  | AAlloc _ _ => fun p => match p with None => true | Some _ => false end
  | _ => fun _ => false
  end.

Section Moves.
Variable E : env.

(** Auxiliary: the system with another thread [t]. For clients of [/repo/src/tagged_box.rs:82-480]. *)
Definition with_thread (t : nat) (h : thread) (y : sys) : sys :=
  Sys (put t h (threads y)) (vars y) (owners y) (memory y).

(** A call ends: the variable gets its new contents (for [NewBox] a new variable of this thread).
    For clients of [/repo/src/tagged_box.rs:82-480]. *)
Definition returns (t : nat) (h : thread) (o : op) (k : nat -> obs -> tprog) (x : obs) (c : option cell) (y : sys) : sys :=
  match target_of o with
  | Some i =>
      Sys (put t (Thread (Idle (k i x)) (mail h) (seen h ++ [x])) (threads y))
          (match c with Some c => put i c (vars y) | None => vars y end) (owners y) (memory y)
  | None =>
      Sys (put t (Thread (Idle (k (List.length (vars y)) x)) (mail h) (seen h ++ [x])) (threads y))
          (vars y ++ [match c with Some c => c | None => CGone end]) (owners y ++ [By t]) (memory y)
  end.

(** The next move of thread [t]. A call starts (nothing happens yet), makes its next access, or returns; after a
    panic the variables are as in [Session.after_panic]. A thread waiting for a variable, or at its end, stays.
    For clients of [/repo/src/tagged_box.rs:82-480]. *)
Definition move (t : nat) (y : sys) : moved :=
  match nth_error (threads y) t with
  | None => Moved y None
  | Some h =>
      match doing h with
      | Rejected | Idle TStop => Moved y None
      | Idle (TCall o k) =>
          match (if allowed (owners y) t o
                 then c_call E o (match target_of o with Some i => nth_error (vars y) i | None => None end) else None) with
          | Some m => Moved (with_thread t (Thread (Busy o false m k) (mail h) (seen h)) y) None
          | None => Moved (with_thread t (Thread Rejected (mail h) (seen h)) y) None
          end
      | Busy o out m k =>
          match m with
          | CRet (x, c) => Moved (returns t h o k x (Some c) y) (Some (t, out))
          | CPanic q => Moved (returns t h o k (SawPanic q) None y) (Some (t, out))
          | CStep _ a next =>
              match run_act E a (memory y) with
              | Ok x s => Moved (Sys (put t (Thread (Busy o (out || out_of_memory a x) (next x) k) (mail h) (seen h)) (threads y))
                                     (vars y) (owners y) s) None
              | Panicked _ _ => Moved (with_thread t (Thread Rejected (mail h) (seen h)) y) None     (* no access panics *)
              | UB u => Broke u
              end
          end
      | Idle (TGive i t' k) =>
          match nth_error (owners y) i, nth_error (put t (Thread (Idle k) (mail h) (seen h)) (threads y)) t' with
          | Some w, Some h' =>
              if (match w with By x => Nat.eqb t x | Everyone => true end) then
                Moved (Sys (put t' (Thread (doing h') (mail h' ++ [i]) (seen h')) (put t (Thread (Idle k) (mail h) (seen h)) (threads y)))
                           (vars y) (match w with By _ => put i (By t') (owners y) | Everyone => owners y end) (memory y))
                      (Some (t, false))
              else Moved (with_thread t (Thread Rejected (mail h) (seen h)) y) None
          | _, _ => Moved (with_thread t (Thread Rejected (mail h) (seen h)) y) None
          end
      | Idle (TShare i k) =>
          match nth_error (owners y) i, nth_error (vars y) i with
          | Some (By x), Some (CBox _ _) =>
              if Nat.eqb t x then
                Moved (Sys (put t (Thread (Idle k) (mail h) (seen h)) (threads y)) (vars y) (put i Everyone (owners y)) (memory y)) (Some (t, false))
              else Moved (with_thread t (Thread Rejected (mail h) (seen h)) y) None
          | _, _ => Moved (with_thread t (Thread Rejected (mail h) (seen h)) y) None
          end
      | Idle (TTake k) =>
          match mail h with
          | [] => Moved y None
          | i :: r => Moved (with_thread t (Thread (Idle (k i)) r (seen h)) y) (Some (t, false))
          end
      end
  end.

(** The threads move in the given order: the steps completed, and how it ends. For clients of [/repo/src/tagged_box.rs:82-480]. *)
Fixpoint moves (order : list nat) (y : sys) : list (nat * bool) * (sys + ub) :=
  match order with
  | [] => ([], inl y)
  | t :: r =>
      match move t y with
      | Broke u => ([], inr u)
      | Moved y' e =>
          let (l, z) := moves r y' in
          (match e with Some f => f :: l | None => l end, z)
      end
  end.

End Moves.

(** The memory thread [h] is about to touch. For the calls of [/repo/src/tagged_box.rs:82-480]. *)
Definition about_to (h : thread) : option touch :=
  match doing h with Busy _ _ (CStep _ a _) _ => touches a | _ => None end.

(** Threads that run the given programs, without variables. For clients of [/repo/src/tagged_box.rs:82-480]. *)
Definition boot (ps : list tprog) (s : st) : sys := Sys (map (fun p => Thread (Idle p) [] []) ps) [] [] s.
