(** The client programs of [Session.v] with destructors that may panic. [Mem.v] has destructors that do not; here any of them may.

    Rust's rules: when a destructor panics, what else was to be destroyed still is (the other fields; the block of a [Box]; the new value of
    an assignment is still moved in); a panic while another one unwinds ends the program. The functions are those of [Box.v], with the places
    where [/repo/src/tagged_box.rs:82-104], [175-197] and their clients run destructors. Simplified as in [Mem.v]: a destructor touches no
    live memory and does not call the crate. Not modelled: a client that does not catch a panic (it is one that stops there), and builds with
    [panic = "abort"]. *)
From Coq Require Import NArith String Bool List.
From Verif Require Import Words Config Pointer Mem Box Session.
Import ListNotations.
Local Open Scope N_scope.

(** ** The machine *)

(** A panic: of the crate, or of the destructor of this value.
    Of the machine under [/repo/src/tagged_box.rs:82-480], not code of the repository. *)
Inductive dpanic : Type := InCrate (p : panic) | InDrop (ty : string) (v : leafval).

(** As [res] in [Mem.v]; also: the program is aborted. Of the machine under [/repo/src/tagged_box.rs:82-480], not code of the repository. *)
Inductive dres (A : Type) : Type :=
| DOk (a : A) (s : st)
| DPanic (p : dpanic) (s : st)
| DAbort (s : st)
| DUB (u : ub).
Arguments DOk {A} a s.
Arguments DPanic {A} p s.
Arguments DAbort {A} s.
Arguments DUB {A} u.

(** Code; the flag says whether it is run by a panic that unwinds.
    Of the machine under [/repo/src/tagged_box.rs:82-480], not code of the repository. *)
Definition DM (A : Type) : Type := bool -> st -> dres A.
(** Code that just returns. Of the machine under [/repo/src/tagged_box.rs:82-480], not code of the repository. *)
Definition dret {A} (a : A) : DM A := fun _ s => DOk a s.
(** Sequence. Of the machine under [/repo/src/tagged_box.rs:82-480], not code of the repository. *)
Definition dbind {A B} (m : DM A) (f : A -> DM B) : DM B := fun unwinding s =>
  match m unwinding s with
  | DOk a s' => f a unwinding s'
  | DPanic p s' => DPanic p s'
  | DAbort s' => DAbort s'
  | DUB u => DUB u
  end.
(** A panic; during another one it aborts. Of the machine under [/repo/src/tagged_box.rs:82-480], not code of the repository. *)
Definition draise {A} (p : dpanic) : DM A := fun unwinding s => if unwinding then DAbort s else DPanic p s.
(** Code of [Mem.v] and [Box.v] that runs no destructors. Of the machine under [/repo/src/tagged_box.rs:82-480], not code of the repository. *)
Definition plainly {A} (m : M A) : DM A := fun unwinding s =>
  match m s with
  | Ok a s' => DOk a s'
  | Panicked p s' => if unwinding then DAbort s' else DPanic (InCrate p) s'
  | UB u => DUB u
  end.
(** [fin] is run after [m], whether [m] panics or not. Rust's drop glue, as for [val] in [/repo/src/tagged_box.rs:82-104]. *)
Definition finally {A} (m : DM A) (fin : DM unit) : DM A := fun unwinding s =>
  match m unwinding s with
  | DOk a s' => dbind fin (fun _ => dret a) unwinding s'
  | DPanic p s' =>
      match fin true s' with
      | DOk _ s2 => DPanic p s2
      | DPanic _ s2 => DAbort s2
      | DAbort s2 => DAbort s2
      | DUB u => DUB u
      end
  | DAbort s' => DAbort s'
  | DUB u => DUB u
  end.

Declare Scope d_scope.
Delimit Scope d_scope with D.
Notation "x <- m ;; k" := (dbind m (fun x => k)) (at level 61, m at next level, right associativity) : d_scope.
Notation "m ;; k" := (dbind m (fun _ => k)) (at level 61, right associativity) : d_scope.
Local Open Scope d_scope.

Section Client.
Variable E : env.
(** Does the destructor of this value panic, run in this state? Any function.
    For the destructors of the types [U] of [/repo/src/tagged_box.rs:82]. *)
Variable fussy : st -> string -> leafval -> bool.

(** The destructor of one field. For [val] in [/repo/src/tagged_box.rs:82-104] and for client code. *)
Definition d_drop_leaf (t : rty) (v : leafval) : DM unit := fun unwinding s =>
  if ty_drop t then
    let s' := log (EvDrop (ty_name t) v) s in
    if fussy s (ty_name t) v then draise (InDrop (ty_name t) v) unwinding s' else DOk tt s'
  else DOk tt s.
(** Those of all fields. As [Mem.drop_events]. For [val] in [/repo/src/tagged_box.rs:82-104] and for client code. *)
Fixpoint d_drop_fields (tys : list rty) (vs : hval) : DM unit :=
  match tys, vs with
  | t :: tr, v :: vr => finally (d_drop_leaf t v) (d_drop_fields tr vr)
  | _, _ => dret tt
  end.
(** A value goes out of scope, as [val] in [/repo/src/tagged_box.rs:84], [93]. *)
Definition d_drop (U : hty) (vs : hval) : DM unit := d_drop_fields (h_types U) vs.

(** ** The functions of [Box.v] *)

(** [/repo/src/tagged_box.rs:82-104] and its copy, [175-197]. Of a zero-sized type, [val] is destroyed when the function returns; when the
    [assert!] panics, it is destroyed by unwinding. *)
Definition d_new (U : hty) (val : hval) (d : N) : DM tagged_ptr :=
  if h_size U =? 0 then
    finally (dret (tb_dangling E (h_align U) d)) (d_drop U val)
  else
    p <- plainly (alloc (alloc_fn E) (h_size U) (h_align U)) ;;
    match p with
    | None => finally (draise (InCrate PanicNullAlloc)) (d_drop U val)
    | Some ptr => plainly (write_at U ptr val) ;; plainly (of_outcome (tp_new (tgt E) ptr d))
    end.

(** [*p = val]. For the pointers of [/repo/src/tagged_box.rs:267-269], [470-472], [324-326]. *)
Definition d_assign (U : hty) (p : N) (val : hval) : DM unit :=
  old <- plainly (read_at U p) ;;
  finally (d_drop U old) (plainly (write_at U p val)).

(** Dropping a [Box<U>]. For the [Box] of [/repo/src/tagged_box.rs:354-359]. *)
Definition d_rbox_drop (U : hty) (p : N) : DM unit :=
  v <- plainly (read_at U p) ;;
  finally (d_drop U v) (if h_size U =? 0 then dret tt else plainly (dealloc p (h_size U) (h_align U))).

(** ** Clients *)

(** As [Session.step]: what runs no destructor is taken from there. [/repo/src/tagged_box.rs:82-480]. *)
Definition d_step (o : op) (c : list cell) : option (DM (obs * list cell)) :=
  match o with
  | NewBox _ U val d => Some (w <- d_new U val d ;; dret (SawNothing, c ++ [CBox U w]))
  | Assign i val =>
      match nth_error c i with
      | Some (CBox U w) => Some (d_assign U (tp_mut_ref_addr (tgt E) w) val ;; dret (SawNothing, c))
      | _ => None
      end
  | AssignPtr i val =>
      match nth_error c i with
      | Some (CBox U w) => Some (d_assign U (tb_as_mut_ptr E w) val ;; dret (SawNothing, c))
      | _ => None
      end
  | RawAssign i val =>
      match nth_error c i with
      | Some (CRaw U p) => Some (d_assign U p val ;; dret (SawNothing, c))
      | _ => None
      end
  | RustDrop i =>
      match nth_error c i with
      | Some (CRust U p) => Some (d_rbox_drop U p ;; dret (SawNothing, put i CGone c))
      | _ => None
      end
  | DropValue i =>
      match nth_error c i with
      | Some (CVal U v) => Some (d_drop U v ;; dret (SawNothing, put i CGone c))
      | _ => None
      end
  | _ => option_map plainly (step E o c)
  end.

(** The variables after a step that panicked: what was being made is not there, what was being destroyed is gone.
    The panics of [/repo/src/tagged_box.rs:93], [186], [/repo/src/tagged_pointer.rs:30-43] and those of destructors. *)
Definition d_after_panic (o : op) (c : list cell) : list cell :=
  match o with
  | NewBox _ _ _ _ => c ++ [CGone]
  | RustDrop i | DropValue i => put i CGone c
  | _ => c
  end.

(** What the client sees of a step. Of the functions of [/repo/src/tagged_box.rs:82-480]. *)
Inductive dobs : Type := Saw (x : obs) | SawDropPanic (ty : string) (v : leafval).
(** A program, as [Session.prog]. A client, not code of the repository. For clients of [/repo/src/tagged_box.rs:82-480]. *)
Inductive dprog : Type := DStop | DDo (o : op) (k : dobs -> dprog).
(** How a run ends. For clients of [/repo/src/tagged_box.rs:82-480]. *)
Inductive dending : Type :=
| DFinished (c : list cell) (s : st)
| DAborted (s : st)
| DUndefined (u : ub)
| DDoesNotCompile.

(** The panic as the client sees it. Of the functions of [/repo/src/tagged_box.rs:82-480]. *)
Definition caught (p : dpanic) : dobs := match p with InCrate q => Saw (SawPanic q) | InDrop n v => SawDropPanic n v end.

(** As [Session.run]. For clients of [/repo/src/tagged_box.rs:82-480]. *)
Fixpoint d_run (p : dprog) (c : list cell) (s : st) : list dobs * dending :=
  match p with
  | DStop => ([], DFinished c s)
  | DDo o k =>
      match d_step o c with
      | None => ([], DDoesNotCompile)
      | Some m =>
          match m false s with
          | DOk (x, c') s' => let (l, e) := d_run (k (Saw x)) c' s' in (Saw x :: l, e)
          | DPanic q s' => let (l, e) := d_run (k (caught q)) (d_after_panic o c) s' in (caught q :: l, e)
          | DAbort s' => ([], DAborted s')
          | DUB u => ([], DUndefined u)
          end
      end
  end.

End Client.
