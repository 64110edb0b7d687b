(** The client programs of [DropPanics.v] with destructors that do things: they may allocate, free (a [String] frees its buffer), write to
    memory, and panic.

    The functions are those of [DropPanics.v], with code of the user's where that file only notes that a destructor runs. What this code
    must leave alone is said in [SpecDestructors.v]. *)
From Coq Require Import NArith String Bool List.
From Verif Require Import Words Config Pointer Mem Box Session DropPanics.
Import ListNotations.
Local Open Scope N_scope.
Local Open Scope d_scope.

Section Client.
Variable E : env.
(** What the destructor of this value does, run in this state: the state it leaves, and whether it panics. Any function.
    For the destructors of the types [U] of [/repo/src/tagged_box.rs:82]. *)
Variable act : string -> leafval -> st -> st * bool.

(** As [DropPanics.d_drop_leaf]; the log notes the destructor when it is done.
    For [val] in [/repo/src/tagged_box.rs:82-104] and for client code. *)
Definition e_drop_leaf (t : rty) (v : leafval) : DM unit := fun unwinding s =>
  if ty_drop t then
    let s' := log (EvDrop (ty_name t) v) (fst (act (ty_name t) v s)) in
    if snd (act (ty_name t) v s) then draise (InDrop (ty_name t) v) unwinding s' else DOk tt s'
  else DOk tt s.
(** As [DropPanics.d_drop_fields]. For [val] in [/repo/src/tagged_box.rs:82-104] and for client code. *)
Fixpoint e_drop_fields (tys : list rty) (vs : hval) : DM unit :=
  match tys, vs with
  | t :: tr, v :: vr => finally (e_drop_leaf t v) (e_drop_fields tr vr)
  | _, _ => dret tt
  end.
(** A value goes out of scope, as [val] in [/repo/src/tagged_box.rs:84], [93]. *)
Definition e_drop (U : hty) (vs : hval) : DM unit := e_drop_fields (h_types U) vs.

(** As [DropPanics.d_new]: [/repo/src/tagged_box.rs:82-104] and its copy, [175-197]. *)
Definition e_new (U : hty) (val : hval) (d : N) : DM tagged_ptr :=
  if h_size U =? 0 then
    finally (dret (tb_dangling E (h_align U) d)) (e_drop U val)
  else
    p <- plainly (alloc (alloc_fn E) (h_size U) (h_align U)) ;;
    match p with
    | None => finally (draise (InCrate PanicNullAlloc)) (e_drop U val)
    | Some ptr => plainly (write_at U ptr val) ;; plainly (of_outcome (tp_new (tgt E) ptr d))
    end.

(** As [DropPanics.d_assign]. For the pointers of [/repo/src/tagged_box.rs:267-269], [470-472], [324-326]. Simplified: the destructors get
    the fields' values as they were before the first of them ran. *)
Definition e_assign (U : hty) (p : N) (val : hval) : DM unit :=
  old <- plainly (read_at U p) ;;
  finally (e_drop U old) (plainly (write_at U p val)).

(** As [DropPanics.d_rbox_drop]. For the [Box] of [/repo/src/tagged_box.rs:354-359]. Simplified as [e_assign]. *)
Definition e_rbox_drop (U : hty) (p : N) : DM unit :=
  v <- plainly (read_at U p) ;;
  finally (e_drop U v) (if h_size U =? 0 then dret tt else plainly (dealloc p (h_size U) (h_align U))).

(** As [DropPanics.d_step]. [/repo/src/tagged_box.rs:82-480]. *)
Definition e_step (o : op) (c : list cell) : option (DM (obs * list cell)) :=
  match o with
  | NewBox _ U val d => Some (w <- e_new U val d ;; dret (SawNothing, c ++ [CBox U w]))
  | Assign i val =>
      match nth_error c i with
      | Some (CBox U w) => Some (e_assign U (tp_mut_ref_addr (tgt E) w) val ;; dret (SawNothing, c))
      | _ => None
      end
  | AssignPtr i val =>
      match nth_error c i with
      | Some (CBox U w) => Some (e_assign U (tb_as_mut_ptr E w) val ;; dret (SawNothing, c))
      | _ => None
      end
  | RawAssign i val =>
      match nth_error c i with
      | Some (CRaw U p) => Some (e_assign U p val ;; dret (SawNothing, c))
      | _ => None
      end
  | RustDrop i =>
      match nth_error c i with
      | Some (CRust U p) => Some (e_rbox_drop U p ;; dret (SawNothing, put i CGone c))
      | _ => None
      end
  | DropValue i =>
      match nth_error c i with
      | Some (CVal U v) => Some (e_drop U v ;; dret (SawNothing, put i CGone c))
      | _ => None
      end
  | _ => option_map plainly (step E o c)
  end.

(** As [DropPanics.d_run]. For clients of [/repo/src/tagged_box.rs:82-480]. *)
Fixpoint e_run (p : dprog) (c : list cell) (s : st) : list dobs * dending :=
  match p with
  | DStop => ([], DFinished c s)
  | DDo o k =>
      match e_step o c with
      | None => ([], DDoesNotCompile)
      | Some m =>
          match m false s with
          | DOk (x, c') s' => let (l, e) := e_run (k (Saw x)) c' s' in (Saw x :: l, e)
          | DPanic q s' => let (l, e) := e_run (k (caught q)) (d_after_panic o c) s' in (caught q :: l, e)
          | DAbort s' => ([], DAborted s')
          | DUB u => ([], DUndefined u)
          end
      end
  end.

End Client.
