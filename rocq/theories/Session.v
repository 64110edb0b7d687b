(** Client programs of the [TaggedBox] API: any number of boxes, raw pointers, Rust boxes and values
    taken out, used in any order, the program choosing each step from what it saw so far. Every step
    runs the functions modelled in [Box.v]; the steps are the calls of
    [/repo/src/tagged_box.rs:82-480] without [Copy] ([/repo/src/tagged_box.rs:533], see C39). *)
From Coq Require Import NArith String Bool List.
From Verif Require Import Words Config Pointer Mem Box.
Import ListNotations.
Local Open Scope N_scope.
Local Open Scope m_scope.

(** What a variable of the client holds. [Gone]: moved away, or never filled because of a panic.
    A client's variable, not code of the repository. For clients of [/repo/src/tagged_box.rs:82-480]. *)
Inductive cell : Type :=
| CBox (U : hty) (w : tagged_ptr)     (* a TaggedBox, made with type U *)
| CRaw (U : hty) (p : N)              (* *mut U from into_raw *)
| CRust (U : hty) (p : N)             (* Box<U> *)
| CVal (U : hty) (v : hval)           (* a value owned by the client *)
| CGone.

(** The calls. Each names the variable it works on; [NewBox] makes a new one.
    The functions of [/repo/src/tagged_box.rs:82-480] and uses of what they return. *)
Inductive op : Type :=
| NewBox (unchecked : bool) (U : hty) (val : hval) (d : N)
| Read (i : nat)                                (* as_ref *)
| ReadPtr (i : nat)                             (* as_ptr().read() of a Copy value, or a look at it *)
| Tag (i : nat)                                 (* discriminant *)
| Modify (i : nat) (f : hval -> hval)           (* as_mut_ref, changed in place *)
| Assign (i : nat) (val : hval)                 (* *as_mut_ref() = val *)
| IntoInner (i : nat)
| IntoRaw (i : nat)
| FromRaw (i : nat) (d : N)
| IntoBox (i : nat)
| RawToBox (i : nat)                            (* Box::from_raw of the client's raw pointer *)
| RustRead (i : nat)                            (* *b of a Box<U> *)
| RustDrop (i : nat)                            (* drop of a Box<U> *)
| RustUnbox (i : nat)                           (* let x = *b; *)
| DropBox (i : nat)                             (* a TaggedBox goes out of scope *)
| DropValue (i : nat)                           (* a value goes out of scope *)
| AssignPtr (i : nat) (val : hval)              (* *as_mut_ptr() = val *)
| RawRead (i : nat)                             (* a look at *p of the client's raw pointer *)
| RawAssign (i : nat) (val : hval).             (* *p = val *)

(** What the client sees of a step. Of the functions of [/repo/src/tagged_box.rs:82-480]. *)
Inductive obs : Type :=
| SawNothing | SawValue (v : hval) | SawTag (d : N) | SawPanic (p : panic).

(** Auxiliary: the list with [x] at place [i]. For clients of [/repo/src/tagged_box.rs:82-480]. *)
Fixpoint put {A} (i : nat) (x : A) (l : list A) : list A :=
  match l, i with
  | [], _ => []
  | _ :: r, O => x :: r
  | y :: r, S k => y :: put k x r
  end.

Section Session.
Variable E : env.

(** One step; [None] when the variable does not hold what the call needs (such a program does not
    compile: use after move, wrong type). The types are those of the variables, so each box is used
    at the type it was made with. [/repo/src/tagged_box.rs:82-480]. *)
Definition step (o : op) (c : list cell) : option (M (obs * list cell)) :=
  match o with
  | NewBox unchecked U val d =>
      Some (w <- (if unchecked then tb_new_unchecked E U val d else tb_new E U val d) ;;
            ret (SawNothing, c ++ [CBox U w]))
  | Read i =>
      match nth_error c i with
      | Some (CBox U w) => Some (v <- tb_as_ref E U w ;; ret (SawValue v, c))
      | _ => None
      end
  | ReadPtr i =>
      match nth_error c i with
      | Some (CBox U w) => Some (v <- read_at U (tb_as_ptr E w) ;; ret (SawValue v, c))
      | _ => None
      end
  | Tag i =>
      match nth_error c i with
      | Some (CBox U w) => Some (ret (SawTag (tb_discriminant E w), c))
      | _ => None
      end
  | Modify i f =>
      match nth_error c i with
      | Some (CBox U w) => Some (tb_modify E U w f ;; ret (SawNothing, c))
      | _ => None
      end
  | Assign i val =>
      match nth_error c i with
      | Some (CBox U w) => Some (tb_assign E U w val ;; ret (SawNothing, c))
      | _ => None
      end
  | IntoInner i =>
      match nth_error c i with
      | Some (CBox U w) => Some (v <- tb_into_inner E U w ;; ret (SawValue v, put i (CVal U v) c))
      | _ => None
      end
  | IntoRaw i =>
      match nth_error c i with
      | Some (CBox U w) => Some (ret (SawNothing, put i (CRaw U (tb_into_raw E w)) c))
      | _ => None
      end
  | FromRaw i d =>
      match nth_error c i with
      | Some (CRaw U p) => Some (w <- tb_from_raw E p d ;; ret (SawNothing, put i (CBox U w) c))
      | _ => None
      end
  | IntoBox i =>
      match nth_error c i with
      | Some (CBox U w) => Some (ret (SawNothing, put i (CRust U (tb_into_box E w)) c))
      | _ => None
      end
  | RawToBox i =>
      match nth_error c i with
      | Some (CRaw U p) => Some (ret (SawNothing, put i (CRust U p) c))
      | _ => None
      end
  | RustRead i =>
      match nth_error c i with
      | Some (CRust U p) => Some (v <- rbox_get U p ;; ret (SawValue v, c))
      | _ => None
      end
  | RustDrop i =>
      match nth_error c i with
      | Some (CRust U p) => Some (rbox_drop U p ;; ret (SawNothing, put i CGone c))
      | _ => None
      end
  | RustUnbox i =>
      match nth_error c i with
      | Some (CRust U p) => Some (v <- rbox_unbox U p ;; ret (SawValue v, put i (CVal U v) c))
      | _ => None
      end
  | DropBox i =>
      match nth_error c i with
      | Some (CBox U w) => Some (tb_drop w ;; ret (SawNothing, put i CGone c))
      | _ => None
      end
  | DropValue i =>
      match nth_error c i with
      | Some (CVal U v) => Some (drop_hval U v ;; ret (SawNothing, put i CGone c))
      | _ => None
      end
  | AssignPtr i val =>
      match nth_error c i with
      | Some (CBox U w) => Some (assign_at U (tb_as_mut_ptr E w) val ;; ret (SawNothing, c))
      | _ => None
      end
  | RawRead i =>
      match nth_error c i with
      | Some (CRaw U p) => Some (v <- read_at U p ;; ret (SawValue v, c))
      | _ => None
      end
  | RawAssign i val =>
      match nth_error c i with
      | Some (CRaw U p) => Some (assign_at U p val ;; ret (SawNothing, c))
      | _ => None
      end
  end.

(** The variables after a step that panicked, for a client that catches the panic.
    The panics of [/repo/src/tagged_box.rs:93], [186], [/repo/src/tagged_pointer.rs:30-43]. *)
Definition after_panic (o : op) (c : list cell) : list cell :=
  match o with NewBox _ _ _ _ => c ++ [CGone] | _ => c end.

(** A program: the next call, and how to go on for each thing it may see.
    A client, not code of the repository. For clients of [/repo/src/tagged_box.rs:82-480]. *)
Inductive prog : Type := Stop | Do (o : op) (k : obs -> prog).

(** How a client's run ends. For clients of [/repo/src/tagged_box.rs:82-480]. *)
Inductive ending : Type :=
| Finished (c : list cell) (s : st)
| Undefined (u : ub)
| DoesNotCompile.

(** Everything the client sees, and how it ends.
    Client and crate together. For clients of [/repo/src/tagged_box.rs:82-480]. *)
Fixpoint run (p : prog) (c : list cell) (s : st) : list obs * ending :=
  match p with
  | Stop => ([], Finished c s)
  | Do o k =>
      match step o c with
      | None => ([], DoesNotCompile)
      | Some m =>
          match m s with
          | Ok (x, c') s' => let (l, e) := run (k x) c' s' in (x :: l, e)
          | Panicked m s' => let (l, e) := run (k (SawPanic m)) (after_panic o c) s' in (SawPanic m :: l, e)
          | UB u => ([], Undefined u)
          end
      end
  end.

End Session.
