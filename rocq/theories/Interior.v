(** Values with interior mutability ([Cell], [RefCell], ...) in containers.

    A closure given [&Self] can change such a value behind the reference. What it does to the value it
    is given is here part of its result: the contents it leaves. *)
From Coq Require Import NArith String Bool List.
From Verif Require Import Words Config Pointer Mem Box Macro.
Import ListNotations.
Local Open Scope N_scope.
Local Open Scope m_scope.

(** A closure [|this: &Self| ..] with captured variables: the captured variables and the contents of
    [*this] afterwards. The argument of [/repo/src/tagged_box_macro/mod.rs:812-814]. *)
Definition look (S : Type) : Type := evalue -> S -> M (S * evalue).

Section Looks.
Variable E : env.
Variable x : expansion.

(** [/repo/src/tagged_box_macro/mod.rs:812-829], arms in [385-514]: [ref_from_tagged_box]. The value is
    read into the local [variant], the closure gets [&*variant], and nothing is done with [variant]
    afterwards (it is a [ManuallyDrop], except in unit variants). *)
Definition macro_look (S : Type) (w : tagged_ptr) (callback : look S) (captured : S) : M S :=
  match_disc x (tb_discriminant E w) (x_ref x)
    (fun a =>
       variant <- run_build E x (fun H => read_at H (tb_as_ptr E w)) (ra_variant a) (ra_build a) ;;
       after <- at_exit (x_drop x && negb (ra_guarded a)) (enum_drop x variant) (callback variant captured) ;;
       let '(captured, variant) := after in ret captured)
    (raise (PanicNoVariantRef (x_total x) (tb_discriminant E w))).

(** One look after the other. A client of [/repo/src/tagged_box_macro/mod.rs:812-829]. *)
Fixpoint macro_looks {S} (w : tagged_ptr) (l : list (look S)) (c : S) : M S :=
  match l with [] => ret c | f :: l => c <- macro_look S w f c ;; macro_looks w l c end.

(** *** A value that owns a buffer

    [get] is the buffer's address in a value, [set] puts another one. The buffer has layout [H], as the
    [Box<U>] in [RefCell<Box<U>>]. *)
Section Buffer.
Variables (H : hty) (get : evalue -> N) (set : N -> evalue -> evalue).

(** [*this.0.borrow_mut() = Box::new(vs)]: reads through the old buffer, makes the new one, frees the
    old one. User code. For [/repo/src/tagged_box_macro/mod.rs:812-829]. *)
Definition renew (vs : hval) (v : evalue) : M evalue :=
  read_at H (get v) ;;
  p <- alloc (alloc_fn E) (h_size H) (h_align H) ;;
  match p with
  | None => raise (PanicUser "memory allocation failed")
  | Some p => write_at H p vs ;; dealloc (get v) (h_size H) (h_align H) ;; ret (set p v)
  end.

(** As a look, returning what was in the buffer before.
    User code. For [/repo/src/tagged_box_macro/mod.rs:812-829]. *)
Definition swap (vs : hval) : look (list hval) := fun v seen =>
  old <- read_at H (get v) ;; v' <- renew vs v ;; ret (seen ++ [old], v').

(** A [PartialEq] for such an enum that sets the left buffer to [vs] (a normal form, say) and then
    compares the contents; [/repo/src/tagged_box.rs:535-551] calls it on two copies. *)
Definition eq_renewing (eqb : hval -> hval -> bool) (vs : hval) (a b : evalue) : M bool :=
  a <- renew vs a ;; y <- read_at H (get a) ;; z <- read_at H (get b) ;; ret (eqb y z).
End Buffer.
End Looks.
