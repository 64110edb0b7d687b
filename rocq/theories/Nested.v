(** Enums whose fields contain their own container, such as
    [struct List, enum Cell { Nil, Cons(u32, List) }] put through [tagged_box!], with derived [Clone],
    [PartialEq] and [Ord]. The derives are those of [/repo/src/tagged_box_macro/mod.rs:734], copied to the
    enum (line 26) and to the struct (line 739); what core's derives expand to is modelled here: field by
    field in order of declaration.

    A container as a field is the eight bytes of its word (little endian; [/repo/src/tagged_pointer.rs:12]
    and [repr(transparent)], see [Decls.v]). Recursion has a fuel; running out of it stands for a stack
    overflow. *)
From Coq Require Import NArith String Bool List.
From Verif Require Import Words Config Pointer Mem Box Macro.
Import ListNotations.
Local Open Scope N_scope.
Local Open Scope m_scope.

(** The [n] low bytes of a word, [/repo/src/tagged_pointer.rs:12-15]. *)
Fixpoint word_bytes (n : nat) (w : N) : leafval :=
  match n with O => [] | S n => Byte (w mod 256) :: word_bytes n (w / 256) end.
(** And back. For containers within containers, [/repo/src/tagged_box_macro/mod.rs:739-743]. *)
Fixpoint bytes_word (l : leafval) : N :=
  match l with Byte b :: r => b + 256 * bytes_word r | _ => 0 end.

(** A container as a field, [/repo/src/tagged_box_macro/mod.rs:739-743]. *)
Definition enc (w : tagged_ptr) : leafval := word_bytes 8 w.
(** And back. For containers within containers, [/repo/src/tagged_box_macro/mod.rs:739-743]. *)
Definition dec (l : leafval) : tagged_ptr := bytes_word l.

(** Valid bytes of an integer, [/repo/src/tagged_pointer.rs:12-15]. *)
Definition word_valid (v : leafval) : bool :=
  forallb (fun b => match b with Byte n => n <? 256 | Undef => false end) v.

(** The container as a field type: no [Drop] impl, [Copy] if derived; [align] is that of [u64].
    [/repo/src/tagged_box_macro/mod.rs:739-743]. *)
Definition container_ty (name : string) (align : N) (copy : bool) : rty := Ty name 8 align word_valid false copy.

(** The impls of the other field types.
    Not code of the repository. For containers within containers, [/repo/src/tagged_box_macro/mod.rs:739-743]. *)
Record leaf_impls : Type := LeafImpls {
  l_clone : rty -> leafval -> M leafval;
  l_eq : rty -> leafval -> leafval -> M bool;
  l_cmp : rty -> leafval -> leafval -> M comparison
}.

(** Running out of fuel. For containers within containers, [/repo/src/tagged_box_macro/mod.rs:739-743]. *)
Definition stack_overflow : panic := PanicUser "stack overflow".

Section Derived.
Variable E : env.
Variable x : expansion.
Variable L : leaf_impls.

Let T := macro_taggable E x.

(** Is the field type the container itself? For containers within containers, [/repo/src/tagged_box_macro/mod.rs:739-743]. *)
Definition is_self (t : rty) : bool := String.eqb (ty_name t) (x_container x).

(** *** [#[derive(Clone)]] *)

(** core's derive, on the enum of [/repo/src/tagged_box_macro/mod.rs:25-30]. *)
Fixpoint clone_fields (self : tagged_ptr -> M tagged_ptr) (tys : list rty) (vs : hval) : M hval :=
  match tys, vs with
  | t :: tys, v :: vs =>
      c <- (if is_self t then w <- self (dec v) ;; ret (enc w) else l_clone L t v) ;;
      r <- clone_fields self tys vs ;;
      ret (c :: r)
  | _, _ => ret []
  end.

(** core's derive, on the enum of [/repo/src/tagged_box_macro/mod.rs:25-30]. *)
Definition enum_clone (self : tagged_ptr -> M tagged_ptr) (v : evalue) : M evalue :=
  match assoc (ev_variant v) (x_enum x) with
  | Some k => vs <- clone_fields self (kind_types k) (ev_fields v) ;; ret (EV (ev_variant v) vs)
  | None => ret v
  end.

(** The struct's: clones its only field, [/repo/src/tagged_box.rs:515-531]. *)
Fixpoint container_clone (n : nat) (w : tagged_ptr) : M tagged_ptr :=
  match n with O => raise stack_overflow | S n => tb_clone T (enum_clone (container_clone n)) w end.

(** *** [#[derive(PartialEq)]] *)

(** core's derive, on the enum of [/repo/src/tagged_box_macro/mod.rs:25-30]. *)
Fixpoint eq_fields (self : tagged_ptr -> tagged_ptr -> M bool) (tys : list rty) (a b : hval) : M bool :=
  match tys, a, b with
  | t :: tys, v :: a, w :: b =>
      r <- (if is_self t then self (dec v) (dec w) else l_eq L t v w) ;;
      if r then eq_fields self tys a b else ret false
  | _, _, _ => ret true
  end.

(** core's derive, on the enum of [/repo/src/tagged_box_macro/mod.rs:25-30]. *)
Definition enum_eq (self : tagged_ptr -> tagged_ptr -> M bool) (a b : evalue) : M bool :=
  if String.eqb (ev_variant a) (ev_variant b) then
    match assoc (ev_variant a) (x_enum x) with
    | Some k => eq_fields self (kind_types k) (ev_fields a) (ev_fields b)
    | None => ret true
    end
  else ret false.

(** [/repo/src/tagged_box.rs:535-551]. *)
Fixpoint container_eq (n : nat) (a b : tagged_ptr) : M bool :=
  match n with O => raise stack_overflow | S n => tb_eq T (enum_eq (container_eq n)) a b end.

(** *** [#[derive(Ord)]] *)

(** Place of a variant. For containers within containers, [/repo/src/tagged_box_macro/mod.rs:739-743]. *)
Fixpoint position (v : string) (l : list (string * vkind)) : N :=
  match l with [] => 0 | (n, _) :: r => if String.eqb n v then 0 else 1 + position v r end.

(** core's derive, on the enum of [/repo/src/tagged_box_macro/mod.rs:25-30]. *)
Fixpoint cmp_fields (self : tagged_ptr -> tagged_ptr -> M comparison) (tys : list rty) (a b : hval) : M comparison :=
  match tys, a, b with
  | t :: tys, v :: a, w :: b =>
      r <- (if is_self t then self (dec v) (dec w) else l_cmp L t v w) ;;
      match r with Eq => cmp_fields self tys a b | _ => ret r end
  | _, _, _ => ret Eq
  end.

(** core's derive, on the enum of [/repo/src/tagged_box_macro/mod.rs:25-30]. *)
Definition enum_cmp (self : tagged_ptr -> tagged_ptr -> M comparison) (a b : evalue) : M comparison :=
  match position (ev_variant a) (x_enum x) ?= position (ev_variant b) (x_enum x) with
  | Eq =>
      match assoc (ev_variant a) (x_enum x) with
      | Some k => cmp_fields self (kind_types k) (ev_fields a) (ev_fields b)
      | None => ret Eq
      end
  | c => ret c
  end.

(** [/repo/src/tagged_box.rs:573-589]. *)
Fixpoint container_cmp (n : nat) (a b : tagged_ptr) : M comparison :=
  match n with O => raise stack_overflow | S n => tb_cmp T (enum_cmp (container_cmp n)) a b end.

(** ** Two client programs *)

(** A value of such an enum with everything below it.
    Not code of the repository. For containers within containers, [/repo/src/tagged_box_macro/mod.rs:739-743]. *)
Inductive tree : Type := Node (v : string) (f : forest)
with forest : Type := FNil | FLeaf (t : rty) (b : leafval) (r : forest) | FSub (t : tree) (r : forest).

(** Puts a tree together from its leaves, with [Container::from] for each node, in order.
    A client of [/repo/src/tagged_box_macro/mod.rs:762-771]. *)
Fixpoint build (t : tree) : M tagged_ptr :=
  match t with Node v f => vs <- build_fields f ;; container_from E x (EV v vs) end
with build_fields (f : forest) : M hval :=
  match f with
  | FNil => ret []
  | FLeaf _ b r => vs <- build_fields r ;; ret (b :: vs)
  | FSub t r => w <- build t ;; vs <- build_fields r ;; ret (enc w :: vs)
  end.

(** Takes it apart with [into_inner]. A client of [/repo/src/tagged_box_macro/mod.rs:748-759]. *)
Fixpoint take_fields (self : tagged_ptr -> M tree) (tys : list rty) (vs : hval) : M forest :=
  match tys, vs with
  | t :: tys, v :: vs =>
      if is_self t then u <- self (dec v) ;; r <- take_fields self tys vs ;; ret (FSub u r)
      else r <- take_fields self tys vs ;; ret (FLeaf t v r)
  | _, _ => ret FNil
  end.

(** A client of [/repo/src/tagged_box_macro/mod.rs:748-759]. *)
Fixpoint take (n : nat) (w : tagged_ptr) : M tree :=
  match n with
  | O => raise stack_overflow
  | S n =>
      v <- macro_into_inner E x w ;;
      match assoc (ev_variant v) (x_enum x) with
      | Some k => f <- take_fields (take n) (kind_types k) (ev_fields v) ;; ret (Node (ev_variant v) f)
      | None => ret (Node (ev_variant v) FNil)
      end
  end.
End Derived.
