(** Model of the hand-written implementations in the documentation: the guide
    [/repo/src/manually_impl_enum.rs:18-102] ([Item] with [Integer(i32)] and [Boolean(bool)]) and the
    hidden part of the macro's documentation [/repo/src/tagged_box_macro/mod.rs:638-678] ([Item] with
    [Integer(i32)], [Boolean(bool)] and [String(String)]). The types of the calls to [new] and
    [into_inner], inferred by Rust, are written out. *)
From Coq Require Import NArith String Bool List.
From Verif Require Import Words Config Pointer Mem Box Bump.
Import ListNotations.
Local Open Scope N_scope.
Local Open Scope m_scope.

(** [panic!()] and [unreachable!()] in user code. [/repo/src/manually_impl_enum.rs:41], [76], [99]. *)
Definition explicit_panic {A} : M A := raise (PanicUser "explicit panic").
(** [/repo/src/tagged_box_macro/mod.rs:662], [674]. *)
Definition unreachable {A} : M A := raise (PanicUser "internal error: entered unreachable code").

(** ** The guide *)

(** [/repo/src/manually_impl_enum.rs:46-49]. *)
Inductive guide_item : Type := GInteger (v : leafval) | GBoolean (v : leafval).

Section Guide.
Variable E : env.

(** [enum EnumCounter { Integer, Boolean }] and [EnumCounter::Integer as _]
    ([/repo/src/manually_impl_enum.rs:30-33, 53-56, 65-68, 83-86]): the cast is to [Discriminant], of
    whatever width. *)
Definition guide_tag (i : N) : N := cast (disc_ty_bits (cfg (tgt E))) i.

(** [/repo/src/manually_impl_enum.rs:58-61]. *)
Definition guide_into (v : guide_item) : M tagged_ptr :=
  match v with
  | GInteger value => tb_new E (leaf_hty ty_i32) [value] (guide_tag 0)
  | GBoolean value => tb_new E (leaf_hty ty_bool) [value] (guide_tag 1)
  end.

(** The value read at a single type. Auxiliary. For [/repo/src/manually_impl_enum.rs:18-102]. *)
Definition only (vs : hval) : leafval := match vs with [v] => v | _ => [] end.

(** [/repo/src/manually_impl_enum.rs:29-43]. *)
Definition guide_inner (w : tagged_ptr) : M guide_item :=
  if tb_discriminant E w =? guide_tag 0 then v <- tb_into_inner E (leaf_hty ty_i32) w ;; ret (GInteger (only v))
  else if tb_discriminant E w =? guide_tag 1 then v <- tb_into_inner E (leaf_hty ty_bool) w ;; ret (GBoolean (only v))
  else explicit_panic.

(** [/repo/src/manually_impl_enum.rs:64-78]. *)
Definition guide_from (w : tagged_ptr) : M guide_item :=
  if tb_discriminant E w =? guide_tag 0 then v <- tb_into_inner E (leaf_hty ty_i32) w ;; ret (GInteger (only v))
  else if tb_discriminant E w =? guide_tag 1 then v <- tb_into_inner E (leaf_hty ty_bool) w ;; ret (GBoolean (only v))
  else explicit_panic.

(** [/repo/src/manually_impl_enum.rs:80-101]; the values are in [ManuallyDrop]. *)
Definition guide_ref (S : Type) (w : tagged_ptr) (callback : guide_item -> S -> M S) (captured : S) : M S :=
  if tb_discriminant E w =? guide_tag 0 then
    v <- read_at (leaf_hty ty_i32) (tb_as_ptr E w) ;; callback (GInteger (only v)) captured
  else if tb_discriminant E w =? guide_tag 1 then
    v <- read_at (leaf_hty ty_bool) (tb_as_ptr E w) ;; callback (GBoolean (only v)) captured
  else explicit_panic.

(** [/repo/src/manually_impl_enum.rs:51-102]. *)
Definition guide_taggable : taggable guide_item := Taggable guide_item guide_into guide_from guide_ref.

End Guide.

(** ** The macro's documentation *)

(** [/repo/src/tagged_box_macro/mod.rs:639-643]. *)
Inductive doc_item : Type := DInteger (v : leafval) | DBoolean (v : leafval) | DString (v : leafval).

Section Doc.
Variable E : env.

(** [/repo/src/tagged_box_macro/mod.rs:648-654]. *)
Definition doc_into (v : doc_item) : M tagged_ptr :=
  match v with
  | DInteger int => tb_new E (leaf_hty ty_i32) [int] 0
  | DBoolean boolean => tb_new E (leaf_hty ty_bool) [boolean] 1
  | DString string => tb_new E (leaf_hty ty_string) [string] 2
  end.

(** [/repo/src/tagged_box_macro/mod.rs:655-664]. *)
Definition doc_from (w : tagged_ptr) : M doc_item :=
  match tb_discriminant E w with
  | 0 => v <- tb_into_inner E (leaf_hty ty_i32) w ;; ret (DInteger (only v))
  | 1 => v <- tb_into_inner E (leaf_hty ty_bool) w ;; ret (DBoolean (only v))
  | 2 => v <- tb_into_inner E (leaf_hty ty_string) w ;; ret (DString (only v))
  | _ => unreachable
  end.

(** [/repo/src/tagged_box_macro/mod.rs:665-677]; [*tagged.as_ptr::<i32>()] copies. *)
Definition doc_ref (S : Type) (w : tagged_ptr) (callback : doc_item -> S -> M S) (captured : S) : M S :=
  value <- match tb_discriminant E w with
           | 0 => v <- read_at (leaf_hty ty_i32) (tb_as_ptr E w) ;; ret (DInteger (only v))
           | 1 => v <- read_at (leaf_hty ty_bool) (tb_as_ptr E w) ;; ret (DBoolean (only v))
           | 2 => v <- read_at (leaf_hty ty_string) (tb_as_ptr E w) ;; ret (DString (only v))
           | _ => unreachable
           end ;;
  callback value captured.

(** [/repo/src/tagged_box_macro/mod.rs:647-678]. *)
Definition doc_taggable : taggable doc_item := Taggable doc_item doc_into doc_from doc_ref.

End Doc.
