(** The Rust text of what [tagged_box!] generates, written down as text with holes. Used to state C65. *)
From Coq Require Import Arith NArith String Bool List DecimalString.
From Verif Require Import Words Config Pointer Mem Box Macro Tokens Heads SpecHeads Lexer MacroRules.
Import ListNotations.
Local Open Scope string_scope.
Local Open Scope list_scope.

(** ** Code as a plain list of tokens *)

(** How fragments came about and what is a call does not matter to the text. *)
Fixpoint plain_tree (t : tree) : list tk :=
  match t with
  | TGroup d l => [G d (flat_map plain_tree l)]
  | TOp o => if String.eqb o "$crate" then [W (TOp "$"); W (TId "crate")] else [W (TOp o)]
  | t => [W t]
  end.
Fixpoint plain_tk (t : tk) : list tk :=
  match t with
  | W t => plain_tree t
  | G d l => [G d (flat_map plain_tk l)]
  | C in_crate m d l =>
      (if in_crate then [W (TOp "$"); W (TId "crate"); W (TOp "::")] else []) ++ [W (TId m); W TBang; G d (flat_map plain_tk l)]
  | FTy t => [FTy t]
  | F _ l => flat_map plain_tk l
  end.
Definition plain (l : list tk) : list tk := flat_map plain_tk l.

(** ** Text with holes *)

(** Some words in the text are names of holes. *)
Fixpoint lookup (holes : list (string * list tk)) (s : string) : option (list tk) :=
  match holes with [] => None | (h, l) :: r => if String.eqb s h then Some l else lookup r s end.
Fixpoint fill (holes : list (string * list tk)) (t : tree) : list tk :=
  match t with
  | TId s => match lookup holes s with Some l => l | None => [W (TId s)] end
  | TGroup d l => [G d (flat_map (fill holes) l)]
  | t => [W t]
  end.
Definition filled (text : list tree) (holes : list (string * list tk)) : list tk := flat_map (fill holes) text.
Definition toks (s : string) : list tree := match lex s with Some l => l | None => [] end.

(** ** Parts *)

Definition id (s : string) : list tk := [W (TId s)].
Fixpoint commas (l : list (list tk)) : list tk :=
  match l with
  | [] => []
  | [a] => a
  | a :: l => a ++ W TComma :: commas l
  end.
Definition ids (l : list string) : list tk := commas (map id l).
Definition types (l : list rty) : list tk := commas (map (fun t => [FTy t]) l).
Definition members (l : list (string * rty)) : list tk := commas (map (fun m => [W (TId (fst m)); W TColon; FTy (snd m)]) l).
(** [A, B,], with a comma after the last. *)
Definition types_each (l : list rty) : list tk := flat_map (fun t => [FTy t; W TComma]) l.

Definition attrs (l : list meta) : list tk :=
  flat_map (fun m => [W (TOp "#"); G Bracket (flat_map plain_tree (write_meta m))]) l.
Definition visibility (v : vis) : list tk := flat_map plain_tree (write_vis v).

(** [counter::VARIANT as u8] *)
Definition tag_text : list tree := Eval vm_compute in toks "__tagged_box_enum_counter::VARIANT as TYPE".
Definition tag (t : tag_expr) : list tk :=
  filled tag_text [("VARIANT", id (tg_variant t)); ("TYPE", id (if N.eqb (tg_bits t) 8 then "u8" else "usize"))].

(** [tuple.0, tuple.1]; from seven on there is a comma after the last. *)
Definition decimal (n : nat) : string := NilZero.string_of_uint (Nat.to_uint n).
Definition accesses (idx : list nat) : list tk :=
  commas (map (fun i => [W (TId "tuple"); W (TOp "."); W (TLit (decimal i))]) idx) ++
  (if Nat.leb 7 (List.length idx) then [W TComma] else []).

(** The constructor applied to the fields of a tuple; without fields the tuple is not looked at. *)
Definition fields_text : list tree := Eval vm_compute in toks "{ let tuple = EXPR; PATH(FIELDS) }".
Definition from_fields (path expr : list tk) (idx : list nat) : list tk :=
  match idx with
  | [] => path ++ [G Paren []]
  | _ => filled fields_text [("EXPR", expr); ("PATH", path); ("FIELDS", accesses idx)]
  end.

(** ** [into_tagged_box] *)

Definition pat_unit_text : list tree := Eval vm_compute in toks "ENUM::VARIANT".
Definition pat_tuple_text : list tree := Eval vm_compute in toks "ENUM::VARIANT(NAMES)".
Definition pat_struct_text : list tree := Eval vm_compute in toks "ENUM::VARIANT { NAMES }".
Definition pattern_of (e : string) (a : into_arm) : list tk :=
  let holes := [("ENUM", id e); ("VARIANT", id (ia_variant a))] in
  match ia_pat a with
  | PUnit => filled pat_unit_text holes
  | PTuple l => filled pat_tuple_text (("NAMES", ids l) :: holes)
  | PStruct l => filled pat_struct_text (("NAMES", ids l) :: holes)
  end.
Definition new_leaf_text : list tree := Eval vm_compute in toks
  "{ $crate::TaggedBox::<ENUM>::new::<TYPE>(ARG, TAG) },".
Definition new_tuple_text : list tree := Eval vm_compute in toks
  "{ #[repr(C)] struct VARIANT(TYPES); $crate::TaggedBox::new::<VARIANT>(VARIANT(ARGS), TAG) }".
Definition new_struct_text : list tree := Eval vm_compute in toks
  "{ #[repr(C)] struct VARIANT { MEMBERS } $crate::TaggedBox::<ENUM>::new::<VARIANT>(VARIANT { ARGS }, TAG) }".
Definition dangling_text : list tree := Eval vm_compute in toks
  "$crate::TaggedBox::<ENUM>::dangling::<ENUM>(TAG),".
Definition body_of (e : string) (a : into_arm) : list tk :=
  let holes := [("ENUM", id e); ("VARIANT", id (ia_variant a)); ("TAG", tag (ia_tag a))] in
  match ia_body a with
  | INewLeaf t x => filled new_leaf_text (("TYPE", [FTy t]) :: ("ARG", id x) :: holes)
  | INewTuple tys l => filled new_tuple_text (("TYPES", types tys) :: ("ARGS", ids l) :: holes)
  | INewStruct ms l => filled new_struct_text (("MEMBERS", members ms) :: ("ARGS", ids l) :: holes)
  | IDangling => filled dangling_text holes
  end.
Definition into_arm_code (e : string) (a : into_arm) : list tk := pattern_of e a ++ [W (TOp "=>")] ++ body_of e a.

(** ** The functions that look at the discriminant *)

(** The box, and what comes out of it. *)
Definition path_text : list tree := Eval vm_compute in toks "ENUM::VARIANT".
Definition path_of (e v : string) : list tk := filled path_text [("ENUM", id e); ("VARIANT", id v)].
Definition into_inner_text : list tree := Eval vm_compute in toks "$crate::TaggedBox::<ENUM>::into_inner::<TYPE>(BOX)".
Definition into_inner_of (e : string) (box ty : list tk) : list tk :=
  filled into_inner_text [("ENUM", id e); ("TYPE", ty); ("BOX", box)].
Definition read_text : list tree := Eval vm_compute in toks "tagged.as_ptr::<TYPE>().read()".
Definition read_of (ty : list tk) : list tk := filled read_text [("TYPE", ty)].

Definition arm_text : list tree := Eval vm_compute in toks "discrim if discrim == TAG => BODY".
Definition read_arm_code (body : list tk) (a : read_arm) : list tk := filled arm_text [("TAG", tag (ra_tag a)); ("BODY", body)].

(** [into_inner] of the container. *)
Definition owned_unit_text : list tree := Eval vm_compute in toks "ENUM::VARIANT,".
Definition owned_leaf_text : list tree := Eval vm_compute in toks "{ ENUM::VARIANT(VALUE) },".
Definition owned_block_text : list tree := Eval vm_compute in toks "{ VALUE },".
Definition inner_tuple_text : list tree := Eval vm_compute in toks "{ #[allow(dead_code)] #[repr(C)] struct VARIANT(TYPES); VALUE },".
Definition owned_struct_text : list tree := Eval vm_compute in toks
  "{ #[repr(C)] struct VARIANT { MEMBERS } let VARIANT { PATTERN } = VALUE; ENUM::VARIANT { FIELDS } },".

Definition inner_body (e : string) (a : read_arm) : list tk :=
  let v := ra_variant a in
  let box := [W (TId "self"); W (TOp "."); W (TId "value")] in
  let holes := [("ENUM", id e); ("VARIANT", id v)] in
  match ra_build a with
  | BUnit => filled owned_unit_text holes
  | BEmpty => filled inner_tuple_text (("TYPES", []) :: ("VALUE", from_fields (path_of e v) [] []) :: holes)
  | BLeaf t => filled owned_leaf_text (("VALUE", into_inner_of e box [FTy t]) :: holes)
  | BReprC tys idxs =>
      filled inner_tuple_text
        (("TYPES", types tys) :: ("VALUE", from_fields (path_of e v) (into_inner_of e box (id v)) (concat idxs)) :: holes)
  | BTuple tys idx => filled owned_block_text [("VALUE", from_fields (path_of e v) (into_inner_of e box [G Paren (types tys)]) idx)]
  | BStruct ms p l =>
      filled owned_struct_text
        (("MEMBERS", members ms) :: ("PATTERN", ids p) :: ("FIELDS", ids l) :: ("VALUE", into_inner_of e box (id v)) :: holes)
  end.

(** [from_tagged_box] of the enum. *)
Definition from_body (e : string) (a : read_arm) : list tk :=
  let v := ra_variant a in
  let box := [W (TId "tagged")] in
  let holes := [("ENUM", id e); ("VARIANT", id v)] in
  match ra_build a with
  | BUnit => filled owned_unit_text holes
  | BEmpty => filled owned_block_text [("VALUE", from_fields (path_of e v) [] [])]
  | BLeaf t => filled owned_leaf_text (("VALUE", into_inner_of e box [FTy t]) :: holes)
  | BReprC tys idxs =>
      filled inner_tuple_text
        (("TYPES", types tys) :: ("VALUE", from_fields (path_of e v) (into_inner_of e box (id v)) (concat idxs)) :: holes)
  | BTuple tys idx => filled owned_block_text [("VALUE", from_fields (path_of e v) (into_inner_of e box [G Paren (types tys)]) idx)]
  | BStruct ms p l =>
      filled owned_struct_text
        (("MEMBERS", members ms) :: ("PATTERN", ids p) :: ("FIELDS", ids l) :: ("VALUE", into_inner_of e box (id v)) :: holes)
  end.

(** [ref_from_tagged_box] of the enum. *)
Definition ref_unit_text : list tree := Eval vm_compute in toks
  "{ let variant: ENUM = ENUM::VARIANT; (callback)(&variant); }".
Definition ref_leaf_text : list tree := Eval vm_compute in toks
  "{ let variant: core::mem::ManuallyDrop<ENUM> = core::mem::ManuallyDrop::new(ENUM::VARIANT(VALUE)); (callback)(&variant); }".
Definition ref_tuple_text : list tree := Eval vm_compute in toks
  "{ #[repr(C)] struct VARIANT(TYPES);
     #[allow(unused_variables)] let tuple: VARIANT = TUPLE;
     let variant: core::mem::ManuallyDrop<ENUM> = core::mem::ManuallyDrop::<ENUM>::new(VALUE);
     (callback)(&*variant); }".
Definition ref_struct_text : list tree := Eval vm_compute in toks
  "{ #[repr(C)] struct VARIANT { MEMBERS }
     let VARIANT { PATTERN } = VALUE;
     let variant: core::mem::ManuallyDrop<ENUM> = core::mem::ManuallyDrop::new(ENUM::VARIANT { FIELDS });
     (callback)(&*variant); }".
Definition unguarded_text : list tree := Eval vm_compute in toks
  "{ let variant: ENUM = VALUE; (callback)(&variant); }".

Definition ref_body (e : string) (a : read_arm) : list tk :=
  let v := ra_variant a in
  let holes := [("ENUM", id e); ("VARIANT", id v)] in
  match ra_build a, ra_guarded a with
  | BUnit, false => filled ref_unit_text holes
  | BEmpty, true =>
      filled ref_tuple_text
        (("TYPES", []) :: ("TUPLE", from_fields (id v) [] []) :: ("VALUE", from_fields (path_of e v) [] []) :: holes)
  | BLeaf t, true => filled ref_leaf_text (("VALUE", read_of [FTy t]) :: holes)
  | BReprC tys [i; j], true =>
      filled ref_tuple_text
        (("TYPES", types tys) :: ("TUPLE", from_fields (id v) (read_of (id v)) i) ::
         ("VALUE", from_fields (path_of e v) [W (TId "tuple")] j) :: holes)
  | BStruct ms p l, true =>
      filled ref_struct_text
        (("MEMBERS", members ms) :: ("PATTERN", ids p) :: ("FIELDS", ids l) :: ("VALUE", read_of (id v)) :: holes)
  | _, _ => filled unguarded_text (("VALUE", path_of e v) :: holes)
  end.

(** ** The [From] impls *)

Definition from_leaf_text : list tree := Eval vm_compute in toks
  "impl From<TYPE> for STRUCT {
     #[inline]
     fn from(val: TYPE) -> Self {
       #[allow(unused_imports)] use $crate::TaggableInner;
       Self { value: ENUM::VARIANT(val).into_tagged_box(), }
     } }".
Definition from_tuple_text : list tree := Eval vm_compute in toks
  "impl From<(TYPES)> for STRUCT {
     #[inline]
     fn from(tuple: (TYPES)) -> Self {
       #![allow(unused_imports, unused_variables)] use $crate::TaggableInner;
       let variant: ENUM = VALUE;
       Self { value: variant.into_tagged_box(), }
     } }".
Definition from_impl_code (s e : string) (f : from_impl) : list tk :=
  match f with
  | FromLeaf t v => filled from_leaf_text [("TYPE", [FTy t]); ("STRUCT", id s); ("ENUM", id e); ("VARIANT", id v)]
  | FromTuple tys v idx =>
      filled from_tuple_text
        [("TYPES", types_each tys); ("STRUCT", id s); ("ENUM", id e); ("VALUE", from_fields (path_of e v) [W (TId "tuple")] idx)]
  end.

(** ** The enum and its counter *)

Definition variant_code (vk : string * vkind) : list tk :=
  match snd vk with
  | KUnit => id (fst vk)
  | KTuple tys => id (fst vk) ++ [G Paren (types tys)]
  | KStruct ms => id (fst vk) ++ [G Brace (members ms)]
  end ++ [W TComma].

(** ** Everything *)

Definition counter_text : list tree := Eval vm_compute in toks
  "#[doc(hidden)] #[allow(non_camel_case_types)] enum __tagged_box_enum_counter { NAMES }".
Definition counter_code (names : list string) : list tk :=
  filled counter_text [("NAMES", flat_map (fun v => [W (TId v); W TComma]) names)].
Definition count_text : list tree := Eval vm_compute in toks "[NAMES].len()".
Definition count_code (names : list string) : list tk :=
  filled count_text [("NAMES", commas (map (fun v => [W (TId "stringify"); W TBang; G Paren (id v)]) names))].

Definition generated_text : list tree := Eval vm_compute in toks
  "STRUCT_ATTRS STRUCT_VIS struct STRUCT { value: $crate::TaggedBox<ENUM>, }
   impl $crate::TaggableContainer for STRUCT {
     type Inner = ENUM;
     fn into_inner(self) -> ENUM {
       COUNTER
       unsafe {
         #[allow(unused_parens)]
         match self.value.discriminant() {
           INNER_ARMS
           _ => panic!(""Attempted to create an enum variant from a discriminant that doesn't exist!""),
         }
         SEMICOLONS
       }
     }
   }
   impl From<ENUM> for STRUCT {
     #[inline]
     fn from(variant: ENUM) -> Self {
       use $crate::TaggableInner;
       Self { value: variant.into_tagged_box(), }
     }
   }
   FROM_IMPLS
   ENUM_ATTRS ENUM_VIS enum ENUM { VARIANTS }
   impl $crate::TaggableInner for ENUM {
     fn into_tagged_box(self) -> $crate::TaggedBox<Self> {
       COUNTER
       match self { INTO_ARMS }
     }
     fn from_tagged_box(tagged: $crate::TaggedBox<ENUM>) -> Self {
       unsafe {
         COUNTER
         const __TAGGED_BOX_TOTAL_VARIANTS: usize = COUNT;
         #[allow(unused_parens)]
         match tagged.discriminant() {
           FROM_ARMS
           discriminant => {
             #[allow(non_upper_case_globals)]
             panic!(""The number of variants in `{}` is {}, but a variant by the discriminant of {} was attempted to be created"",
                    stringify!(ENUM), __TAGGED_BOX_TOTAL_VARIANTS, discriminant);
           }
         }
       }
     }
     unsafe fn ref_from_tagged_box<F>(tagged: &$crate::TaggedBox<ENUM>, callback: F)
     where F: FnOnce(&ENUM),
     {
       COUNTER
       const __TAGGED_BOX_TOTAL_VARIANTS: usize = COUNT;
       #[allow(unused_parens)]
       match tagged.discriminant() {
         REF_ARMS
         discriminant => {
           #[allow(non_upper_case_globals)]
           panic!(""The number of variants in `{}` is {}, but a variant by the discriminant of {} was attempted to be referenced"",
                  stringify!(ENUM), __TAGGED_BOX_TOTAL_VARIANTS, discriminant);
         }
       };
     }
   }".

(** The code for the items and the expansion of [Heads.v] and [Macro.v]. The arms of [into_inner] are made by calls
    followed by a semicolon each, which are left over. *)
Definition generated (s e : item) (x : expansion) : list tk :=
  filled generated_text
    [("STRUCT_ATTRS", attrs (i_attrs s)); ("STRUCT_VIS", visibility (i_vis s)); ("STRUCT", id (i_name s));
     ("ENUM_ATTRS", attrs (i_attrs e)); ("ENUM_VIS", visibility (i_vis e)); ("ENUM", id (i_name e));
     ("COUNTER", counter_code (x_counter x)); ("COUNT", count_code (x_counter x));
     ("VARIANTS", flat_map variant_code (x_enum x));
     ("FROM_IMPLS", flat_map (from_impl_code (x_container x) (x_name x)) (x_froms x));
     ("INTO_ARMS", flat_map (into_arm_code (x_name x)) (x_into x));
     ("INNER_ARMS", flat_map (fun a => read_arm_code (inner_body (x_name x) a) a) (x_inner x));
     ("FROM_ARMS", flat_map (fun a => read_arm_code (from_body (x_name x) a) a) (x_from x));
     ("REF_ARMS", flat_map (fun a => read_arm_code (ref_body (x_name x) a) a) (x_ref x));
     ("SEMICOLONS", repeat (W (TOp ";")) (List.length (x_inner x)))].
