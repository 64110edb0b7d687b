(** The syntax of variant lists, as a grammar; used to state what [tagged_box!] accepts. *)
From Coq Require Import NArith String Bool List.
From Verif Require Import Words Config Pointer Mem Box Macro Tokens.
Import ListNotations.

Section Grammar.
Variable parse_ty : list tree -> ty_parse.

(** One or more types separated by commas. *)
Inductive types_of : list tree -> list rty -> Prop :=
| to_last ts t : parse_ty ts = Parsed t [] -> types_of ts [t]
| to_more ts t rest l : parse_ty ts = Parsed t (TComma :: rest) -> types_of rest l -> types_of ts (t :: l).

(** One or more [name: type] separated by commas, with or without a comma after the last one. *)
Inductive members_of : list tree -> list (string * rty) -> Prop :=
| mo_last m ts t : parse_ty ts = Parsed t [] -> members_of (TId m :: TColon :: ts) [(m, t)]
| mo_last_comma m ts t : parse_ty ts = Parsed t [TComma] -> members_of (TId m :: TColon :: ts) [(m, t)]
| mo_more m ts t rest l : parse_ty ts = Parsed t (TComma :: rest) -> members_of rest l ->
    members_of (TId m :: TColon :: ts) ((m, t) :: l).

(** The forms of a variant without its name: [(A, B)], [{ a: A, b: B }], nothing. *)
Inductive variant_form : list tree -> vkind -> Prop :=
| vf_unit : variant_form [] KUnit
| vf_empty : variant_form [TGroup Paren []] (KTuple [])
| vf_tuple l tys : types_of l tys -> variant_form [TGroup Paren l] (KTuple tys)
| vf_nothing : variant_form [TGroup Brace []] (KStruct [])
| vf_struct l ms : members_of l ms -> variant_form [TGroup Brace l] (KStruct ms).

(** Variants, each followed by a comma. *)
Inductive variant_list : list tree -> list (string * vkind) -> Prop :=
| vl_nil : variant_list [] []
| vl_cons v form k rest vs : variant_form form k -> variant_list rest vs ->
    variant_list (TId v :: form ++ TComma :: rest) ((v, k) :: vs).

(** What is required of a parser for types: it consumes something. *)
Definition parser_ok : Prop :=
  parse_ty [] = NoStart /\
  forall ts t rest, parse_ty ts = Parsed t rest -> length rest < length ts.

End Grammar.
