(** Model of the names in the code generated by [tagged_box!]
    ([/repo/src/tagged_box_macro/mod.rs] and [meta_macros.rs]): what every name in it means.

    How Rust resolves names ([macro_rules!] hygiene; Rust, not the repository): local variables of a
    macro are its own, but items, type parameters and [Self] are not. A name written in the generated
    code is looked up from the inside out, and an item which the macro defines there, such as the
    local [struct $variant], hides the name the user meant. Not modelled: names of macros ([panic!],
    [stringify!]), constants of the user that have the name of a variable of the macro ([var],
    [discrim], [a], [b], ..), lifetimes, macros in types. *)
From Coq Require Import NArith String Bool List.
From Verif Require Import Words Config Pointer Mem Box Arms Macro.
Import ListNotations.
Local Open Scope string_scope.

(** ** Types as written *)

(** A type expression: names of types, names of constants (array lengths), and anything else around
    them. [Box<List>] is [WNode "<>" [WType "Box"; WType "List"]], [a::b::C] is
    [WNode "::b::C" [WType "a"]], [::std::ops::Range] is [WNode "::std::ops::Range" []], [[u8; N]] is
    [WNode "[;]" [WType "u8"; WConst "N"]]. The [$ty:ty] of [/repo/src/tagged_box_macro/mod.rs:10-24]. *)
Inductive wty : Type :=
| WType (n : string)
| WConst (n : string)
| WNode (symbol : string) (args : list wty).

(** ** What a name can mean *)

(** The names of [/repo/src/tagged_box_macro/mod.rs:5-832]. *)
Inductive meant : Type :=
| MStd (n : string)        (* Rust's prelude, primitive types and crate names, by their own names *)
| MUser (n : string)       (* an item of the user's module *)
| MContainer               (* the generated struct *)
| MEnum                    (* the generated enum *)
| MLocal (v : string)      (* the struct in the arm of variant [v]; its constructor *)
| MCounter                 (* the enum __tagged_box_enum_counter *)
| MTotal                   (* the constant __TAGGED_BOX_TOTAL_VARIANTS *)
| MParam                   (* the type parameter F *)
| MTrait.                  (* TaggableInner, imported by a [use] *)

(** A type expression with its names resolved.
    Rust, for the [$ty] of [/repo/src/tagged_box_macro/mod.rs:10-24]. *)
Inductive resolved_ty : Type :=
| RName (m : meant)
| RNode (symbol : string) (args : list resolved_ty).

(** Names bound by one nesting level: types (with [Self]) and values.
    Rust. For the names of [/repo/src/tagged_box_macro/mod.rs:5-832]. *)
Record rib : Type := Rib { rib_types : list (string * meant); rib_values : list (string * meant) }.

Section Names.
(** The names the user's module defines or imports. *)
Variable user : string -> bool.
(** The type expression a field type was written as. *)
Variable written : rty -> wty.
Variables container enum : string.

(** Innermost level first; then the user's module, then the prelude.
    Rust. For the names of [/repo/src/tagged_box_macro/mod.rs:5-832]. *)
Fixpoint find_name (which : rib -> list (string * meant)) (n : string) (scope : list rib) : meant :=
  match scope with
  | [] => if user n then MUser n else MStd n
  | r :: scope => match assoc n (which r) with Some m => m | None => find_name which n scope end
  end.
(** Names of types. For the names of [/repo/src/tagged_box_macro/mod.rs:5-832]. *)
Definition find_type : string -> list rib -> meant := find_name rib_types.
(** Names of values. For the names of [/repo/src/tagged_box_macro/mod.rs:5-832]. *)
Definition find_value : string -> list rib -> meant := find_name rib_values.

(** All names of a type expression. For the names of [/repo/src/tagged_box_macro/mod.rs:5-832]. *)
Fixpoint resolve (scope : list rib) (t : wty) : resolved_ty :=
  match t with
  | WType n => RName (find_type n scope)
  | WConst n => RName (find_value n scope)
  | WNode f args => RNode f (map (resolve scope) args)
  end.

(** ** The nesting levels of the generated code *)

(** Inside an impl or a declaration for [m]. For the names of [/repo/src/tagged_box_macro/mod.rs:5-832]. *)
Definition self_is (m : meant) (scope : list rib) : list rib := Rib [("Self", m)] [] :: scope.

(** The module: the generated struct and enum, [/repo/src/tagged_box_macro/mod.rs:739-742] and [25-30]. *)
Definition module : list rib := [Rib [(enum, MEnum); (container, MContainer)] []].
(** Inside the declaration of the enum, [/repo/src/tagged_box_macro/mod.rs:27-29]. *)
Definition in_enum : list rib := self_is MEnum module.
(** Inside the impls for the struct, [/repo/src/tagged_box_macro/mod.rs:744], [761], [108], [124]. *)
Definition in_container : list rib := self_is MContainer module.

(** [/repo/src/tagged_box_macro/mod.rs:538]. *)
Definition counter_name : string := "__tagged_box_enum_counter".
(** [/repo/src/tagged_box_macro/mod.rs:801], [820]. *)
Definition total_name : string := "__TAGGED_BOX_TOTAL_VARIANTS".
(** After [__counter_enum!], [/repo/src/tagged_box_macro/mod.rs:750-752]. *)
Definition counter_rib : rib := Rib [(counter_name, MCounter)] [].
(** After [__counter_enum!] and the constant, [/repo/src/tagged_box_macro/mod.rs:797-801]. *)
Definition total_rib : rib := Rib [(counter_name, MCounter)] [(total_name, MTotal)].

(** Body of [into_inner], [/repo/src/tagged_box_macro/mod.rs:747-758]. *)
Definition in_into_inner : list rib := counter_rib :: in_container.
(** Body of [from] in the impls of [__derive_from!], [/repo/src/tagged_box_macro/mod.rs:110-118], [126-134]. *)
Definition in_from : list rib := Rib [("TaggableInner", MTrait)] [] :: in_container.
(** Bodies of [into_tagged_box], [from_tagged_box], [ref_from_tagged_box],
    [/repo/src/tagged_box_macro/mod.rs:784-831]. *)
Definition in_into_tagged : list rib := counter_rib :: in_enum.
(** [/repo/src/tagged_box_macro/mod.rs:792-810]. *)
Definition in_from_tagged : list rib := total_rib :: in_enum.
(** [/repo/src/tagged_box_macro/mod.rs:812-816]. *)
Definition in_ref_signature : list rib := Rib [("F", MParam)] [] :: in_enum.
(** [/repo/src/tagged_box_macro/mod.rs:812-829]. *)
Definition in_ref : list rib := total_rib :: in_ref_signature.

(** An arm with a local [struct $variant]: of tuple form (its name is also a constructor), or with
    braces. And the inside of that struct. [/repo/src/tagged_box_macro/mod.rs:61-64], [204-205]. *)
Definition in_arm (v : string) (tuple : bool) (scope : list rib) : list rib :=
  Rib [(v, MLocal v)] (if tuple then [(v, MLocal v)] else []) :: scope.
(** [/repo/src/tagged_box_macro/mod.rs:61-64], [204-205]. *)
Definition in_struct (v : string) (tuple : bool) (scope : list rib) : list rib :=
  self_is (MLocal v) (in_arm v tuple scope).

(** ** The names used *)

(** A place in the generated code: a field type written again, which must be the type of the field of
    the enum, since values go to and fro between the two; a name of a type which the macro needs to
    mean something. In [/repo/src/tagged_box_macro/mod.rs:5-832]. *)
Inductive use : Type :=
| UField (scope : list rib) (t : rty)
| UName (scope : list rib) (n : string) (m : meant).

(** The compiler accepts the place. For the names of [/repo/src/tagged_box_macro/mod.rs:5-832]. *)
Definition use_ok (u : use) : Prop :=
  match u with
  | UField scope t => resolve scope (written t) = resolve in_enum (written t)
  | UName scope n m => find_type n scope = m
  end.

(** [$enum], as in [/repo/src/tagged_box_macro/mod.rs:741]. *)
Definition the_enum (scope : list rib) : use := UName scope enum MEnum.
(** A name of Rust's prelude. For the names of [/repo/src/tagged_box_macro/mod.rs:5-832]. *)
Definition std (n : string) (scope : list rib) : use := UName scope n (MStd n).
(** [$counter::$variant as u8]. [/repo/src/tagged_box_macro/mod.rs:45]. *)
Definition tag_uses (scope : list rib) : list use := [UName scope counter_name MCounter; std "u8" scope].
(** The local [struct $variant] of field types [tys]. [/repo/src/tagged_box_macro/mod.rs:61-64], [204-205]. *)
Definition struct_uses (v : string) (tuple : bool) (scope : list rib) (tys : list rty) : list use :=
  map (UField (in_struct v tuple scope)) tys ++ [UName (in_arm v tuple scope) v (MLocal v)].

(** [__taggable_into_box!], [/repo/src/tagged_box_macro/mod.rs:40-95], and [__expand_tuple_arm!],
    [/repo/src/tagged_box_macro/meta_macros.rs:445-915]. *)
Definition into_uses (a : into_arm) : list use :=
  let s := in_into_tagged in
  let v := ia_variant a in
  the_enum s ::
  match ia_body a with
  | INewLeaf t _ => the_enum s :: UField s t :: tag_uses s
  | INewTuple tys _ => struct_uses v true s tys ++ tag_uses (in_arm v true s)
  | INewStruct ms _ => struct_uses v false s (map snd ms) ++ the_enum (in_arm v false s) :: tag_uses (in_arm v false s)
  | IDangling => the_enum s :: tag_uses s
  end.

(** [__boxed_into_inner!], [/repo/src/tagged_box_macro/mod.rs:184-252]; the empty tuple variant has a
    local struct, too. *)
Definition inner_uses (a : read_arm) : list use :=
  let s := in_into_inner in
  let v := ra_variant a in
  tag_uses s ++
  match ra_build a with
  | BUnit => [the_enum s]
  | BLeaf t => [the_enum s; UField s t]
  | BEmpty => struct_uses v true s [] ++ [the_enum (in_arm v true s)]
  | BReprC tys _ => struct_uses v true s tys ++ [the_enum (in_arm v true s)]
  | BTuple tys _ => the_enum s :: map (UField s) tys
  | BStruct ms _ _ => struct_uses v false s (map snd ms) ++ [the_enum (in_arm v false s)]
  end.

(** [__from_tagged_box!], [/repo/src/tagged_box_macro/mod.rs:274-359]; tuple variants have no local
    struct here. *)
Definition from_tagged_uses (a : read_arm) : list use :=
  let s := in_from_tagged in
  let v := ra_variant a in
  tag_uses s ++
  match ra_build a with
  | BUnit => [the_enum s]
  | BLeaf t => [the_enum s; UField s t]
  | BEmpty => [the_enum s]
  | BReprC tys _ => struct_uses v true s tys ++ [the_enum (in_arm v true s)]
  | BTuple tys _ => the_enum s :: map (UField s) tys
  | BStruct ms _ _ => struct_uses v false s (map snd ms) ++ [the_enum (in_arm v false s)]
  end.

(** [__ref_from_tagged!], [/repo/src/tagged_box_macro/mod.rs:386-497]; all arms but the unit ones
    name [core::mem::ManuallyDrop]. *)
Definition ref_uses (a : read_arm) : list use :=
  let s := in_ref in
  let v := ra_variant a in
  tag_uses s ++
  match ra_build a with
  | BUnit => [the_enum s]
  | BLeaf t => [std "core" s; the_enum s; UField s t]
  | BEmpty => struct_uses v true s [] ++ [std "core" (in_arm v true s); the_enum (in_arm v true s)]
  | BReprC tys _ => struct_uses v true s tys ++ [std "core" (in_arm v true s); the_enum (in_arm v true s)]
  | BTuple tys _ => std "core" s :: the_enum s :: map (UField s) tys
  | BStruct ms _ _ =>
      struct_uses v false s (map snd ms) ++ [std "core" (in_arm v false s); the_enum (in_arm v false s)]
  end.

(** [__derive_from!], [/repo/src/tagged_box_macro/mod.rs:107-139]. *)
Definition derive_uses (f : from_impl) : list use :=
  std "From" module :: UName module container MContainer :: the_enum in_from ::
  match f with
  | FromLeaf t _ => [UField in_container t]
  | FromTuple tys _ _ => map (UField in_container) tys
  end.

(** [tagged_box!] itself, [/repo/src/tagged_box_macro/mod.rs:739-831]. *)
Definition fixed_uses : list use :=
  [ the_enum in_container;                                             (* 741 *)
    UName module container MContainer; the_enum in_container;          (* 744-747 *)
    std "From" module; the_enum module; the_enum in_container;         (* 761-763 *)
    the_enum module; the_enum in_enum;                                 (* 783, 792 *)
    std "usize" in_from_tagged;                                        (* 801 *)
    the_enum in_ref_signature; UName in_ref_signature "F" MParam; std "FnOnce" in_ref_signature; (* 812-814 *)
    std "usize" in_ref ].                                              (* 820 *)

(** All places of [/repo/src/tagged_box_macro/mod.rs:732-832]. *)
Definition all_uses (x : expansion) : list use :=
  fixed_uses ++ flat_map into_uses (x_into x) ++ flat_map inner_uses (x_inner x) ++
  flat_map from_tagged_uses (x_from x) ++ flat_map ref_uses (x_ref x) ++ flat_map derive_uses (x_froms x).

(** The compiler accepts the names: every place means what it has to, and no two items of the module
    have the same name. Of [/repo/src/tagged_box_macro/mod.rs:732-832]. *)
Definition names_accepted (x : expansion) : Prop := container <> enum /\ Forall use_ok (all_uses x).

End Names.
