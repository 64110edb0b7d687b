(** Which names a definition given to [tagged_box!] may use: a list of forbidden uses, without
    reference to scopes. *)
From Coq Require Import NArith String Bool List.
From Verif Require Import Words Config Pointer Mem Box Arms Macro Names.
Import ListNotations.
Local Open Scope string_scope.

(** The name occurs in the type expression. *)
Inductive mentions (leaf : wty) : wty -> Prop :=
| mentions_here : mentions leaf leaf
| mentions_arg f args t : In t args -> mentions leaf t -> mentions leaf (WNode f args).

(** A name that still has its meaning from Rust's prelude where the generated items stand. *)
Definition untouched (user : string -> bool) (container enum n : string) : Prop :=
  user n = false /\ n <> container /\ n <> enum.

(** All but unit variants and tuple variants of one field. *)
Definition gets_struct (k : vkind) : bool :=
  match k with KUnit | KTuple [_] => false | _ => true end.
Definition is_tuple (k : vkind) : bool := match k with KTuple _ => true | _ => false end.
Definition is_unit (k : vkind) : bool := match k with KUnit => true | _ => false end.
Definition is_empty_tuple (k : vkind) : bool := match k with KTuple [] => true | _ => false end.

(** What a variant [v] of form [k] needs:
    - its field types do not name [F], [Self] or the macro's own enum, nor its constant;
    - if the macro defines a struct for it: the variant has neither the enum's name nor [core]; its
      field types do not name the variant; constants in them do not have its name either, if it is
      a tuple variant; and (unless it has no fields) it is not named [u8] or like the macro's enum. *)
Record variant_free (written : rty -> wty) (enum v : string) (k : vkind) : Prop := {
  vf_types : forall t n, In t (kind_types k) -> In n ["F"; "Self"; "__tagged_box_enum_counter"] ->
             ~ mentions (WType n) (written t);
  vf_const : forall t, In t (kind_types k) -> ~ mentions (WConst "__TAGGED_BOX_TOTAL_VARIANTS") (written t);
  vf_name : gets_struct k = true -> v <> enum /\ v <> "core";
  vf_own : gets_struct k = true -> forall t, In t (kind_types k) -> ~ mentions (WType v) (written t);
  vf_own_const : gets_struct k = true -> is_tuple k = true ->
                 forall t, In t (kind_types k) -> ~ mentions (WConst v) (written t);
  vf_tag : gets_struct k = true -> is_empty_tuple k = false -> v <> "u8" /\ v <> "__tagged_box_enum_counter"
}.

(** And the whole definition:
    - the struct and the enum have different names;
    - [From], [FnOnce], [u8], [usize] mean what they mean in Rust's prelude; so does [core], unless all
      variants are unit variants;
    - the enum is not called [F] or like the macro's own enum, and not [TaggableInner] if it has a
      tuple variant. *)
Record names_free (user : string -> bool) (written : rty -> wty) (container enum : string)
    (vs : list (string * vkind)) : Prop := {
  nf_differ : container <> enum;
  nf_std : forall n, In n ["From"; "FnOnce"; "u8"; "usize"] -> untouched user container enum n;
  nf_core : existsb (fun vk => negb (is_unit (snd vk))) vs = true -> untouched user container enum "core";
  nf_enum : enum <> "F" /\ enum <> "__tagged_box_enum_counter";
  nf_trait : existsb (fun vk => is_tuple (snd vk)) vs = true -> enum <> "TaggableInner";
  nf_variants : forall v k, In (v, k) vs -> variant_free written enum v k
}.
