(** Specifications about enum definitions used in the property theorems on [tagged_box!]. *)
From Coq Require Import NArith String Bool List.
From Verif Require Import Words Config Spec Pointer Mem Box SpecMem Macro.
Import ListNotations.
Local Open Scope N_scope.

Definition all_types (def : edef) : list rty := concat (map (fun vk => kind_types (snd vk)) (e_variants def)).

(** The types [From] is implemented for, by name: a single field's own type, otherwise the tuple. *)
Definition tuple_name (ns : list string) : string := ("(" ++ String.concat ", " ns ++ ")")%string.

Definition from_keys (k : vkind) : list string :=
  match k with
  | KTuple [t] => [ty_name t]
  | KTuple tys => [tuple_name (map ty_name tys)]
  | _ => []
  end.

(** Definitions the Rust compiler accepts when put through [tagged_box!] (necessary conditions):
    at least one variant; distinct variant names; distinct member names; tuple variants of at most
    32 fields; Rust's rules for types; a [Copy] enum, or one with a [Drop] impl (out of which nothing
    can be moved), has only [Copy] fields; [Copy] excludes destructors; the [From] impls do not
    conflict with each other, with [From<Enum>] or with core's [From<T> for T]. *)
Record def_ok (def : edef) : Prop := {
  do_some : e_variants def <> [];
  do_names : NoDup (map fst (e_variants def));
  do_members : forall v ms, In (v, KStruct ms) (e_variants def) -> NoDup (map fst ms);
  do_arity : forall v tys, In (v, KTuple tys) (e_variants def) -> (length tys <= 32)%nat;
  do_types : Forall wf_ty (all_types def);
  do_align : power_of_two (e_align def);
  do_copy : e_copy def = true \/ e_drop def = true -> Forall (fun t => ty_copy t = true) (all_types def);
  do_copy_drop : e_copy def = true -> e_drop def = false;
  do_glue : Forall (fun t => ty_copy t = true -> ty_drop t = false) (all_types def);
  do_from : NoDup (e_container def :: e_name def :: concat (map (fun vk => from_keys (snd vk)) (e_variants def)))
}.

(** [v] is a value of the enum. *)
Definition evalue_ok (def : edef) (v : evalue) : Prop :=
  exists k, In (ev_variant v, k) (e_variants def) /\ Forall2 has_type (kind_types k) (ev_fields v).

(** The number of tags of the setting suffices: at most [MAX_DISCRIMINANT + 1] variants. *)
Definition variants_fit (c : config) (def : edef) : Prop :=
  N.of_nat (length (e_variants def)) <= max_discriminant c + 1.

(** What a variant keeps in the heap: nothing, its single field, or a C struct of its fields. *)
Definition storage (k : vkind) : option hty :=
  match k with
  | KUnit => None
  | KTuple [] => None
  | KTuple [t] => Some (leaf_hty t)
  | KTuple tys => Some (reprC tys)
  | KStruct ms => Some (reprC (map snd ms))
  end.

(** There is a tag for this variant; and [v] is a value of such a variant. *)
Definition tag_fits (E : env) (def : edef) (n : string) : Prop :=
  exists i k, nth_error (e_variants def) i = Some (n, k) /\ N.of_nat i <= max_discriminant (cfg (tgt E)).
Definition evalue_fits (E : env) (def : edef) (v : evalue) : Prop :=
  evalue_ok def v /\ tag_fits E def (ev_variant v).

(** An enum definition put through [tagged_box!] in surroundings [E]. *)
Record macro_setup (E : env) (def : edef) (x : expansion) : Prop := {
  ms_env : env_ok E;
  ms_def : def_ok def;
  ms_expand : expand def = Some x;
  ms_types : tags_typecheck (cfg (tgt E)) x = true
}.

(** The type a [From] impl converts from. *)
Definition from_source (f : from_impl) : string :=
  match f with
  | FromLeaf t _ => ty_name t
  | FromTuple tys _ _ => tuple_name (map ty_name tys)
  end.

(** Two layouts of the same fields that a pointer to one can be read as the other. *)
Definition readable_as (stored_as read_as : hty) : Prop :=
  h_fields read_as = h_fields stored_as /\ h_align read_as = h_align stored_as /\
  h_size read_as <= h_size stored_as.

(** Does [from_tagged_box] read this variant at a Rust tuple type? *)
Definition several_fields (k : vkind) : Prop :=
  match k with KTuple tys => (2 <= List.length tys)%nat | _ => False end.
