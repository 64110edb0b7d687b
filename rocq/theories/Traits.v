(** Model of what the compiler checks about trait impls in the output of [tagged_box!]: the attributes
    are copied to the struct and to the enum ([/repo/src/tagged_box_macro/mod.rs:734], [739], [780] and
    [26]), so each derive is expanded twice, once over the user's field types and once over
    [TaggedBox<$enum>], whose impls are those of [/repo/src/tagged_box.rs:483-589].

    Of Rust's rules the ones used are: the derives of core put each field type under the bound of the
    trait derived, [Default] cannot be derived for an enum without [#[default]] (an attribute the
    variant syntax of the macro has no place for); no two impls of a trait for a type; an impl needs the
    supertraits; [Copy] needs [Copy] fields and excludes [Drop]; nothing that is not [Copy] can be moved
    out of a value with [Drop]. Attributes other than derives are not modelled. Impls of the user's for
    [TaggedBox<$enum>] do not exist (orphan rule: the type belongs to the crate). *)
From Coq Require Import NArith String Bool List.
From Verif Require Import Mem Macro.
Import ListNotations.

(** The traits of [/repo/src/tagged_box.rs:483-589] and the other derives of core. *)
Inductive trait : Type :=
| TClone | TCopy | TDebug | TPartialEq | TEq | TPartialOrd | TOrd | THash | TDefault | TDisplay | TDrop.

(** Auxiliary. For [/repo/src/tagged_box.rs:483-589] and [/repo/src/tagged_box_macro/mod.rs:26], [739]. *)
Definition trait_eqb (a b : trait) : bool :=
  match a, b with
  | TClone, TClone | TCopy, TCopy | TDebug, TDebug | TPartialEq, TPartialEq | TEq, TEq
  | TPartialOrd, TPartialOrd | TOrd, TOrd | THash, THash | TDefault, TDefault | TDisplay, TDisplay | TDrop, TDrop => true
  | _, _ => false
  end.

(** Auxiliary. For [/repo/src/tagged_box.rs:483-589] and [/repo/src/tagged_box_macro/mod.rs:26], [739]. *)
Definition has (t : trait) (l : list trait) : bool := existsb (trait_eqb t) l.

(** No trait twice. For [/repo/src/tagged_box.rs:483-589] and [/repo/src/tagged_box_macro/mod.rs:26], [739]. *)
Fixpoint distinct (l : list trait) : bool :=
  match l with [] => true | t :: r => negb (has t r) && distinct r end.

(** core's supertraits.
    Rust. For [/repo/src/tagged_box.rs:483-589] and [/repo/src/tagged_box_macro/mod.rs:26], [739]. *)
Definition supertraits (t : trait) : list trait :=
  match t with
  | TCopy => [TClone]
  | TEq => [TPartialEq]
  | TPartialOrd => [TPartialEq]
  | TOrd => [TEq; TPartialOrd]
  | _ => []
  end.

(** Which of them core can derive. For [/repo/src/tagged_box.rs:483-589] and [/repo/src/tagged_box_macro/mod.rs:26], [739]. *)
Definition derivable (t : trait) : bool := match t with TDisplay | TDrop => false | _ => true end.

(** ** The impls of [TaggedBox] *)

(** [impl Trait for TaggedBox<T> where T: TaggableInner + ..]: the trait and what it asks of [T],
    [/repo/src/tagged_box.rs:483-485], [499-501], [515-517], [533], [535-537], [553], [555-557],
    [573-575]. The four of line 591 are not among the traits here. *)
Definition box_impls : list (trait * list trait) :=
  [(TDebug, [TDebug; TClone]);
   (TDisplay, [TDisplay; TClone]);
   (TClone, [TClone]);
   (TCopy, [TCopy]);
   (TPartialEq, [TPartialEq]);
   (TEq, [TEq]);
   (TPartialOrd, [TPartialOrd]);
   (TOrd, [TOrd])].

(** [TaggedBox<T>: t] for a [T] (with [TaggableInner]) implementing [of_t].
    [/repo/src/tagged_box.rs:483-589]. *)
Definition box_has (of_t : list trait) (t : trait) : bool :=
  existsb (fun i => trait_eqb (fst i) t && forallb (fun r => has r of_t) (snd i)) box_impls.

(** ** A definition with its impls *)

(** The derives of the invocation, and the impls the user wrote for the enum and for the struct.
    [/repo/src/tagged_box_macro/mod.rs:734]. *)
Record tdef : Type := Tdef { t_derives : list trait; t_enum : list trait; t_struct : list trait }.

Section Check.
Variable field_has : rty -> trait -> bool.    (* the field types' impls *)
Variable x : expansion.
Variable d : tdef.

Let fields : list rty := flat_map (fun vk => kind_types (snd vk)) (x_enum x).

(** What the enum implements. [/repo/src/tagged_box_macro/mod.rs:26]. *)
Definition enum_traits : list trait := t_derives d ++ t_enum d.

(** What the struct implements. [/repo/src/tagged_box_macro/mod.rs:739]. *)
Definition struct_traits : list trait := t_derives d ++ t_struct d.

(** The rules for one type with the impls [derived] and [written]; [fields_have t]: all its fields
    implement [t]. Rust, for [/repo/src/tagged_box_macro/mod.rs:25-30] and [739-743]. *)
Definition rules (derived written : list trait) (fields_have : trait -> bool) : bool :=
  distinct (derived ++ written) &&
  forallb (fun t => derivable t && fields_have t) derived &&
  forallb (fun t => forallb (fun s => has s (derived ++ written)) (supertraits t)) (derived ++ written) &&
  (if has TCopy (derived ++ written) then fields_have TCopy && negb (has TDrop (derived ++ written)) else true).

(** The enum as [__make_enum!] declares it, [/repo/src/tagged_box_macro/mod.rs:25-30], by itself. *)
Definition enum_compiles : bool :=
  negb (has TDefault (t_derives d)) && rules (t_derives d) (t_enum d) (fun t => forallb (fun f => field_has f t) fields).

(** The struct, [/repo/src/tagged_box_macro/mod.rs:739-743]. *)
Definition struct_compiles : bool := rules (t_derives d) (t_struct d) (box_has enum_traits).

(** Does an arm of [into_box] move fields out of the enum value, [/repo/src/tagged_box_macro/mod.rs:40-95]. *)
Definition into_moves (a : into_arm) : list rty :=
  match ia_body a with
  | INewLeaf t _ => [t]
  | INewTuple tys _ => tys
  | INewStruct ms _ => map snd ms
  | IDangling => []
  end.

(** Does an arm of [into_inner] move the box out of the struct, [/repo/src/tagged_box_macro/mod.rs:184-252]
    ([into_inner::<..>($tagged)] with [$tagged] being [self.value]). *)
Definition inner_moves (a : read_arm) : bool :=
  match ra_build a with BUnit | BEmpty => false | _ => true end.

(** The generated functions against the [Drop] impls of the user.
    [/repo/src/tagged_box_macro/mod.rs:784-790], [748-759]. *)
Definition moves_compile : bool :=
  (if has TDrop enum_traits then forallb (fun a => forallb (fun f => field_has f TCopy) (into_moves a)) (x_into x) else true) &&
  (if has TDrop struct_traits then negb (existsb inner_moves (x_inner x)) || box_has enum_traits TCopy else true).

(** All of [/repo/src/tagged_box_macro/mod.rs:732-832]. *)
Definition impls_compile : bool := enum_compiles && struct_compiles && moves_compile.
End Check.
