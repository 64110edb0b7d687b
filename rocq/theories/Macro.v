(** Model of the code generated by [tagged_box!] ([/repo/src/tagged_box_macro/mod.rs]) for an
    arbitrary enum definition. Three parts: the generated code as a small syntax tree (one arm per
    variant), what each helper macro generates for one variant, and the meaning of the generated
    functions. The recursion of the macros over token lists is in [Tokens.v]. *)
From Coq Require Import NArith String Bool List.
From Verif Require Import Words Config Pointer Mem Box Arms.
Import ListNotations.
Local Open Scope N_scope.
Local Open Scope m_scope.

(** ** Enum definitions and values *)

(** The three forms of a variant, [/repo/src/tagged_box_macro/mod.rs:10-24]. *)
Inductive vkind : Type :=
| KUnit
| KTuple (tys : list rty)
| KStruct (members : list (string * rty)).

(** A definition given to [tagged_box!]: names of the container struct and the enum, variants.
    [e_align] is [align_of] of the enum itself (chosen by the
    compiler), [e_drop] says that the user wrote [impl Drop] for the enum, [e_copy] that it derives
    [Copy]. The input of [/repo/src/tagged_box_macro/mod.rs:733-738]. *)
Record edef : Type := Edef {
  e_container : string;
  e_name : string;
  e_align : N;
  e_drop : bool;
  e_copy : bool;
  e_variants : list (string * vkind)
}.

(** A value of the enum: its variant and the field values in declaration order.
    Of the enum [/repo/src/tagged_box_macro/mod.rs:25-30] declares. *)
Record evalue : Type := EV { ev_variant : string; ev_fields : hval }.

(** The field types of a variant, [/repo/src/tagged_box_macro/mod.rs:10-24]. *)
Definition kind_types (k : vkind) : list rty :=
  match k with KUnit => [] | KTuple tys => tys | KStruct ms => map snd ms end.

(** ** Generated code *)

(** [$counter::$variant as u8]: the variant named and the width of the cast.
    As in [/repo/src/tagged_box_macro/mod.rs:45], [187], [283], [396]. *)
Record tag_expr : Type := Tag { tg_variant : string; tg_bits : N }.

(** The pattern of a [match self] arm.
    [/repo/src/tagged_box_macro/mod.rs:40-95], [/repo/src/tagged_box_macro/meta_macros.rs:445-915]. *)
Inductive pattern : Type :=
| PUnit                             (* $enum::$variant *)
| PTuple (binders : list string)    (* $enum::$variant(a, b, ..) *)
| PStruct (members : list string).  (* $enum::$variant { a, b, .. } *)

(** The expression of a [match self] arm.
    [/repo/src/tagged_box_macro/mod.rs:40-95], [/repo/src/tagged_box_macro/meta_macros.rs:445-915]. *)
Inductive into_body : Type :=
| INewLeaf (t : rty) (arg : string)                             (* new::<$ty>(arg, tag) *)
| INewTuple (tys : list rty) (args : list string)               (* new::<$variant>($variant(args), tag) *)
| INewStruct (ms : list (string * rty)) (lit : list string)     (* new::<$variant>($variant { lit }, tag) *)
| IDangling.                                                    (* dangling::<$enum>(tag) *)

(** One arm of [/repo/src/tagged_box_macro/mod.rs:97-101]. *)
Record into_arm : Type := IntoArm {
  ia_variant : string; ia_pat : pattern; ia_body : into_body; ia_tag : tag_expr }.

(** How an arm matching on the discriminant builds the enum value.
    [/repo/src/tagged_box_macro/mod.rs:184-252], [274-359], [386-497]. *)
Inductive build : Type :=
| BUnit                                            (* $enum::$variant *)
| BEmpty                                           (* __expand_tuple! without types *)
| BLeaf (t : rty)                                  (* $enum::$variant(read::<$ty>) *)
| BReprC (tys : list rty) (idx : list (list nat))  (* __expand_tuple! (one or more times) of the local repr(C) struct *)
| BTuple (tys : list rty) (idx : list nat)         (* __expand_tuple! of the Rust tuple *)
| BStruct (ms : list (string * rty)) (pat lit : list string).
                                                   (* let $variant { pat } = read::<$variant>; $enum::$variant { lit } *)

(** [discrim if discrim == tag => ..]; [ra_guarded]: the value is wrapped in [ManuallyDrop] (only
    meaningful in [ref_from_tagged_box]). [/repo/src/tagged_box_macro/mod.rs:184-252], [274-359], [386-497]. *)
Record read_arm : Type := ReadArm {
  ra_tag : tag_expr; ra_variant : string; ra_build : build; ra_guarded : bool }.

(** The generated [From] impls besides [From<$enum>]. [/repo/src/tagged_box_macro/mod.rs:107-139]. *)
Inductive from_impl : Type :=
| FromLeaf (t : rty) (variant : string)
| FromTuple (tys : list rty) (variant : string) (idx : list nat).

(** Everything [tagged_box!] generates, [/repo/src/tagged_box_macro/mod.rs:732-832]. *)
Record expansion : Type := Expansion {
  x_container : string; x_name : string; x_align : N; x_drop : bool; x_copy : bool;
  x_enum : list (string * vkind);    (* __make_enum! *)
  x_counter : list string;           (* __counter_enum! *)
  x_total : N;                       (* __count_variants! *)
  x_into : list into_arm;            (* __taggable_into_box! *)
  x_inner : list read_arm;           (* __boxed_into_inner! *)
  x_from : list read_arm;            (* __from_tagged_box! *)
  x_ref : list read_arm;             (* __ref_from_tagged! *)
  x_froms : list from_impl           (* __derive_from! *)
}.

(** ** What each macro generates for one variant; [None] is a compile-time error *)

(** The first arm with the given number of types.
    [macro_rules!] on the arms of [/repo/src/tagged_box_macro/meta_macros.rs:84-915]. *)
Fixpoint find_arm {A} (n : nat) (arms : list (nat * A)) : option A :=
  match arms with
  | [] => None
  | (k, a) :: r => if Nat.eqb k n then Some a else find_arm n r
  end.

(** The indices [__expand_tuple!] uses, [/repo/src/tagged_box_macro/meta_macros.rs:84-321]; the table is in [Arms.v]. *)
Definition expand_tuple (tys : list rty) : option (list nat) :=
  find_arm (length tys) expand_tuple_arms.

(** [$counter::$variant as u8], [/repo/src/tagged_box_macro/mod.rs:45] and in every arm. *)
Definition tag_of (v : string) : tag_expr := Tag v 8.

(** [/repo/src/tagged_box_macro/mod.rs:40-54] and
    [/repo/src/tagged_box_macro/meta_macros.rs:445-915] for tuples, [56-85] structs, [87-95] units. *)
Definition gen_into (v : string) (k : vkind) : option into_arm :=
  match k with
  | KTuple [t] => Some (IntoArm v (PTuple ["var"%string]) (INewLeaf t "var") (tag_of v))
  | KTuple [] => Some (IntoArm v (PTuple []) IDangling (tag_of v))
  | KTuple tys =>
      match find_arm (length tys) expand_tuple_arm_arms with
      | Some (pat, args) => Some (IntoArm v (PTuple pat) (INewTuple tys args) (tag_of v))
      | None => None
      end
  | KStruct ms => Some (IntoArm v (PStruct (map fst ms)) (INewStruct ms (map fst ms)) (tag_of v))
  | KUnit => Some (IntoArm v PUnit IDangling (tag_of v))
  end.

(** [/repo/src/tagged_box_macro/mod.rs:184-252]. *)
Definition gen_inner (v : string) (k : vkind) : option read_arm :=
  match k with
  | KTuple [t] => Some (ReadArm (tag_of v) v (BLeaf t) false)
  | KTuple [] => Some (ReadArm (tag_of v) v BEmpty false)
  | KTuple tys =>
      match expand_tuple tys with
      | Some idx => Some (ReadArm (tag_of v) v (BReprC tys [idx]) false)
      | None => None
      end
  | KStruct ms => Some (ReadArm (tag_of v) v (BStruct ms (map fst ms) (map fst ms)) false)
  | KUnit => Some (ReadArm (tag_of v) v BUnit false)
  end.

(** [/repo/src/tagged_box_macro/mod.rs:274-359]; note the Rust tuple in lines 290-304. *)
Definition gen_from (v : string) (k : vkind) : option read_arm :=
  match k with
  | KTuple [t] => Some (ReadArm (tag_of v) v (BLeaf t) false)
  | KTuple [] => Some (ReadArm (tag_of v) v BEmpty false)
  | KTuple tys =>
      match expand_tuple tys with
      | Some idx => Some (ReadArm (tag_of v) v (BTuple tys idx) false)
      | None => None
      end
  | KStruct ms => Some (ReadArm (tag_of v) v (BStruct ms (map fst ms) (map fst ms)) false)
  | KUnit => Some (ReadArm (tag_of v) v BUnit false)
  end.

(** [/repo/src/tagged_box_macro/mod.rs:386-497]; the unit arm (490-493) has no [ManuallyDrop]. *)
Definition gen_ref (v : string) (k : vkind) : option read_arm :=
  match k with
  | KTuple [t] => Some (ReadArm (tag_of v) v (BLeaf t) true)
  | KTuple [] => Some (ReadArm (tag_of v) v BEmpty true)
  | KTuple tys =>
      match expand_tuple tys with
      | Some idx => Some (ReadArm (tag_of v) v (BReprC tys [idx; idx]) true)
      | None => None
      end
  | KStruct ms => Some (ReadArm (tag_of v) v (BStruct ms (map fst ms) (map fst ms)) true)
  | KUnit => Some (ReadArm (tag_of v) v BUnit false)
  end.

(** [/repo/src/tagged_box_macro/mod.rs:107-149]; struct and unit variants get no [From] impl. *)
Definition gen_from_impl (v : string) (k : vkind) : option (list from_impl) :=
  match k with
  | KTuple [t] => Some [FromLeaf t v]
  | KTuple tys =>
      match expand_tuple tys with
      | Some idx => Some [FromTuple tys v idx]
      | None => None
      end
  | KStruct _ => Some []
  | KUnit => Some []
  end.

(** All variants of a definition, in order; one error makes the whole expansion an error.
    The munchers of [/repo/src/tagged_box_macro/mod.rs:5-517], see [Tokens.v]. *)
Fixpoint gen_all {A} (gen : string -> vkind -> option A) (vs : list (string * vkind)) : option (list A) :=
  match vs with
  | [] => Some []
  | (v, k) :: r =>
      match gen v k, gen_all gen r with
      | Some a, Some l => Some (a :: l)
      | _, _ => None
      end
  end.

(** [/repo/src/tagged_box_macro/mod.rs:732-832]; [$($variants:tt)+] wants at least one token. *)
Definition expand (def : edef) : option expansion :=
  let vs := e_variants def in
  match vs, gen_all gen_into vs, gen_all gen_inner vs, gen_all gen_from vs, gen_all gen_ref vs,
        gen_all gen_from_impl vs with
  | _ :: _, Some into, Some inner, Some from, Some ref, Some impls =>
      Some (Expansion (e_container def) (e_name def) (e_align def) (e_drop def) (e_copy def)
              vs (map fst vs) (N.of_nat (length vs)) into inner from ref (concat impls))
  | _, _, _, _, _, _ => None
  end.

(** ** Meaning of the generated code *)

(** Position of a name. Of the counter enum, [/repo/src/tagged_box_macro/mod.rs:535-541]. *)
Fixpoint index_of (n : string) (l : list string) : option N :=
  match l with
  | [] => None
  | x :: r => if String.eqb n x then Some 0 else option_map N.succ (index_of n r)
  end.

(** What is bound to a name. Rust's meaning of the code [/repo/src/tagged_box_macro/mod.rs:732-832] generates. *)
Fixpoint assoc {A} (n : string) (l : list (string * A)) : option A :=
  match l with
  | [] => None
  | (x, a) :: r => if String.eqb n x then Some a else assoc n r
  end.

(** The values of several names; [None] if one is unbound.
    As the fields of the struct literals in [/repo/src/tagged_box_macro/mod.rs:56-85]. *)
Fixpoint lookup_all {A} (ns : list string) (binds : list (string * A)) : option (list A) :=
  match ns with
  | [] => Some []
  | n :: r =>
      match assoc n binds, lookup_all r binds with
      | Some a, Some l => Some (a :: l)
      | _, _ => None
      end
  end.

(** [tuple.i, tuple.j, ..]. In the right-hand sides of [/repo/src/tagged_box_macro/meta_macros.rs:84-321]. *)
Fixpoint project {A} (vs : list A) (idx : list nat) : option (list A) :=
  match idx with
  | [] => Some []
  | i :: r =>
      match nth_error vs i, project vs r with
      | Some a, Some l => Some (a :: l)
      | _, _ => None
      end
  end.

(** Several times, as [/repo/src/tagged_box_macro/mod.rs:404-431] does. *)
Fixpoint project_seq {A} (vs : list A) (idxs : list (list nat)) : option (list A) :=
  match idxs with
  | [] => Some vs
  | i :: r => match project vs i with Some vs' => project_seq vs' r | None => None end
  end.

(** A name or field that does not resolve would have been a compile-time error.
    Rust's name resolution. Rust's meaning of the code [/repo/src/tagged_box_macro/mod.rs:732-832] generates. *)
Definition resolved {A} (o : option A) : M A :=
  match o with Some a => ret a | None => undefined UbIllTyped end.

(** Run [m], then log [ev] when it returns or panics (a destructor at the end of the scope).
    For [self] in [/repo/src/tagged_box_macro/mod.rs:784-790] and the unit arm [480-497]. *)
Definition at_exit {A} (b : bool) (ev : event) (m : M A) : M A := fun s =>
  if b then
    match m s with
    | Ok a s' => Ok a (log ev s')
    | Panicked p s' => Panicked p (log ev s')
    | UB u => UB u
    end
  else m s.

Section Run.
Variable E : env.
Variable x : expansion.

(** The counter enum's variants are numbered from 0; [as u8] truncates.
    [/repo/src/tagged_box_macro/mod.rs:535-541] and [45]. *)
Definition eval_tag (te : tag_expr) : option N :=
  option_map (cast (tg_bits te)) (index_of (tg_variant te) (x_counter x)).

(** Names of the members of a struct variant in the generated enum.
    [/repo/src/tagged_box_macro/mod.rs:14-20]. *)
Definition enum_members (v : string) : list string :=
  match assoc v (x_enum x) with Some (KStruct ms) => map fst ms | _ => [] end.

(** The user's [Drop] for the enum.
    Rust. Rust's meaning of the code [/repo/src/tagged_box_macro/mod.rs:732-832] generates. *)
Definition enum_drop (v : evalue) : event := EvDrop (x_name x) (concat (ev_fields v)).

(** Dropping an enum value: the user's [Drop], then the fields.
    Rust. Rust's meaning of the code [/repo/src/tagged_box_macro/mod.rs:732-832] generates. *)
Definition drop_evalue (v : evalue) : M unit := fun s =>
  let tys := match assoc (ev_variant v) (x_enum x) with Some k => kind_types k | None => [] end in
  Ok tt (St (bytes s) (blocks s)
            (events s ++ (if x_drop x then [enum_drop v] else []) ++ drop_events tys (ev_fields v))).

(** Matching a pattern against the fields. Rust's [match], [/repo/src/tagged_box_macro/mod.rs:97-101]. *)
Definition bind_pattern (p : pattern) (v : evalue) : option (list (string * leafval)) :=
  match p with
  | PUnit => Some []
  | PTuple names =>
      if Nat.eqb (length names) (length (ev_fields v)) then Some (combine names (ev_fields v)) else None
  | PStruct names =>
      option_map (combine names) (lookup_all names (combine (enum_members (ev_variant v)) (ev_fields v)))
  end.

(** The right-hand sides of [/repo/src/tagged_box_macro/mod.rs:40-95] and [/repo/src/tagged_box_macro/meta_macros.rs:445-915]. *)
Definition run_into_body (b : into_body) (binds : list (string * leafval)) (tag : N) : M tagged_ptr :=
  match b with
  | INewLeaf t arg => vs <- resolved (lookup_all [arg] binds) ;; tb_new E (leaf_hty t) vs tag
  | INewTuple tys args => vs <- resolved (lookup_all args binds) ;; tb_new E (reprC tys) vs tag
  | INewStruct ms lit =>
      vals <- resolved (lookup_all lit binds) ;;
      vs <- resolved (lookup_all (map fst ms) (combine lit vals)) ;;
      tb_new E (reprC (map snd ms)) vs tag
  | IDangling => ret (tb_dangling E (x_align x) tag)
  end.

(** The arm taken by the [match self] of [/repo/src/tagged_box_macro/mod.rs:97-101]. *)
Fixpoint find_into (v : string) (arms : list into_arm) : option into_arm :=
  match arms with
  | [] => None
  | a :: r => if String.eqb v (ia_variant a) then Some a else find_into v r
  end.

(** [/repo/src/tagged_box_macro/mod.rs:784-790]: [into_tagged_box(self)]: [match self { .. }]. The
    fields are moved (or copied) out of [self]; an enum with a [Drop] impl has only [Copy] fields
    and is itself dropped at the end. *)
Definition macro_into (v : evalue) : M tagged_ptr :=
  at_exit (x_drop x) (enum_drop v) (
    a <- resolved (find_into (ev_variant v) (x_into x)) ;;
    binds <- resolved (bind_pattern (ia_pat a) v) ;;
    tag <- resolved (eval_tag (ia_tag a)) ;;
    run_into_body (ia_body a) binds tag).

(** Building the enum value; [rd] is how the stored value is read: [into_inner] or
    [as_ptr().read()].
    The right-hand sides of [/repo/src/tagged_box_macro/mod.rs:184-252], [274-359], [386-497]. *)
Definition run_build (rd : hty -> M hval) (v : string) (b : build) : M evalue :=
  match b with
  | BUnit => ret (EV v [])
  | BEmpty => ret (EV v [])
  | BLeaf t => vs <- rd (leaf_hty t) ;; ret (EV v vs)
  | BReprC tys idx =>
      tuple <- rd (reprC tys) ;; vs <- resolved (project_seq tuple idx) ;; ret (EV v vs)
  | BTuple tys idx =>
      tuple <- rd (tuple_layout E tys) ;; vs <- resolved (project tuple idx) ;; ret (EV v vs)
  | BStruct ms pat lit =>
      fields <- rd (reprC (map snd ms)) ;;
      bound <- resolved (lookup_all pat (combine (map fst ms) fields)) ;;
      vals <- resolved (lookup_all lit (combine pat bound)) ;;
      vs <- resolved (lookup_all (enum_members v) (combine lit vals)) ;;
      ret (EV v vs)
  end.

(** [match tagged.discriminant() { discrim if discrim == tag => .., .., _ => panic }].
    [/repo/src/tagged_box_macro/mod.rs:254-260], [361-376], [499-514]. *)
Fixpoint match_disc {A} (d : N) (arms : list read_arm) (body : read_arm -> M A) (default : M A) : M A :=
  match arms with
  | [] => default
  | a :: r =>
      tag <- resolved (eval_tag (ra_tag a)) ;;
      if d =? tag then body a else match_disc d r body default
  end.

(** [/repo/src/tagged_box_macro/mod.rs:748-759] and [254-260]: [TaggableContainer::into_inner]. *)
Definition macro_into_inner (w : tagged_ptr) : M evalue :=
  match_disc (tb_discriminant E w) (x_inner x)
    (fun a => run_build (fun H => tb_into_inner E H w) (ra_variant a) (ra_build a))
    (raise PanicNoVariantInto).

(** [/repo/src/tagged_box_macro/mod.rs:792-810] and [361-376]: [from_tagged_box]. *)
Definition macro_from (w : tagged_ptr) : M evalue :=
  match_disc (tb_discriminant E w) (x_from x)
    (fun a => run_build (fun H => tb_into_inner E H w) (ra_variant a) (ra_build a))
    (raise (PanicNoVariantFrom (x_total x) (tb_discriminant E w))).

(** [/repo/src/tagged_box_macro/mod.rs:812-829] and [499-514]: [ref_from_tagged_box]. A value not
    wrapped in [ManuallyDrop] is dropped after the closure returns or panics; that is a unit variant,
    so only the user's [Drop] for the enum can run. *)
Definition macro_ref (S : Type) (w : tagged_ptr) (callback : evalue -> S -> M S) (captured : S) : M S :=
  match_disc (tb_discriminant E w) (x_ref x)
    (fun a =>
       variant <- run_build (fun H => read_at H (tb_as_ptr E w)) (ra_variant a) (ra_build a) ;;
       at_exit (x_drop x && negb (ra_guarded a)) (enum_drop variant) (callback variant captured))
    (raise (PanicNoVariantRef (x_total x) (tb_discriminant E w))).

(** The generated [impl TaggableInner]. [/repo/src/tagged_box_macro/mod.rs:783-831]. *)
Definition macro_taggable : taggable evalue := Taggable evalue macro_into macro_from macro_ref.

(** [/repo/src/tagged_box_macro/mod.rs:762-771]: [From<$enum>]; a container is its box
    ([repr(transparent)], line 740-743). *)
Definition container_from (v : evalue) : M tagged_ptr := macro_into v.

(** [/repo/src/tagged_box_macro/mod.rs:108-118] and [124-135]: [From<payload>]; [vals] are the
    components of the argument. *)
Definition container_from_payload (f : from_impl) (vals : hval) : M tagged_ptr :=
  match f with
  | FromLeaf _ v => macro_into (EV v vals)
  | FromTuple _ v idx => vs <- resolved (project vals idx) ;; macro_into (EV v vs)
  end.

End Run.

(** ** What the compiler checks (the part that concerns the macro) *)

(** The tag expressions passed as, or compared with, a [Discriminant].
    [/repo/src/tagged_box_macro/mod.rs:40-95], [184-252], [274-359], [386-497]. *)
Definition tag_exprs (x : expansion) : list tag_expr :=
  map ia_tag (x_into x) ++ map ra_tag (x_inner x) ++ map ra_tag (x_from x) ++ map ra_tag (x_ref x).

(** Type check: every tag expression has type [Discriminant] ([u8] or [u16], see
    [/repo/src/discriminant.rs]). The expressions are [as u8], [/repo/src/tagged_box_macro/mod.rs:45]. *)
Definition tags_typecheck (c : config) (x : expansion) : bool :=
  forallb (fun te => tg_bits te =? disc_ty_bits c) (tag_exprs x).
