(** Model of the macros of [/repo/src/tagged_box_macro/mod.rs] as macros: how each of them takes the
    token list of the variants apart ("tt munchers"), arm by arm, with rustc's recursion limit. What
    one variant generates is in [Macro.v].

    How [macro_rules!] works (Rust, not the repository): the arms are tried in order; an arm that does
    not fit is skipped, but when the parser for a [ty] fragment has started and fails, the whole
    compilation fails. Nested calls are limited by [recursion_limit]. *)
From Coq Require Import NArith String Bool List.
From Verif Require Import Words Config Pointer Mem Box Arms Macro.
Import ListNotations.

(** The brackets around a token tree, as in [/repo/src/tagged_box_macro/mod.rs:10], [14], [543]. *)
Inductive delim : Type := Paren | Brace | Bracket.

(** Token trees. The [tt] of [/repo/src/tagged_box_macro/mod.rs:736]. *)
Inductive tree : Type :=
| TId (s : string)
| TLit (s : string)
| TComma | TColon | TAt | TBang
| TOp (s : string)                        (* any other punctuation *)
| TGroup (d : delim) (l : list tree).

(** Result of matching a pattern. For the patterns of [/repo/src/tagged_box_macro/mod.rs:5-562]. *)
Inductive mres (A : Type) : Type :=
| NoMatch
| Fatal
| Match (a : A).
Arguments NoMatch {A}.
Arguments Fatal {A}.
Arguments Match {A} a.

(** Result of parsing a [ty] fragment: the first token cannot begin a type; a syntax error later on;
    or a type and the remaining tokens. For the [$ty:ty] of [/repo/src/tagged_box_macro/mod.rs:10-24]. *)
Inductive ty_parse : Type :=
| NoStart
| Syntax
| Parsed (t : rty) (rest : list tree).

(** Result of expanding a macro call. For the macros of [/repo/src/tagged_box_macro/mod.rs:5-562]. *)
Inductive exp (A : Type) : Type :=
| Done (a : A)
| Error                    (* no arm fits, or a fragment does not parse *)
| Limit                    (* recursion limit reached *)
| Message (code : string). (* compile_error! *)
Arguments Done {A} a.
Arguments Error {A}.
Arguments Limit {A}.
Arguments Message {A} code.

(** One arm: if its pattern fits, its right-hand side, otherwise the following arms.
    For the macros of [/repo/src/tagged_box_macro/mod.rs:5-562]. *)
Definition arm {A B} (m : mres A) (rhs : A -> exp B) (following : exp B) : exp B :=
  match m with Match a => rhs a | Fatal => Error | NoMatch => following end.

(** Auxiliary. For the matching of [/repo/src/tagged_box_macro/mod.rs:5-554]. *)
Definition mmap {A B} (f : A -> B) (m : mres A) : mres B :=
  match m with Match a => Match (f a) | Fatal => Fatal | NoMatch => NoMatch end.

(** Auxiliary. For the matching of [/repo/src/tagged_box_macro/mod.rs:5-554]. *)
Definition and_then {A B} (m : exp A) (f : A -> exp B) : exp B :=
  match m with Done a => f a | Error => Error | Limit => Limit | Message c => Message c end.

Section Munchers.
(** Rust's grammar and name resolution of types. *)
Variable parse_ty : list tree -> ty_parse.

(** ** Patterns *)

(** [$($ty:ty),*] on a non-empty token list; [n] bounds the number of types.
    [/repo/src/tagged_box_macro/mod.rs:10]. *)
Fixpoint types_n (n : nat) (ts : list tree) : mres (list rty) :=
  match n with
  | O => NoMatch
  | S n =>
      match parse_ty ts with
      | NoStart => NoMatch
      | Syntax => Fatal
      | Parsed t [] => Match [t]
      | Parsed t (TComma :: rest) => mmap (cons t) (types_n n rest)
      | Parsed _ _ => NoMatch
      end
  end.
(** [$($ty:ty),*], [/repo/src/tagged_box_macro/mod.rs:10]; it matches nothing, too. *)
Definition m_types (ts : list tree) : mres (list rty) :=
  match ts with [] => Match [] | _ => types_n (length ts) ts end.

(** [$ty:ty]. [/repo/src/tagged_box_macro/mod.rs:40]. *)
Definition m_one_type (ts : list tree) : mres rty :=
  match parse_ty ts with
  | NoStart => NoMatch
  | Syntax => Fatal
  | Parsed t [] => Match t
  | Parsed _ _ => NoMatch
  end.

(** [$($member:ident: $ty:ty),*] on a non-empty token list. [/repo/src/tagged_box_macro/mod.rs:14]. *)
Fixpoint members_n (n : nat) (ts : list tree) : mres (list (string * rty)) :=
  match n with
  | O => NoMatch
  | S n =>
      match ts with
      | TId m :: TColon :: ts =>
          match parse_ty ts with
          | NoStart => NoMatch
          | Syntax => Fatal
          | Parsed t [] => Match [(m, t)]
          | Parsed t (TComma :: rest) => mmap (cons (m, t)) (members_n n rest)
          | Parsed _ _ => NoMatch
          end
      | _ => NoMatch
      end
  end.
(** The same, [/repo/src/tagged_box_macro/mod.rs:14]; it matches nothing, too. *)
Definition m_members (ts : list tree) : mres (list (string * rty)) :=
  match ts with [] => Match [] | _ => members_n (length ts) ts end.

(** [$($member:ident: $ty:ty,)*]. [/repo/src/tagged_box_macro/mod.rs:17]. *)
Fixpoint members_comma_n (n : nat) (ts : list tree) : mres (list (string * rty)) :=
  match ts with
  | [] => Match []
  | TId m :: TColon :: ts =>
      match n with
      | O => NoMatch
      | S n =>
          match parse_ty ts with
          | NoStart => NoMatch
          | Syntax => Fatal
          | Parsed t (TComma :: rest) => mmap (cons (m, t)) (members_comma_n n rest)
          | Parsed _ _ => NoMatch
          end
      end
  | _ => NoMatch
  end.
(** The same, [/repo/src/tagged_box_macro/mod.rs:17]. *)
Definition m_members_comma (ts : list tree) : mres (list (string * rty)) := members_comma_n (length ts) ts.

(** A comma and the rest, [, $($rest:tt)*], after something already matched.
    [/repo/src/tagged_box_macro/mod.rs:10-24]. *)
Definition then_rest {A} (m : mres A) (ts : list tree) : mres (A * list tree) :=
  match m with
  | Match a => match ts with TComma :: rest => Match (a, rest) | _ => NoMatch end
  | Fatal => Fatal
  | NoMatch => NoMatch
  end.

(** [$variant:ident($ty:ty), $($rest:tt)*]. [/repo/src/tagged_box_macro/mod.rs:40]. *)
Definition p_single (ts : list tree) : mres (string * rty * list tree) :=
  match ts with
  | TId v :: TGroup Paren l :: ts => then_rest (mmap (fun t => (v, t)) (m_one_type l)) ts
  | _ => NoMatch
  end.
(** [$variant:ident($($ty:ty),* ), $($rest:tt)*]. [/repo/src/tagged_box_macro/mod.rs:10]. *)
Definition p_tuple (ts : list tree) : mres (string * list rty * list tree) :=
  match ts with
  | TId v :: TGroup Paren l :: ts => then_rest (mmap (fun tys => (v, tys)) (m_types l)) ts
  | _ => NoMatch
  end.
(** [$variant:ident { $($member:ident: $ty:ty),* }, $($rest:tt)*]. [/repo/src/tagged_box_macro/mod.rs:14]. *)
Definition p_struct (ts : list tree) : mres (string * list (string * rty) * list tree) :=
  match ts with
  | TId v :: TGroup Brace l :: ts => then_rest (mmap (fun ms => (v, ms)) (m_members l)) ts
  | _ => NoMatch
  end.
(** [$variant:ident { $($member:ident: $ty:ty,)* }, $($rest:tt)*]. [/repo/src/tagged_box_macro/mod.rs:17]. *)
Definition p_struct_comma (ts : list tree) : mres (string * list (string * rty) * list tree) :=
  match ts with
  | TId v :: TGroup Brace l :: ts => then_rest (mmap (fun ms => (v, ms)) (m_members_comma l)) ts
  | _ => NoMatch
  end.
(** [$variant:ident, $($rest:tt)*]. [/repo/src/tagged_box_macro/mod.rs:21]. *)
Definition p_unit (ts : list tree) : mres (string * list tree) :=
  match ts with
  | TId v :: ts => then_rest (Match v) ts
  | _ => NoMatch
  end.
(** End of the input. [/repo/src/tagged_box_macro/mod.rs:25]. *)
Definition p_end (ts : list tree) : mres unit := match ts with [] => Match tt | _ => NoMatch end.

(** ** The macros *)

(** [/repo/src/tagged_box_macro/mod.rs:10-30], the [@inner] arms of [__make_enum!]; [n] is what is
    left of the recursion limit. *)
Fixpoint make_enum_inner (n : nat) (finished : list (string * vkind)) (ts : list tree)
  : exp (list (string * vkind)) :=
  match n with
  | O => Limit
  | S n =>
      arm (p_tuple ts) (fun '(v, tys, rest) => make_enum_inner n (finished ++ [(v, KTuple tys)]) rest)
     (arm (p_struct ts) (fun '(v, ms, rest) => make_enum_inner n (finished ++ [(v, KStruct ms)]) rest)
     (arm (p_struct_comma ts) (fun '(v, ms, rest) => make_enum_inner n (finished ++ [(v, KStruct ms)]) rest)
     (arm (p_unit ts) (fun '(v, rest) => make_enum_inner n (finished ++ [(v, KUnit)]) rest)
     (arm (p_end ts) (fun _ => Done finished)
      Error))))
  end.
(** [6-8]. *)
Definition make_enum (n : nat) (ts : list tree) : exp (list (string * vkind)) :=
  match n with O => Limit | S n => make_enum_inner n [] ts end.

(** A generated arm, or no arm of [__expand_tuple!] fits. [/repo/src/tagged_box_macro/meta_macros.rs:84-321]. *)
Definition emit {A B} (o : option A) (k : A -> exp B) : exp B :=
  match o with Some a => k a | None => Error end.

(** [40-101], [__taggable_into_box!]; the arm for several types calls [__expand_tuple_arm!]
    ([/repo/src/tagged_box_macro/meta_macros.rs:445-915]), which calls back. *)
Fixpoint into_box_inner (n : nat) (finished : list into_arm) (ts : list tree) : exp (list into_arm) :=
  match n with
  | O => Limit
  | S n =>
      arm (p_single ts) (fun '(v, t, rest) =>
        emit (gen_into v (KTuple [t])) (fun a => into_box_inner n (finished ++ [a]) rest))
     (arm (p_tuple ts) (fun '(v, tys, rest) =>
        match n with
        | O => Limit
        | S n => emit (gen_into v (KTuple tys)) (fun a => into_box_inner n (finished ++ [a]) rest)
        end)
     (arm (p_struct ts) (fun '(v, ms, rest) =>
        emit (gen_into v (KStruct ms)) (fun a => into_box_inner n (finished ++ [a]) rest))
     (arm (p_struct_comma ts) (fun '(v, ms, rest) =>
        emit (gen_into v (KStruct ms)) (fun a => into_box_inner n (finished ++ [a]) rest))
     (arm (p_unit ts) (fun '(v, rest) =>
        emit (gen_into v KUnit) (fun a => into_box_inner n (finished ++ [a]) rest))
     (arm (p_end ts) (fun _ => Done finished)
      Error)))))
  end.
(** [36-38]. *)
Definition into_box (n : nat) (ts : list tree) : exp (list into_arm) :=
  match n with O => Limit | S n => into_box_inner n [] ts end.

(** [107-151], [__derive_from!]; the impls are emitted in front of the recursive call. *)
Fixpoint derive_from_inner (n : nat) (ts : list tree) : exp (list from_impl) :=
  match n with
  | O => Limit
  | S n =>
      arm (p_single ts) (fun '(v, t, rest) =>
        emit (gen_from_impl v (KTuple [t])) (fun a => and_then (derive_from_inner n rest) (fun l => Done (a ++ l))))
     (arm (p_tuple ts) (fun '(v, tys, rest) =>
        emit (gen_from_impl v (KTuple tys)) (fun a => and_then (derive_from_inner n rest) (fun l => Done (a ++ l))))
     (arm (p_struct ts) (fun '(_, _, rest) => derive_from_inner n rest)
     (arm (p_struct_comma ts) (fun '(_, _, rest) => derive_from_inner n rest)
     (arm (p_unit ts) (fun '(_, rest) => derive_from_inner n rest)
     (arm (p_end ts) (fun _ => Done [])
      Error)))))
  end.
(** [153-155]. *)
Definition derive_from (n : nat) (ts : list tree) : exp (list from_impl) :=
  match n with O => Limit | S n => derive_from_inner n ts end.

(** [184-260], [__boxed_into_inner!]. *)
Fixpoint boxed_into_inner_inner (n : nat) (finished : list read_arm) (ts : list tree) : exp (list read_arm) :=
  match n with
  | O => Limit
  | S n =>
      arm (p_single ts) (fun '(v, t, rest) =>
        emit (gen_inner v (KTuple [t])) (fun a => boxed_into_inner_inner n (finished ++ [a]) rest))
     (arm (p_tuple ts) (fun '(v, tys, rest) =>
        emit (gen_inner v (KTuple tys)) (fun a => boxed_into_inner_inner n (finished ++ [a]) rest))
     (arm (p_struct ts) (fun '(v, ms, rest) =>
        emit (gen_inner v (KStruct ms)) (fun a => boxed_into_inner_inner n (finished ++ [a]) rest))
     (arm (p_struct_comma ts) (fun '(v, ms, rest) =>
        emit (gen_inner v (KStruct ms)) (fun a => boxed_into_inner_inner n (finished ++ [a]) rest))
     (arm (p_unit ts) (fun '(v, rest) =>
        emit (gen_inner v KUnit) (fun a => boxed_into_inner_inner n (finished ++ [a]) rest))
     (arm (p_end ts) (fun _ => Done finished)
      Error)))))
  end.
(** [262-264]. *)
Definition boxed_into_inner_m (n : nat) (ts : list tree) : exp (list read_arm) :=
  match n with O => Limit | S n => boxed_into_inner_inner n [] ts end.

(** [274-376], [__from_tagged_box!]. *)
Fixpoint from_tagged_inner (n : nat) (finished : list read_arm) (ts : list tree) : exp (list read_arm) :=
  match n with
  | O => Limit
  | S n =>
      arm (p_single ts) (fun '(v, t, rest) =>
        emit (gen_from v (KTuple [t])) (fun a => from_tagged_inner n (finished ++ [a]) rest))
     (arm (p_tuple ts) (fun '(v, tys, rest) =>
        emit (gen_from v (KTuple tys)) (fun a => from_tagged_inner n (finished ++ [a]) rest))
     (arm (p_struct ts) (fun '(v, ms, rest) =>
        emit (gen_from v (KStruct ms)) (fun a => from_tagged_inner n (finished ++ [a]) rest))
     (arm (p_struct_comma ts) (fun '(v, ms, rest) =>
        emit (gen_from v (KStruct ms)) (fun a => from_tagged_inner n (finished ++ [a]) rest))
     (arm (p_unit ts) (fun '(v, rest) =>
        emit (gen_from v KUnit) (fun a => from_tagged_inner n (finished ++ [a]) rest))
     (arm (p_end ts) (fun _ => Done finished)
      Error)))))
  end.
(** [270-272]. *)
Definition from_tagged (n : nat) (ts : list tree) : exp (list read_arm) :=
  match n with O => Limit | S n => from_tagged_inner n [] ts end.

(** [386-514], [__ref_from_tagged!]. *)
Fixpoint ref_from_inner (n : nat) (finished : list read_arm) (ts : list tree) : exp (list read_arm) :=
  match n with
  | O => Limit
  | S n =>
      arm (p_single ts) (fun '(v, t, rest) =>
        emit (gen_ref v (KTuple [t])) (fun a => ref_from_inner n (finished ++ [a]) rest))
     (arm (p_tuple ts) (fun '(v, tys, rest) =>
        emit (gen_ref v (KTuple tys)) (fun a => ref_from_inner n (finished ++ [a]) rest))
     (arm (p_struct ts) (fun '(v, ms, rest) =>
        emit (gen_ref v (KStruct ms)) (fun a => ref_from_inner n (finished ++ [a]) rest))
     (arm (p_struct_comma ts) (fun '(v, ms, rest) =>
        emit (gen_ref v (KStruct ms)) (fun a => ref_from_inner n (finished ++ [a]) rest))
     (arm (p_unit ts) (fun '(v, rest) =>
        emit (gen_ref v KUnit) (fun a => ref_from_inner n (finished ++ [a]) rest))
     (arm (p_end ts) (fun _ => Done finished)
      Error)))))
  end.
(** [382-384]. *)
Definition ref_from (n : nat) (ts : list tree) : exp (list read_arm) :=
  match n with O => Limit | S n => ref_from_inner n [] ts end.

(** [@inner [$($finished:tt)*] ..]. [/repo/src/tagged_box_macro/mod.rs:520-543]. *)
Definition p_inner (ts : list tree) : mres (list tree * list tree) :=
  match ts with
  | TAt :: TId i :: TGroup Bracket finished :: ts =>
      if String.eqb i "inner" then Match (finished, ts) else NoMatch
  | _ => NoMatch
  end.
(** [@error $code:literal]. [/repo/src/tagged_box_macro/mod.rs:547]. *)
Definition p_error (ts : list tree) : mres string :=
  match ts with
  | [TAt; TId e; TLit code] => if String.eqb e "error" then Match code else NoMatch
  | _ => NoMatch
  end.

(** [$($variant:ident,)*]; also how the compiler reads the body of the counter enum.
    [/repo/src/tagged_box_macro/mod.rs:535-541]. *)
Fixpoint names (ts : list tree) : option (list string) :=
  match ts with
  | [] => Some []
  | TId v :: TComma :: ts => option_map (cons v) (names ts)
  | _ => None
  end.
(** [/repo/src/tagged_box_macro/mod.rs:535]. *)
Definition p_names (ts : list tree) : mres (list string) :=
  match names ts with Some l => Match l | None => NoMatch end.

(** A pattern after [@inner [..]], [/repo/src/tagged_box_macro/mod.rs:520-543]. *)
Definition with_inner {A} (ts : list tree) (p : list tree -> mres A) : mres (list tree * A) :=
  match p_inner ts with
  | Match (finished, ts) => mmap (fun a => (finished, a)) (p ts)
  | _ => NoMatch
  end.

(** [519-554], [__counter_enum!], all arms on plain token lists. [$literal] in the
    [compile_error!] of lines 547-549 is not bound, so what is reported is not the message intended;
    the model is generous and calls it [Message]. *)
Fixpoint counter_enum (n : nat) (ts : list tree) : exp (list string) :=
  match n with
  | O => Limit
  | S n =>
      let again finished v rest :=
        counter_enum n (TAt :: TId "inner" :: TGroup Bracket (finished ++ [TId v; TComma]) :: rest) in
      arm (with_inner ts p_tuple) (fun '(finished, (v, _, rest)) => again finished v rest)
     (arm (with_inner ts p_struct) (fun '(finished, (v, _, rest)) => again finished v rest)
     (arm (with_inner ts p_struct_comma) (fun '(finished, (v, _, rest)) => again finished v rest)
     (arm (with_inner ts p_unit) (fun '(finished, (v, rest)) => again finished v rest)
     (arm (with_inner ts p_end) (fun '(finished, _) => emit (names finished) Done)
     (arm (p_inner ts) (fun '(_, rest) =>
        counter_enum n [TAt; TId "error"; TId "stringify"; TBang; TGroup Paren rest])
     (arm (p_error ts) Message
     (counter_enum n (TAt :: TId "inner" :: TGroup Bracket [] :: ts))))))))
  end.

(** [558-581], [__count_variants!]. *)
Fixpoint count_variants (n : nat) (ts : list tree) : exp N :=
  match n with
  | O => Limit
  | S n =>
      let again finished v rest :=
        count_variants n (TAt :: TId "inner" :: TGroup Bracket (finished ++ [TId v; TComma]) :: rest) in
      arm (with_inner ts p_tuple) (fun '(finished, (v, _, rest)) => again finished v rest)
     (arm (with_inner ts p_struct) (fun '(finished, (v, _, rest)) => again finished v rest)
     (arm (with_inner ts p_struct_comma) (fun '(finished, (v, _, rest)) => again finished v rest)
     (arm (with_inner ts p_unit) (fun '(finished, (v, rest)) => again finished v rest)
     (arm (match with_inner ts p_end with Match (finished, _) => p_names finished | _ => NoMatch end)
        (fun l => Done (N.of_nat (length l)))
     (count_variants n (TAt :: TId "inner" :: TGroup Bracket [] :: ts))))))
  end.

(** [732-832], [tagged_box!] on the tokens between the braces of the enum; [limit] is the recursion
    limit, one of it used by [tagged_box!] itself. The counter enum is generated four times and the
    number of variants twice, always from the same tokens. *)
Definition tagged_box_m (limit : nat) (container name : string) (align : N) (has_drop has_copy : bool) (ts : list tree)
  : exp expansion :=
  match limit with
  | O => Limit
  | S n =>
      match ts with
      | [] => Error
      | _ =>
          and_then (counter_enum n ts) (fun counter =>
          and_then (boxed_into_inner_m n ts) (fun inner =>
          and_then (derive_from n ts) (fun froms =>
          and_then (make_enum n ts) (fun enum =>
          and_then (into_box n ts) (fun into =>
          and_then (count_variants n ts) (fun total =>
          and_then (from_tagged n ts) (fun from =>
          and_then (ref_from n ts) (fun ref =>
          Done (Expansion container name align has_drop has_copy enum counter total into inner from ref froms)))))))))
      end
  end.

End Munchers.
