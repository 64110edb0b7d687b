(** Model of the compiler on one whole call of [tagged_box!], [/repo/src/tagged_box_macro/mod.rs:732-832]: from the tokens between the
    brackets to the generated code, with all checks of this model that the generated code has to pass.
    The parts are in [Tokens.v] (the variants), [Heads.v] (what stands before them), [Traits.v] (derives and impls) and [Names.v] (names). *)
From Coq Require Import NArith String Bool List.
From Verif Require Import Words Config Pointer Mem Box Arms Macro Tokens Heads Traits Names.
Import ListNotations.
Local Open Scope string_scope.

(** ** Derives in the attributes *)

(** The derive macros of core. Rust, for the attributes of [/repo/src/tagged_box_macro/mod.rs:734].
    Simplified: there are no other ones. *)
Definition derive_named (n : string) : option trait :=
  assoc n [("Clone", TClone); ("Copy", TCopy); ("Debug", TDebug); ("PartialEq", TPartialEq); ("Eq", TEq);
           ("PartialOrd", TPartialOrd); ("Ord", TOrd); ("Hash", THash); ("Default", TDefault)].

(** What stands in the brackets of a [derive]: names with commas between them and perhaps one at the end.
    Rust, for the attributes of [/repo/src/tagged_box_macro/mod.rs:734]. *)
Fixpoint derive_list (l : list tree) : option (list trait) :=
  match l with
  | [] => Some []
  | TId n :: l' =>
      match derive_named n, l' with
      | Some t, [] => Some [t]
      | Some t, TComma :: l'' => option_map (cons t) (derive_list l'')
      | _, _ => None
      end
  | _ => None
  end.

(** All derives in the attributes of an item; [None]: an error. Rust, for [/repo/src/tagged_box_macro/mod.rs:734], [739], [26].
    Simplified: attributes other than [derive], [repr] and [cfg] change nothing. *)
Fixpoint derives (ms : list meta) : option (list trait) :=
  match ms with
  | [] => Some []
  | m :: ms =>
      if is_attr "derive" m then
        match m_args m with
        | AGroup Paren l =>
            match derive_list l, derives ms with
            | Some a, Some b => Some (a ++ b)%list
            | _, _ => None
            end
        | _ => None
        end
      else derives ms
  end.

(** ** Declarations *)

(** Words that [$x:ident] matches but that cannot be names (edition 2018).
    Rust, for the names of [/repo/src/tagged_box_macro/mod.rs:735-736]. *)
Definition keywords : list string :=
  ["as"; "break"; "const"; "continue"; "crate"; "else"; "enum"; "extern"; "false"; "fn"; "for"; "if"; "impl"; "in"; "let"; "loop";
   "match"; "mod"; "move"; "mut"; "pub"; "ref"; "return"; "self"; "Self"; "static"; "struct"; "super"; "trait"; "true"; "type";
   "unsafe"; "use"; "where"; "while"; "async"; "await"; "dyn"; "abstract"; "become"; "box"; "do"; "final"; "macro"; "override";
   "priv"; "try"; "typeof"; "unsized"; "virtual"; "yield"].

(** Rust, for the names of [/repo/src/tagged_box_macro/mod.rs:735-736]. *)
Definition is_name (n : string) : bool := negb (existsb (String.eqb n) keywords).

(** No name twice. Rust, for [/repo/src/tagged_box_macro/mod.rs:27-29]. *)
Fixpoint no_repeat (l : list string) : bool :=
  match l with [] => true | n :: r => negb (existsb (String.eqb n) r) && no_repeat r end.

(** The enum as declared by [__make_enum!], [/repo/src/tagged_box_macro/mod.rs:25-30]: no two variants of one name (E0428), no two
    members of one name (E0124), all of them names. *)
Definition enum_declared (x : expansion) : bool :=
  no_repeat (map fst (x_enum x)) && forallb is_name (map fst (x_enum x)) &&
  forallb (fun vk => match snd vk with
                     | KStruct ms => no_repeat (map fst ms) && forallb is_name (map fst ms)
                     | _ => true
                     end) (x_enum x).

(** The type a [From] impl is for. [/repo/src/tagged_box_macro/mod.rs:108], [124]. *)
Definition impl_from (f : from_impl) : string :=
  match f with
  | FromLeaf t _ => ty_name t
  | FromTuple tys _ _ => "(" ++ String.concat ", " (map ty_name tys) ++ ")"
  end.

(** No two impls of [From] for the container from one type (E0119): [From<T> for T] of core, the one of
    [/repo/src/tagged_box_macro/mod.rs:761], those of [__derive_from!]. Simplified: two types are the same if written the same. *)
Definition froms_apart (x : expansion) : bool :=
  no_repeat (x_container x :: x_name x :: map impl_from (x_froms x)).

(** ** The call *)

(** A call of the macro with what matters of the code around it. [cs_align], [cs_parse]: the enum's alignment and the meaning of types, both
    the compiler's business. For [/repo/src/tagged_box_macro/mod.rs:732-832]. *)
Record callsite : Type := Callsite {
  cs_tokens : list tree;                      (* what stands between the brackets *)
  cs_here : path;                             (* the module *)
  cs_enum_impls : list trait;                 (* impls for the enum written by hand *)
  cs_struct_impls : list trait;               (* and for the container *)
  cs_user : string -> bool;                   (* names of the module *)
  cs_limit : nat;                             (* recursion limit *)
  cs_cfg : margs -> bool;                     (* conditions that hold *)
  cs_parse : list tree -> ty_parse;
  cs_written : rty -> wty;
  cs_has : rty -> trait -> bool;              (* traits of the field types *)
  cs_align : N
}.

(** [cs] compiles, with the crate built in setting [c], to the items [s] and [e] and the code [x].
    [/repo/src/tagged_box_macro/mod.rs:732-832]. *)
Definition compiles (c : config) (cs : callsite) (s e : item) (x : expansion) : Prop :=
  exists ds,
    tagged_box_call (cs_parse cs) (cs_limit cs) (cs_align cs)
      (has TDrop (cs_enum_impls cs)) (has TCopy (ds ++ cs_enum_impls cs)) (cs_tokens cs) = Done (s, e, x) /\
    derives (i_attrs s) = Some ds /\ derives (i_attrs e) = Some ds /\
    complaints (cs_cfg cs) (cs_here cs) s e = [] /\
    is_name (i_name s) && is_name (i_name e) = true /\
    enum_declared x = true /\ froms_apart x = true /\
    impls_compile (cs_has cs) x (Tdef ds (cs_enum_impls cs) (cs_struct_impls cs)) = true /\
    tags_typecheck c x = true /\
    names_accepted (cs_user cs) (cs_written cs) (x_container x) (x_name x) x.
