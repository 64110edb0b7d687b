(** What a definition has to look like to be accepted, in one place, without the code that is generated. Used to state C63. *)
From Coq Require Import NArith String Bool List.
From Verif Require Import Words Config Spec Pointer Mem Box SpecMem Arms Macro SpecMacro Tokens SpecTokens Heads SpecHeads Traits Names SpecNames Compile.
Import ListNotations.
Local Open Scope string_scope.

(** Derives as written: [#[derive(A, B)]] and so on, with other attributes between. *)
Definition trait_name (t : trait) : string :=
  match t with
  | TClone => "Clone" | TCopy => "Copy" | TDebug => "Debug" | TPartialEq => "PartialEq" | TEq => "Eq" | TPartialOrd => "PartialOrd"
  | TOrd => "Ord" | THash => "Hash" | TDefault => "Default" | TDisplay => "Display" | TDrop => "Drop"
  end.

(** With a comma after each, or after each but the last. *)
Inductive separated : list tree -> list trait -> Prop :=
| sep_none : separated [] []
| sep_last t : separated [TId (trait_name t)] [t]
| sep_more t l ds : separated l ds -> separated (TId (trait_name t) :: TComma :: l) (t :: ds).

Inductive asks_for : list meta -> list trait -> Prop :=
| ask_none : asks_for [] []
| ask_derive l ds ms rest : separated l ds -> asks_for ms rest -> asks_for (Meta ["derive"] (AGroup Paren l) :: ms) (ds ++ rest)
| ask_other m ms ds : m_path m <> ["derive"] -> asks_for ms ds -> asks_for (m :: ms) ds.

(** Every trait in [l] comes with its supertraits. *)
Definition with_supers (l : list trait) : Prop :=
  (In TCopy l -> In TClone l) /\ (In TEq l \/ In TPartialOrd l -> In TPartialEq l) /\
  (In TOrd l -> In TEq l /\ In TPartialOrd l).

(** The impls: [ds] derived, [ie] written for the enum, [is] for the container. *)
Record impls_ok (has : rty -> trait -> bool) (vs : list (string * vkind)) (ds ie is : list trait) : Prop := {
  io_derive : forall t, In t ds -> In t [TClone; TCopy; TDebug; TPartialEq; TEq; TPartialOrd; TOrd];
  io_fields : forall t v k f, In t ds \/ t = TCopy /\ In t ie -> In (v, k) vs -> In f (kind_types k) -> has f t = true;
  io_once : NoDup (ds ++ ie) /\ NoDup (ds ++ is);
  io_supers : with_supers (ds ++ ie) /\ with_supers (ds ++ is);
  io_debug : In TDebug ds -> In TClone (ds ++ ie);
  io_copy : In TCopy (ds ++ ie) -> ~ In TDrop ie;
  io_copy_struct : In TCopy (ds ++ is) -> In TCopy (ds ++ ie) /\ ~ In TDrop is;
  io_drop : In TDrop ie -> forall v k f, In (v, k) vs -> In f (kind_types k) -> has f TCopy = true;
  io_drop_struct : In TDrop is -> In TCopy (ds ++ ie) \/ forall v k, In (v, k) vs -> k = KUnit \/ k = KTuple []
}.

(** Words that cannot be names, in the order of the Rust reference: strict keywords (the last three since edition 2018) and reserved ones. *)
Definition strict_keywords : list string :=
  ["as"; "break"; "const"; "continue"; "crate"; "else"; "enum"; "extern"; "false"; "fn"; "for"; "if"; "impl"; "in"; "let"; "loop";
   "match"; "mod"; "move"; "mut"; "pub"; "ref"; "return"; "self"; "Self"; "static"; "struct"; "super"; "trait"; "true"; "type";
   "unsafe"; "use"; "where"; "while"; "async"; "await"; "dyn"].
Definition reserved_keywords : list string :=
  ["abstract"; "become"; "box"; "do"; "final"; "macro"; "override"; "priv"; "typeof"; "unsized"; "virtual"; "yield"; "try"].
Definition rust_keywords : list string := strict_keywords ++ reserved_keywords.

(** The definition with head [h] and variants [vs] in its surroundings. *)
Record acceptable (c : config) (cs : callsite) (h : head) (vs : list (string * vkind)) (ds : list trait) : Prop := {
  (* the variants *)
  ac_some : vs <> [];
  ac_arity : forall v tys, In (v, KTuple tys) vs -> length tys <= 32;
  ac_limit : length vs + length (filter (fun vk => match snd vk with KTuple [_] => false | KTuple _ => true | _ => false end) vs) + 3 <= cs_limit cs;
  ac_variants : NoDup (map fst vs);
  ac_members : forall v ms, In (v, KStruct ms) vs -> NoDup (map fst ms);
  (* names *)
  ac_keywords : forall n, n = h_struct h \/ n = h_enum h \/ In n (map fst vs) \/ (exists v ms, In (v, KStruct ms) vs /\ In n (map fst ms)) ->
                ~ In n rust_keywords;
  ac_names : names_free (cs_user cs) (cs_written cs) (h_struct h) (h_enum h) vs;
  ac_froms : NoDup (h_struct h :: h_enum h :: concat (map (fun vk => from_keys (snd vk)) vs));
  (* the head *)
  ac_vis : vis_valid (cs_here cs) (h_svis h) /\ vis_valid (cs_here cs) (h_evis h) /\
           forall x, can_name (cs_here cs) (h_svis h) x -> can_name (cs_here cs) (h_evis h) x;
  ac_repr : Forall repr_empty (h_metas h);
  ac_cfg : forall m, In m (h_metas h) -> m_path m = ["cfg"] -> cs_cfg cs (m_args m) = true;
  (* derives and impls *)
  ac_derives : asks_for (h_metas h) ds;
  ac_impls : impls_ok (cs_has cs) vs ds (cs_enum_impls cs) (cs_struct_impls cs);
  (* the setting *)
  ac_setting : (56 <= pointer_width c)%N
}.

(** The types named in a definition are Rust types: their alignment is a power of two which divides the size, and [Copy] ones have no
    destructor. *)
Definition types_sane (cs : callsite) (vs : list (string * vkind)) : Prop :=
  power_of_two (cs_align cs) /\
  forall v k f, In (v, k) vs -> In f (kind_types k) ->
    wf_ty f /\ cs_has cs f TCopy = ty_copy f /\ (ty_copy f = true -> ty_drop f = false).
