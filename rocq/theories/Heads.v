(** Model of the head of a definition: what [tagged_box!] accepts in front of the variants, [/repo/src/tagged_box_macro/mod.rs:733-738],
    which items it makes of it ([739-743], [777-781], [26-29]), and which of them the compiler refuses.
    The variants are in [Tokens.v]. *)
From Coq Require Import NArith String Bool List.
From Verif Require Import Words Config Pointer Mem Box Arms Macro Tokens.
Import ListNotations.
Local Open Scope string_scope.

(** What follows the path of an attribute. For the [$meta:meta] of [/repo/src/tagged_box_macro/mod.rs:734]. *)
Inductive margs : Type := ANone | AGroup (d : delim) (l : list tree) | AEq (lit : string).
(** [$meta:meta], [/repo/src/tagged_box_macro/mod.rs:734]. Simplified: after [=] a literal. *)
Record meta : Type := Meta { m_path : list string; m_args : margs }.
(** [$struct_vis:vis], [$enum_vis:vis], [/repo/src/tagged_box_macro/mod.rs:735]. *)
Inductive vis : Type := VNone | VPub | VCrate | VSuper | VSelf | VIn (path : list string).

(** Everything in front of the variants. [/repo/src/tagged_box_macro/mod.rs:734-735]. *)
Record head : Type := Head { h_metas : list meta; h_svis : vis; h_struct : string; h_evis : vis; h_enum : string }.

(** ** Matching *)

(** A path. Rust's grammar, for [/repo/src/tagged_box_macro/mod.rs:734]; simplified: no leading [::]. *)
Fixpoint p_path (ts : list tree) : option (list string * list tree) :=
  match ts with
  | TId a :: ts' =>
      match ts' with
      | TOp o :: rest =>
          if String.eqb o "::" then option_map (fun r => (a :: fst r, snd r)) (p_path rest) else Some ([a], ts')
      | _ => Some ([a], ts')
      end
  | _ => None
  end.

(** All of the tokens in the brackets are one [meta]. [/repo/src/tagged_box_macro/mod.rs:734]. *)
Definition p_meta (ts : list tree) : option meta :=
  match p_path ts with
  | Some (p, []) => Some (Meta p ANone)
  | Some (p, [TGroup d l]) => Some (Meta p (AGroup d l))
  | Some (p, [TOp e; TLit s]) => if String.eqb e "=" then Some (Meta p (AEq s)) else None
  | _ => None
  end.

(** [$( #[$meta:meta] )*], [/repo/src/tagged_box_macro/mod.rs:734]: as many as there are. Doc comments are attributes, too. *)
Fixpoint p_metas (ts : list tree) : option (list meta * list tree) :=
  match ts with
  | TOp h :: TGroup Bracket l :: rest =>
      if String.eqb h "#" then
        match p_meta l, p_metas rest with
        | Some m, Some (ms, r) => Some (m :: ms, r)
        | _, _ => None
        end
      else Some ([], ts)
  | _ => Some ([], ts)
  end.

(** [$vis:vis], [/repo/src/tagged_box_macro/mod.rs:735]; it matches nothing, too. *)
Definition p_vis (ts : list tree) : option (vis * list tree) :=
  match ts with
  | TId p :: ts' =>
      if String.eqb p "pub" then
        match ts' with
        | TGroup Paren [TId w] :: rest =>
            if String.eqb w "crate" then Some (VCrate, rest)
            else if String.eqb w "super" then Some (VSuper, rest)
            else if String.eqb w "self" then Some (VSelf, rest)
            else None
        | TGroup Paren (TId w :: path) :: rest =>
            if String.eqb w "in" then
              match p_path path with Some (p, []) => Some (VIn p, rest) | _ => None end
            else None
        | TGroup Paren _ :: _ => None
        | _ => Some (VPub, ts')
        end
      else Some (VNone, ts)
  | _ => Some (VNone, ts)
  end.

(** [$x:ident]: anything but an underscore. [/repo/src/tagged_box_macro/mod.rs:735]. *)
Definition p_ident (ts : list tree) : option (string * list tree) :=
  match ts with
  | TId s :: rest => if String.eqb s "_" then None else Some (s, rest)
  | _ => None
  end.

(** A given word. [/repo/src/tagged_box_macro/mod.rs:735]. *)
Definition p_word (w : string) (ts : list tree) : option (list tree) :=
  match ts with
  | TId s :: rest => if String.eqb s w then Some rest else None
  | _ => None
  end.

(** [/repo/src/tagged_box_macro/mod.rs:733-738], the only arm: the head and the tokens of the variants, of which there must be some. *)
Definition p_head (ts : list tree) : option (head * list tree) :=
  match p_metas ts with None => None | Some (ms, ts) =>
  match p_vis ts with None => None | Some (sv, ts) =>
  match p_word "struct" ts with None => None | Some ts =>
  match p_ident ts with None => None | Some (s, ts) =>
  match ts with TComma :: ts =>
  match p_vis ts with None => None | Some (ev, ts) =>
  match p_word "enum" ts with None => None | Some ts =>
  match p_ident ts with None => None | Some (e, ts) =>
  match ts with
  | [TGroup Brace (t :: vs)] => Some (Head ms sv s ev e, t :: vs)
  | _ => None
  end end end end | _ => None end end end end end.

(** ** What is generated *)

(** An item with its attributes. [/repo/src/tagged_box_macro/mod.rs:739-743], [26-29]. *)
Record item : Type := Item { i_attrs : list meta; i_vis : vis; i_name : string }.

(** [#[repr(transparent)]], [/repo/src/tagged_box_macro/mod.rs:740]. *)
Definition repr_transparent : meta := Meta ["repr"] (AGroup Paren [TId "transparent"]).

(** The container: [/repo/src/tagged_box_macro/mod.rs:739-743]. *)
Definition struct_item (h : head) : item := Item (h_metas h ++ [repr_transparent])%list (h_svis h) (h_struct h).
(** The enum: [/repo/src/tagged_box_macro/mod.rs:777-781] gives the attributes to [__make_enum!], which puts them
    in front of the enum ([26-27]). *)
Definition enum_item (h : head) : item := Item (h_metas h) (h_evis h) (h_enum h).

(** [tagged_box!] on all of its tokens. [/repo/src/tagged_box_macro/mod.rs:732-832]. *)
Definition tagged_box_call (parse_ty : list tree -> ty_parse) (limit : nat) (align : N) (has_drop has_copy : bool) (ts : list tree)
  : exp (item * item * expansion) :=
  match p_head ts with
  | None => Error
  | Some (h, vs) =>
      and_then (tagged_box_m parse_ty limit (h_struct h) (h_enum h) align has_drop has_copy vs)
        (fun x => Done (struct_item h, enum_item h, x))
  end.

(** ** What the compiler says to the items *)

(** Is it the attribute of that name? For [/repo/src/tagged_box_macro/mod.rs:739-740]. *)
Definition is_attr (name : string) (m : meta) : bool :=
  match m_path m with [p] => String.eqb p name | _ => false end.

(** The hints of a [repr] attribute, as many as there are names in it; [None]: malformed.
    Rust, for [/repo/src/tagged_box_macro/mod.rs:739-740]. *)
Definition repr_hints (m : meta) : option (list string) :=
  if is_attr "repr" m then
    match m_args m with
    | AGroup Paren l => Some (flat_map (fun t => match t with TId s => [s] | _ => [] end) l)
    | _ => None
    end
  else Some [].

(** All hints on an item. Rust, for [/repo/src/tagged_box_macro/mod.rs:739-740]. *)
Fixpoint all_hints (ms : list meta) : option (list string) :=
  match ms with
  | [] => Some []
  | m :: ms =>
      match repr_hints m, all_hints ms with
      | Some l, Some r => Some (l ++ r)%list
      | _, _ => None
      end
  end.

(** "transparent struct cannot have other repr hints" (E0692), also not a second [transparent].
    Rust, for [/repo/src/tagged_box_macro/mod.rs:739-740]. *)
Definition repr_ok (ms : list meta) : bool :=
  match all_hints ms with
  | None => false
  | Some l => negb (existsb (String.eqb "transparent") l) || Nat.eqb (List.length l) 1
  end.

(** A module of the program, from the root of the crate. Where [tagged_box!] ([/repo/src/tagged_box_macro/mod.rs:732]) is called. *)
Definition path : Type := list string.

(** Is [p] the module [q] or one around it? Auxiliary, for the visibilities of [/repo/src/tagged_box_macro/mod.rs:735]. *)
Fixpoint around (p q : path) : bool :=
  match p, q with
  | [], _ => true
  | a :: p, b :: q => String.eqb a b && around p q
  | _ :: _, [] => false
  end.

(** From where an item can be named: from everywhere, or from inside a module of this crate.
    Rust, for the visibilities of [/repo/src/tagged_box_macro/mod.rs:735]. *)
Inductive reach : Type := Everywhere | Within (p : path).

(** [super::super::..] from module [here]. Rust, for [pub(in ..)] in [/repo/src/tagged_box_macro/mod.rs:735]. *)
Fixpoint follow (here : path) (l : list string) : path :=
  match l with
  | [] => here
  | a :: l => follow (if String.eqb a "super" then removelast here else (here ++ [a])%list) l
  end.

(** The module a path of [pub(in ..)] means: it starts with [crate], [self] or [super] (edition 2018) and goes no further up than the root.
    Rust, for [/repo/src/tagged_box_macro/mod.rs:735]. *)
Definition in_path (here : path) (l : list string) : option path :=
  match l with
  | a :: r =>
      if String.eqb a "crate" then Some (follow [] r)
      else if String.eqb a "self" then Some (follow here r)
      else if String.eqb a "super" && Nat.leb (List.length (filter (String.eqb "super") l)) (List.length here) then Some (follow here l)
      else None
  | [] => None
  end.

(** The reach of a visibility in module [here]; [None]: an error. Rust, for [/repo/src/tagged_box_macro/mod.rs:735]. *)
Definition reach_of (here : path) (v : vis) : option reach :=
  match v with
  | VNone | VSelf => Some (Within here)
  | VPub => Some Everywhere
  | VCrate => Some (Within [])
  | VSuper => match here with [] => None | _ => Some (Within (removelast here)) end
  | VIn l =>
      match in_path here l with
      | Some p => if around p here then Some (Within p) else None
      | None => None
      end
  end.

(** Is the first at least the second? Rust, for the visibilities of [/repo/src/tagged_box_macro/mod.rs:735]. *)
Definition covers (a b : reach) : bool :=
  match a, b with
  | Everywhere, _ => true
  | Within _, Everywhere => false
  | Within p, Within q => around p q
  end.

(** The complaints of the compiler. Rust, for [/repo/src/tagged_box_macro/mod.rs:739-832]. *)
Inductive complaint : Type :=
| BadVisibility      (* no such module, or not one around *)
| ReprConflict       (* E0692, or a malformed [repr] *)
| NoSuchType         (* E0412: an impl for a type that is not there *)
| PrivateInPublic.   (* E0446: [type Inner = $enum] of a container that can be named from further away *)

(** Do the [cfg] attributes keep the item? [cfg_on] says which conditions hold. Rust, for [/repo/src/tagged_box_macro/mod.rs:739], [26].
    Simplified: [cfg_attr] is taken to be expanded already. *)
Definition kept (cfg_on : margs -> bool) (i : item) : bool :=
  forallb (fun m => negb (is_attr "cfg" m) || cfg_on (m_args m)) (i_attrs i).

(** What is wrong with the generated items. An item whose [cfg] is off is not looked at any further, but the impls for it
    ([/repo/src/tagged_box_macro/mod.rs:745-832]) have no attributes and stay. The trait is public, so the type
    [Inner] of its impl ([745-746]) must be as visible as the container.
    Simplified: nothing else in the module has these names. *)
Definition complaints (cfg_on : margs -> bool) (here : path) (s e : item) : list complaint :=
  ((if kept cfg_on s && kept cfg_on e then [] else [NoSuchType]) ++
  (if kept cfg_on s && negb (repr_ok (i_attrs s)) then [ReprConflict] else []) ++
  match reach_of here (i_vis s), reach_of here (i_vis e) with
  | Some rs, Some re => if covers re rs then [] else [PrivateInPublic]
  | _, _ => [BadVisibility]
  end)%list.
