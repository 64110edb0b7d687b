(** The head of a definition as it is written, and who can name what. Used to state C62. *)
From Coq Require Import String List.
From Verif Require Import Tokens Heads.
Import ListNotations.
Local Open Scope string_scope.
Local Open Scope list_scope.

(** ** Writing a head down *)

Fixpoint write_path (p : list string) : list tree :=
  match p with
  | [] => []
  | [a] => [TId a]
  | a :: p => TId a :: TOp "::" :: write_path p
  end.

Definition write_meta (m : meta) : list tree :=
  write_path (m_path m) ++
  match m_args m with ANone => [] | AGroup d l => [TGroup d l] | AEq lit => [TOp "="; TLit lit] end.

Definition write_vis (v : vis) : list tree :=
  match v with
  | VNone => []
  | VPub => [TId "pub"]
  | VCrate => [TId "pub"; TGroup Paren [TId "crate"]]
  | VSuper => [TId "pub"; TGroup Paren [TId "super"]]
  | VSelf => [TId "pub"; TGroup Paren [TId "self"]]
  | VIn p => [TId "pub"; TGroup Paren (TId "in" :: write_path p)]
  end.

(** [#[..] #[..] pub struct S, pub enum E { .. }] *)
Definition write_head (h : head) (variants : list tree) : list tree :=
  flat_map (fun m => [TOp "#"; TGroup Bracket (write_meta m)]) (h_metas h) ++
  write_vis (h_svis h) ++ [TId "struct"; TId (h_struct h); TComma] ++
  write_vis (h_evis h) ++ [TId "enum"; TId (h_enum h); TGroup Brace variants].

(** Paths have a segment and names are names. *)
Definition vis_wf (v : vis) : Prop := match v with VIn p => p <> [] | _ => True end.
Definition head_wf (h : head) : Prop :=
  Forall (fun m => m_path m <> []) (h_metas h) /\ vis_wf (h_svis h) /\ vis_wf (h_evis h) /\ h_struct h <> "_" /\ h_enum h <> "_".

(** ** Who can name an item *)

(** Code: in another crate, or in a module of this one. *)
Inductive site : Type := OtherCrate | InModule (p : list string).

(** The item with visibility [v] in module [here] can be named at [x]. *)
Definition can_name (here : list string) (v : vis) (x : site) : Prop :=
  match v, x with
  | VPub, _ => True
  | _, OtherCrate => False
  | VCrate, InModule _ => True
  | VNone, InModule p | VSelf, InModule p => exists q, p = here ++ q
  | VSuper, InModule p => exists up last q, here = up ++ [last] /\ p = up ++ q
  | VIn l, InModule p => exists up q, in_path here l = Some up /\ p = up ++ q
  end.

(** The visibility makes sense there: a module around it, which exists. *)
Definition vis_valid (here : list string) (v : vis) : Prop :=
  match v with
  | VSuper => here <> []
  | VIn l => exists up q, in_path here l = Some up /\ here = up ++ q
  | _ => True
  end.

(** A [repr] attribute that asks for nothing. *)
Definition repr_empty (m : meta) : Prop :=
  m_path m = ["repr"] -> exists l, m_args m = AGroup Paren l /\ forall s, ~ In (TId s) l.
