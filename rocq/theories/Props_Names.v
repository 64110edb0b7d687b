(** C49: the names a definition may use. *)
From Coq Require Import Arith NArith String Bool List Lia.
From Verif Require Import Words Config Spec Pointer Mem Box Arms Macro SpecMem SpecMacro MacroFacts Names SpecNames NamesFacts Bump.
Import ListNotations.
Local Open Scope string_scope.

(** Whatever the types are and however they are written: the names of the generated code are accepted
    exactly if the definition avoids the forbidden uses. *)
Theorem C49_names : forall user written def x, expand def = Some x ->
  e_name def <> "Self" -> e_container def <> "Self" ->
  names_accepted user written (e_container def) (e_name def) x <->
  names_free user written (e_container def) (e_name def) (e_variants def).
Proof.
  intros user written def x Hx H1 H2. unfold names_accepted. split.
  - intros [D H]. apply (accepted_iff _ _ _ _ (conj H1 H2) D _ _ Hx), H.
  - intros H. split; [apply H|]. apply (accepted_iff _ _ _ _ (conj H1 H2) (nf_differ _ _ _ _ _ H) _ _ Hx), H.
Qed.

(** In particular a variant with several or with named fields cannot have the name of a type (or
    module) occurring in its own fields, nor the name of the enum. *)
Theorem C49_own_name : forall user written def x v k, expand def = Some x ->
  e_name def <> "Self" -> e_container def <> "Self" ->
  In (v, k) (e_variants def) -> gets_struct k = true ->
  names_accepted user written (e_container def) (e_name def) x ->
  v <> e_name def /\ forall t, In t (kind_types k) -> ~ mentions (WType v) (written t).
Proof.
  intros user written def x v k Hx H1 H2 Hin Hk H. apply (C49_names _ _ _ _ Hx H1 H2) in H.
  pose proof (nf_variants _ _ _ _ _ H _ _ Hin) as V. split.
  - apply (vf_name _ _ _ _ V Hk).
  - apply (vf_own _ _ _ _ V Hk).
Qed.

(** A tuple variant of one field can have any name, that of its own field's type as well; and the names
    of unit variants do not matter at all. *)
Theorem C49_single_name : forall user written def def' x x' v v' k pre post, gets_struct k = false ->
  e_variants def = (pre ++ (v, k) :: post)%list -> e_variants def' = (pre ++ (v', k) :: post)%list ->
  e_name def' = e_name def -> e_container def' = e_container def ->
  e_name def <> "Self" -> e_container def <> "Self" ->
  expand def = Some x -> expand def' = Some x' ->
  names_accepted user written (e_container def) (e_name def) x <->
  names_accepted user written (e_container def') (e_name def') x'.
Proof.
  intros user written def def' x x' v v' k pre post Hk E E' En Ec H1 H2 Hx Hx'.
  rewrite (C49_names _ _ _ _ Hx H1 H2).
  rewrite (C49_names _ _ _ _ Hx') by (rewrite ?En, ?Ec; assumption). rewrite En, Ec, E, E'.
  assert (V : forall a b, variant_free written (e_name def) a k -> variant_free written (e_name def) b k).
  { intros a b [F1 F2 _ _ _ _]. constructor; auto; rewrite Hk; discriminate. }
  assert (X : forall a b, names_free user written (e_container def) (e_name def) (pre ++ (a, k) :: post)%list ->
                          names_free user written (e_container def) (e_name def) (pre ++ (b, k) :: post)%list).
  { intros a b [N0 N1 N2 N3 N4 N5]. constructor; auto.
    - rewrite existsb_app in *. exact N2.
    - rewrite existsb_app in *. exact N4.
    - intros w kw Hin. apply in_app_iff in Hin as [Hin|[Hin|Hin]].
      + apply N5, in_app_iff. auto.
      + injection Hin as <- <-. apply (V a). apply N5, in_app_iff. cbn. auto.
      + apply N5, in_app_iff. cbn. auto. }
  split; apply X.
Qed.

(** ** Examples *)

(** Types written as their names. *)
Definition by_name (t : rty) : wty := WType (ty_name t).
Definition nothing_else : string -> bool := fun _ => false.

(** The example of [/repo/src/lib.rs:31-65]: [String(String)] is fine. *)
Definition doc_def : edef := Edef "Container" "Item" 8 false false
  [("String", KTuple [ty_string]); ("Numbers", KTuple [ty_i32; ty_u32]); ("Nothing", KUnit);
   ("Struct", KStruct [("float", ty_u32); ("boolean", ty_bool)])].
Example C49_example : exists x, expand doc_def = Some x /\ names_accepted nothing_else by_name "Container" "Item" x.
Proof. eexists. split; [reflexivity|]. split; [discriminate|]. repeat constructor. Qed.

(** [String(String, u8)] is not, although it is a correct enum; nor is [String { text: String }]. *)
Definition captured_def (k : vkind) : edef := Edef "Container" "Item" 8 false false [("Empty", KUnit); ("String", k)].
Example C49_captured : Forall (fun k => exists x, expand (captured_def k) = Some x /\
    ~ names_accepted nothing_else by_name "Container" "Item" x)
  [KTuple [ty_string; ty_u8]; KStruct [("text", ty_string)]].
Proof.
  repeat constructor; eexists; (split; [reflexivity|]); intros H.
  - eapply (C49_own_name _ _ (captured_def (KTuple [ty_string; ty_u8])) _ "String") in H;
      [|reflexivity|discriminate|discriminate|cbn; auto|reflexivity].
    apply H with ty_string; cbn; [auto|constructor].
  - eapply (C49_own_name _ _ (captured_def (KStruct [("text", ty_string)])) _ "String") in H;
      [|reflexivity|discriminate|discriminate|cbn; auto|reflexivity].
    apply H with ty_string; cbn; [auto|constructor].
Qed.

Lemma rejected user written def x : expand def = Some x -> e_name def <> "Self" -> e_container def <> "Self" ->
  ~ names_free user written (e_container def) (e_name def) (e_variants def) ->
  exists x, expand def = Some x /\ ~ names_accepted user written (e_container def) (e_name def) x.
Proof. intros Hx H1 H2 H. exists x. split; [exact Hx|]. rewrite (C49_names _ _ _ _ Hx H1 H2). exact H. Qed.

(** An enum [Item] with a variant [Item] of two fields; a list written with [Box<Self>]; a field type
    called [F]; an enum called [F]; all correct enums. *)
Definition ty_named (n : string) : rty := Ty n 8 8 (fun _ => true) true false.
Definition boxed_self (t : rty) : wty :=
  if String.eqb (ty_name t) "Box<Self>" then WNode "<>" [WType "Box"; WType "Self"] else by_name t.
Example C49_rejected : Forall (fun def => exists x, expand def = Some x /\
    ~ names_accepted (fun n => String.eqb n "F") boxed_self (e_container def) (e_name def) x)
  [Edef "Container" "Item" 8 false false [("Item", KTuple [ty_u8; ty_u8])];
   Edef "Container" "List" 8 false false [("Nil", KUnit); ("Cons", KTuple [ty_i32; ty_named "Box<Self>"])];
   Edef "Container" "List" 8 false false [("Nil", KUnit); ("Rest", KTuple [ty_named "Box<Self>"])];
   Edef "Container" "Item" 8 false false [("A", KTuple [ty_named "F"])];
   Edef "Container" "F" 8 false false [("A", KUnit)]].
Proof.
  repeat (apply Forall_cons; [eapply rejected; [reflexivity|discriminate|discriminate|intros H; cbn in H]|]); [..|apply Forall_nil].
  - destruct (vf_name _ _ _ _ (nf_variants _ _ _ _ _ H "Item" _ (or_introl eq_refl)) eq_refl) as [D _]. apply D. reflexivity.
  - eapply (vf_types _ _ _ _ (nf_variants _ _ _ _ _ H "Cons" _ (or_intror (or_introl eq_refl))) _ "Self");
      [right; left; reflexivity|cbn; auto|]. cbn. eapply mentions_arg; [right; left; reflexivity|constructor].
  - eapply (vf_types _ _ _ _ (nf_variants _ _ _ _ _ H "Rest" _ (or_intror (or_introl eq_refl))) _ "Self");
      [left; reflexivity|cbn; auto|]. cbn. eapply mentions_arg; [right; left; reflexivity|constructor].
  - eapply (vf_types _ _ _ _ (nf_variants _ _ _ _ _ H "A" _ (or_introl eq_refl)) _ "F");
      [left; reflexivity|cbn; auto|]. constructor.
  - apply (proj1 (nf_enum _ _ _ _ _ H)). reflexivity.
Qed.

(** A unit-only enum called [TaggableInner] is accepted; a named-field variant [N] may use a constant
    [N], a tuple variant may not. *)
Definition array_n (t : rty) : wty :=
  if String.eqb (ty_name t) "[u8; N]" then WNode "[;]" [WType "u8"; WConst "N"] else by_name t.
Example C49_corner : Forall (fun def => exists x, expand def = Some x /\
    names_accepted (fun n => String.eqb n "N") array_n (e_container def) (e_name def) x)
  [Edef "Container" "TaggableInner" 8 false false [("A", KUnit)];
   Edef "Container" "Item" 8 false false [("N", KStruct [("bytes", ty_named "[u8; N]"); ("n", ty_u16)])];
   Edef "Container" "Item" 8 false false [("N", KTuple [ty_named "[u8; N]"])];
   Edef "F" "Item" 8 false false [("u8", KTuple []); ("F", KTuple [ty_u16; ty_u16])]].
Proof. repeat constructor; eexists; (split; [reflexivity|]); (split; [discriminate|]); repeat constructor. Qed.
Example C49_corner_tuple : exists x, expand (Edef "Container" "Item" 8 false false [("N", KTuple [ty_u16; ty_named "[u8; N]"])]) = Some x /\
  ~ names_accepted (fun n => String.eqb n "N") array_n "Container" "Item" x.
Proof.
  eapply (rejected _ _ (Edef "Container" "Item" 8 false false [("N", KTuple [ty_u16; ty_named "[u8; N]"])]));
    [reflexivity|discriminate|discriminate|]. intros H.
  eapply (vf_own_const _ _ _ _ (nf_variants _ _ _ _ _ H "N" _ (or_introl eq_refl)) eq_refl eq_refl);
    [right; left; reflexivity|]. cbn. eapply mentions_arg; [right; left; reflexivity|constructor].
Qed.

(** [String(String)] or [Text(String)]: no difference. *)
Definition doc_def' : edef := Edef "Container" "Item" 8 false false
  [("Text", KTuple [ty_string]); ("Numbers", KTuple [ty_i32; ty_u32]); ("Nothing", KUnit);
   ("Struct", KStruct [("float", ty_u32); ("boolean", ty_bool)])].
Example C49_single_example : exists x x', expand doc_def = Some x /\ expand doc_def' = Some x' /\
  forall user written, names_accepted user written "Container" "Item" x <-> names_accepted user written "Container" "Item" x'.
Proof.
  do 2 eexists. split; [reflexivity|]. split; [reflexivity|]. intros user written.
  eapply (C49_single_name user written doc_def doc_def' _ _ "String" "Text" (KTuple [ty_string]) []); try reflexivity; discriminate.
Qed.

(** ** Instances: each theorem applied to a concrete case that meets its hypotheses *)

(** For the example of the documentation both sides hold, for [String(String, u8)] neither does. *)
Example C49_names_example :
  (exists x, expand doc_def = Some x /\ names_free nothing_else by_name "Container" "Item" (e_variants doc_def)) /\
  ~ names_free nothing_else by_name "Container" "Item" (e_variants (captured_def (KTuple [ty_string; ty_u8]))).
Proof.
  split.
  - destruct C49_example as (x & X & A). exists x. split; [exact X|]. apply (C49_names _ _ doc_def x X); [discriminate|discriminate|exact A].
  - pose proof C49_captured as C. inversion C as [|k l (x & X & A) _]. intros F. apply A.
    apply (C49_names _ _ (captured_def (KTuple [ty_string; ty_u8])) x X); [discriminate|discriminate|exact F].
Qed.
