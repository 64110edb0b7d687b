(** C65: what [macro_rules!] makes of the text of the crate's macros is what the model of the macros says. *)
From Coq Require Import Arith NArith String Ascii Bool List Lia.
From Verif Require Import Words Config Pointer Mem Box Arms Macro MacroFacts Tokens SpecTokens TokensFacts Heads SpecHeads Props_Heads Props_Tokens
  Lexer MacroRules MacroRulesFacts CrateMacros SpecText TextFacts TextMacros TextParts TextEnums TextWhole TextRefused.
Import ListNotations.
Local Open Scope string_scope.
Local Open Scope list_scope.

(** A call of [tagged_box!] with the given tokens in the braces. *)
Definition the_call_of (ts : list tree) : list tk := [C true "tagged_box" Brace (map W ts)].

Theorem C65_text : forall parse limit align d c ts text, parser_ok parse -> p_head ts <> None ->
  ((exists out, expand_all parse the_macros limit (the_call_of ts) = Done out /\ plain out = text) <->
   (exists s e x, tagged_box_call parse limit align d c ts = Done (s, e, x) /\ text = generated s e x)).
Proof.
  intros parse limit align d c ts text Hp Hh. destruct (p_head ts) as [[h vs]|] eqn:P; [clear Hh|contradiction Hh; reflexivity].
  apply C62_syntax in P as (-> & W & N). unfold the_call_of. split.
  - intros (out & H & <-). destruct (text_only parse Hp h vs limit W N (ex_intro _ out H)) as (l & L & Hl & X).
    destruct (X align d c) as (x & Hx). destruct (text_of parse Hp h vs l x limit align d c W N L Hl Hx) as (out' & H' & Q).
    rewrite H in H'. injection H' as <-. exists (struct_item h), (enum_item h), x. split; [|exact Q].
    apply C62_items. exists h, vs. repeat split; try assumption; try (apply W).
    apply (C32_macro parse Hp). exists l. auto.
  - intros (s & e & x & H & ->). apply C62_items in H as (h' & vs' & E & W' & N' & -> & -> & H).
    apply (C32_macro parse Hp) in H as (l & L & Hl & Hx).
    assert (Q : Some (h', vs') = Some (h, vs)).
    { rewrite <- (proj2 (C62_syntax (write_head h vs) h vs)) by auto. rewrite E. symmetry. apply C62_syntax. auto. }
    injection Q as -> ->. exact (text_of parse Hp h vs l x limit align d c W N L Hl Hx).
Qed.

(** The same for anything one can write between the braces; [_] is no name, it is written [TOp "_"]. *)
Theorem C65_any : forall parse limit align d c ts text, parser_ok parse -> ~ In (TId "_") ts ->
  ((exists out, expand_all parse the_macros limit (the_call_of ts) = Done out /\ plain out = text) <->
   (exists s e x, tagged_box_call parse limit align d c ts = Done (s, e, x) /\ text = generated s e x)).
Proof.
  intros parse limit align d c ts text Hp L. destruct (p_head ts) as [[h vs]|] eqn:P.
  - apply C65_text; [exact Hp|]. rewrite P. discriminate.
  - split.
    + intros (out & H & _). assert (Nm : Forall named ts) by (apply Forall_forall; intros t Ht ->; exact (L Ht)).
      destruct (refused parse limit ts Nm P). exists out. exact H.
    + intros (s & e & x & H & _). unfold tagged_box_call in H. rewrite P in H. discriminate H.
Qed.

(** Which the lexer sees to. *)
Theorem C65_source : forall source ts, lex source = Some ts -> ~ In (TId "_") ts.
Proof. intros source ts L H. pose proof (lex_named _ _ L) as N. rewrite Forall_forall in N. exact (N _ H eq_refl). Qed.

(** Whether the call is accepted does not depend on the alignment of the types and on their traits, which the macros do not see. *)
Theorem C65_same : forall parse limit ts align d c align' d' c', parser_ok parse -> ~ In (TId "_") ts ->
  (exists r, tagged_box_call parse limit align d c ts = Done r) -> (exists r, tagged_box_call parse limit align' d' c' ts = Done r).
Proof.
  intros parse limit ts align d c align' d' c' Hp L [[[s e] x] H].
  destruct (proj2 (C65_any parse limit align d c ts _ Hp L) (ex_intro _ s (ex_intro _ e (ex_intro _ x (conj H eq_refl))))) as (out & O & _).
  destruct (proj1 (C65_any parse limit align' d' c' ts _ Hp L) (ex_intro _ out (conj O eq_refl))) as (s' & e' & x' & R & _).
  eauto.
Qed.

(** ** Examples *)

Definition demo_call : list tree := demo_head_tokens ++ [TGroup Brace item_tokens].

(** The definition of C62's example becomes two items, three impls and the [From]s: 83 tokens or groups. *)
Example C65_text_example : parser_ok demo /\ p_head demo_call <> None /\
  exists out x, expand_all demo the_macros 12 (the_call_of demo_call) = Done out /\
    tagged_box_call demo 12 8 false false demo_call = Done (struct_item demo_head, enum_item demo_head, x) /\
    plain out = generated (struct_item demo_head) (enum_item demo_head) x /\ List.length (plain out) = 83.
Proof.
  split; [exact demo_ok|]. pose proof (proj1 C62_syntax_example) as P. fold demo_call in P. split; [rewrite P; discriminate|].
  destruct C62_items_example as (x & H & _). fold demo_call in H.
  assert (P' : p_head demo_call <> None) by (rewrite P; discriminate).
  destruct (proj2 (C65_text demo 12 8 false false demo_call _ demo_ok P') (ex_intro _ _ (ex_intro _ _ (ex_intro _ x (conj H eq_refl))))) as (out & O & Q).
  exists out, x. split; [exact O|]. split; [exact H|]. split; [exact Q|].
  assert (K : match expand_all demo the_macros 12 (the_call_of demo_call) with Done l => List.length (plain l) | _ => 0 end = 83) by (vm_compute; reflexivity).
  rewrite O in K. exact K.
Qed.

(** The text of the same call, and texts that are refused: no variant, an attribute on a variant, a discriminant, no last comma,
    an unknown type, the enum first, no name, no visibility. *)
Definition source_of (variants : string) : string :=
  ("#[doc = "" Some items.""] #[derive(Debug, Clone)] pub(crate) struct Container, pub enum Item { " ++ variants ++ " }")%string.
Definition item_source : string := source_of
  "Integer(i32), Boolean(bool), Text(String), Unit, // a comment
   Empty(), Many(u8, u32, u8), Orphan { thing: u64, other: bool, },".
Example C65_source_example : lex item_source = Some demo_call /\ lex "struct _, enum _ { _, }" =
  Some [TId "struct"; TOp "_"; TComma; TId "enum"; TOp "_"; TGroup Brace [TOp "_"; TComma]].
Proof. vm_compute. auto. Qed.

Definition is_done {A} (e : exp A) : bool := match e with Done _ => true | _ => false end.
Example C65_any_example : ~ In (TId "_") demo_call /\
  map (fun s => is_done (expand_all demo the_macros 12 (the_call_of (toks s))))
    [item_source; source_of ""; source_of "#[cold] A,"; source_of "A = 3,"; source_of "A, B"; source_of "A(f128),";
     "enum E, struct S { A, }"; "struct _, enum E { A, }"; "pub(elsewhere) struct S, enum E { A, }"; "struct S, enum E { A, }"] =
    [true; false; false; false; false; false; false; false; false; true] /\
  is_done (expand_all demo the_macros 11 (the_call_of demo_call)) = false.
Proof. split; [exact (C65_source _ _ (proj1 C65_source_example))|]. vm_compute. auto. Qed.

Example C65_same_example : exists r, tagged_box_call demo 12 1 true true demo_call = Done r.
Proof.
  destruct C65_text_example as (Hp & _ & out & x & _ & H & _).
  exact (C65_same demo 12 demo_call 8 false false 1 true true Hp (proj1 C65_any_example) (ex_intro _ _ H)).
Qed.

Print Assumptions C65_text.
Print Assumptions C65_any.
Print Assumptions C65_source.
Print Assumptions C65_same.
