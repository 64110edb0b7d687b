(** C66: the two macros whose arms are written out are those the generators make. *)
From Coq Require Import Arith String Bool List.
From Verif Require Import Tokens Lexer MacroRules Source CrateMacros SpecText Generated.
Import ListNotations.
Local Open Scope string_scope.
Local Open Scope list_scope.

(** Code that means the same: a comma before a closing parenthesis, the type argument of [TaggedBox] and the integer type of [as] do not matter,
    the last two because they can be inferred. *)
Fixpoint drop_last_comma (l : list tmpl) : list tmpl :=
  match l with
  | [] => []
  | [TTok TComma] => []
  | t :: l => t :: drop_last_comma l
  end.
Fixpoint drop_inferred (l : list tmpl) : list tmpl :=
  match l with
  | TTok (TId "TaggedBox") :: TTok (TOp "::") :: TTok (TOp "<") :: TVar "enum" :: TTok (TOp ">") :: l => TTok (TId "TaggedBox") :: drop_inferred l
  | TTok (TId "as") :: TTok (TOp "_") :: l => TTok (TId "as") :: TTok (TId "u8") :: drop_inferred l
  | t :: l => t :: drop_inferred l
  | [] => []
  end.
Fixpoint loosely (t : tmpl) : tmpl :=
  match t with
  | TGrp d l => TGrp d ((if delim_eqb d Paren then drop_last_comma else fun l => l) (drop_inferred (map loosely l)))
  | TRep l s => TRep (drop_inferred (map loosely l)) s
  | TCall c m d l => TCall c m d (drop_inferred (map loosely l))
  | t => t
  end.
Definition loose_rule (r : rule) : rule := Rule (r_pat r) (drop_inferred (map loosely (r_rhs r))).
Definition loose (m : string * list rule) : string * list rule := (fst m, map loose_rule (snd m)).

Theorem C66_generated :
  option_map loose (generated_macro call__generate_tuple_expansion) = Some (loose ("__expand_tuple", arms_expand_tuple)) /\
  option_map loose (generated_macro call__generate_tuple_arm_expansion) = Some (loose ("__expand_tuple_arm", arms_expand_tuple_arm)).
Proof. split; vm_compute; reflexivity. Qed.

(** Literally they are not the same, and what is dropped matters to nothing but these three: the number of arms, the arms of
    [__expand_tuple!] up to six fields and the first arm of [__expand_tuple_arm!] but for [::<$enum>] are the same. *)
Definition rules_of (m : option (string * list rule)) : list rule := match m with Some (_, rs) => rs | None => [] end.
Example C66_generated_example :
  List.length (rules_of (generated_macro call__generate_tuple_expansion)) = 35 /\ List.length arms_expand_tuple_arm = 35 /\
  firstn 8 (rules_of (generated_macro call__generate_tuple_expansion)) = firstn 8 arms_expand_tuple /\
  nth_error (rules_of (generated_macro call__generate_tuple_expansion)) 8 <> nth_error arms_expand_tuple 8 /\
  nth_error (rules_of (generated_macro call__generate_tuple_arm_expansion)) 0 <> nth_error arms_expand_tuple_arm 0 /\
  nth_error (rules_of (generated_macro call__generate_tuple_arm_expansion)) 1 = nth_error arms_expand_tuple_arm 1 /\
  nth_error (rules_of (generated_macro call__generate_tuple_arm_expansion)) 2 <> nth_error arms_expand_tuple_arm 2.
Proof.
  vm_compute. repeat match goal with |- _ /\ _ => split | |- _ = _ => reflexivity end.
  all: let H := fresh in intros H; discriminate H.
Qed.
Example C66_loose_example :
  loose_rule (Rule [] [TTok (TId "f"); TGrp Paren [TVar "a"; TTok TComma]]) = loose_rule (Rule [] [TTok (TId "f"); TGrp Paren [TVar "a"]]) /\
  loose_rule (Rule [] [TTok (TId "f"); TGrp Paren [TVar "a"]]) <> loose_rule (Rule [] [TTok (TId "f"); TGrp Paren [TVar "b"]]) /\
  loose_rule (Rule [] [TGrp Brace [TVar "a"; TTok TComma]]) <> loose_rule (Rule [] [TGrp Brace [TVar "a"]]).
Proof. vm_compute. repeat split; discriminate. Qed.

Print Assumptions C66_generated.
