(** The macros that generate macros: [/repo/src/tagged_box_macro/meta_macros.rs:4-66] and [324-430]. Their calls are commented out there
    ([69-79], [433-440]) and the result written below each. *)
From Coq Require Import Arith String Bool List.
From Verif Require Import Tokens Lexer MacroRules Source CrateMacros SpecText.
Import ListNotations.
Local Open Scope string_scope.
Local Open Scope list_scope.

(** [/repo/src/tagged_box_macro/meta_macros.rs:4-66]. *)
Definition arms_generate_tuple : list rule := Eval vm_compute in arms_in rs__generate_tuple_expansion.
(** [/repo/src/tagged_box_macro/meta_macros.rs:324-430]. *)
Definition arms_generate_tuple_arm : list rule := Eval vm_compute in arms_in rs__generate_tuple_arm_expansion.
(** Both, [/repo/src/tagged_box_macro/meta_macros.rs:4-430]. *)
Definition the_generators : list (string * list rule) :=
  [("generate_tuple_expansion", arms_generate_tuple); ("generate_tuple_arm_expansion", arms_generate_tuple_arm)].

(** The text of a call, as in [/repo/src/tagged_box_macro/meta_macros.rs:69-79]. *)
Definition call_in (s : string) : list tk :=
  match lex s with Some [TId m; TBang; TGroup d l] => [C false m d (map W l)] | _ => [] end.

(** Calls are expanded as long as there is nothing but a call: what is generated at last,
    [/repo/src/tagged_box_macro/meta_macros.rs:60-66], is a definition in which calls stay as they are. The generators match no types. *)
Fixpoint rewriting (n : nat) (l : list tk) : exp (list tk) :=
  match n, l with
  | O, _ => Limit
  | S n, [C _ m _ args] =>
      match find_macro m the_generators with
      | Some rs => and_then (apply_rules (fun _ => NoStart) rs args) (rewriting n)
      | None => Done l
      end
  | S _, _ => Done l
  end.

(** Back to tokens, to be read as a definition. [/repo/src/tagged_box_macro/meta_macros.rs:60-66]. *)
Fixpoint tree_of (t : tk) : option tree :=
  match t with
  | W t => Some t
  | G d l => option_map (TGroup d) (all_some (map tree_of l))
  | _ => None
  end.
(** [/repo/src/tagged_box_macro/meta_macros.rs:60-66]. *)
Definition trees (l : list tk) : option (list tree) := all_some (map tree_of (plain l)).

(** The definition generated: [#[doc(hidden)] #[macro_export] macro_rules! name { rules }],
    [/repo/src/tagged_box_macro/meta_macros.rs:60-66] and [424-430]; the recursion limit is rustc's, 128. *)
Definition generated_macro (call : string) : option (string * list rule) :=
  match rewriting 128 (call_in call) with
  | Done l =>
      match trees l with
      | Some [TOp "#"; TGroup Bracket [TId "doc"; TGroup Paren [TId "hidden"]]; TOp "#"; TGroup Bracket [TId "macro_export"];
              TId "macro_rules"; TBang; TId name; TGroup Brace rules] =>
          option_map (pair name) (read_rules rules)
      | _ => None
      end
  | _ => None
  end.
