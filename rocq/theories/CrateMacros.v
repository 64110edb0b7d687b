(** The macros of the crate as [macro_rules!] sees them: the text of [Source.v] read by [Lexer.v] and [MacroRules.v]. *)
From Coq Require Import String List.
From Verif Require Import Tokens Lexer MacroRules Source.
Import ListNotations.
Local Open Scope string_scope.

(** The arms of the macro in a text. For [/repo/src/tagged_box_macro/mod.rs:5-832]. *)
Definition arms_in (s : string) : list rule := match macro_of_text s with Some (_, rs) => rs | None => [] end.

(** [/repo/src/tagged_box_macro/mod.rs:5-31]. *)
Definition arms_make_enum : list rule := Eval vm_compute in arms_in rs__make_enum.
(** [/repo/src/tagged_box_macro/mod.rs:35-102]. *)
Definition arms_taggable_into_box : list rule := Eval vm_compute in arms_in rs__taggable_into_box.
(** [/repo/src/tagged_box_macro/mod.rs:106-156]. *)
Definition arms_derive_from : list rule := Eval vm_compute in arms_in rs__derive_from.
(** [/repo/src/tagged_box_macro/mod.rs:160-179]. *)
Definition arms_generate_const_sizes : list rule := Eval vm_compute in arms_in rs__generate_const_sizes.
(** [/repo/src/tagged_box_macro/mod.rs:183-265]. *)
Definition arms_boxed_into_inner : list rule := Eval vm_compute in arms_in rs__boxed_into_inner.
(** [/repo/src/tagged_box_macro/mod.rs:269-377]. *)
Definition arms_from_tagged_box : list rule := Eval vm_compute in arms_in rs__from_tagged_box.
(** [/repo/src/tagged_box_macro/mod.rs:381-515]. *)
Definition arms_ref_from_tagged : list rule := Eval vm_compute in arms_in rs__ref_from_tagged.
(** [/repo/src/tagged_box_macro/mod.rs:519-554]. *)
Definition arms_counter_enum : list rule := Eval vm_compute in arms_in rs__counter_enum.
(** [/repo/src/tagged_box_macro/mod.rs:558-581]. *)
Definition arms_count_variants : list rule := Eval vm_compute in arms_in rs__count_variants.
(** [/repo/src/tagged_box_macro/mod.rs:586-593]. *)
Definition arms_verify_variants : list rule := Eval vm_compute in arms_in rs__verify_variants.
(** [/repo/src/tagged_box_macro/mod.rs:732-832]. *)
Definition arms_tagged_box : list rule := Eval vm_compute in arms_in rs__tagged_box.
(** [/repo/src/tagged_box_macro/meta_macros.rs:84-319]. *)
Definition arms_expand_tuple : list rule := Eval vm_compute in arms_in rs__expand_tuple.
(** [/repo/src/tagged_box_macro/meta_macros.rs:445-915]. *)
Definition arms_expand_tuple_arm : list rule := Eval vm_compute in arms_in rs__expand_tuple_arm.

(** All macros there are to call, [/repo/src/tagged_box_macro/mod.rs:5-832] and [/repo/src/tagged_box_macro/meta_macros.rs:84-915]. *)
Definition the_macros : list (string * list rule) :=
  [("__make_enum", arms_make_enum); ("__taggable_into_box", arms_taggable_into_box); ("__derive_from", arms_derive_from);
   ("__generate_const_sizes", arms_generate_const_sizes); ("__boxed_into_inner", arms_boxed_into_inner);
   ("__from_tagged_box", arms_from_tagged_box); ("__ref_from_tagged", arms_ref_from_tagged);
   ("__counter_enum", arms_counter_enum); ("__count_variants", arms_count_variants);
   ("__verify_variants", arms_verify_variants); ("tagged_box", arms_tagged_box);
   ("__expand_tuple", arms_expand_tuple); ("__expand_tuple_arm", arms_expand_tuple_arm)].

(** They were read: every text is a macro of that name. *)
Example the_macros_read : map (fun s => macro_of_text s)
    [rs__make_enum; rs__taggable_into_box; rs__derive_from; rs__generate_const_sizes; rs__boxed_into_inner; rs__from_tagged_box;
     rs__ref_from_tagged; rs__counter_enum; rs__count_variants; rs__verify_variants; rs__tagged_box; rs__expand_tuple; rs__expand_tuple_arm]
  = map Some the_macros.
Proof. vm_compute. reflexivity. Qed.
