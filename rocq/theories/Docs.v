(** The code examples in the documentation, which [cargo test] runs as tests of their own: those of
    [/repo/src/tagged_box.rs:25-466], [/repo/src/lib.rs:31-65] (also in [/repo/README.md:28-55]),
    [/repo/src/tagged_box_macro/mod.rs:600-724] and [/repo/src/manually_impl_enum.rs:5-14], call by call.
    The examples of [TaggedBox::new_unchecked] (lines 115-169) are those of [TaggedBox::new] again.
    Left out are examples without a call ([use] lines, hand-written code that only has to compile; what
    the guide's hand-written code does is in [Manual.v]). Assertions are evaluated at the end of an
    example, they have no effects. *)
From Coq Require Import NArith String Bool List.
From Verif Require Import Words Config Pointer Mem Box Bump Macro Session Containers Manual Names Tests.
Import ListNotations.
Local Open Scope N_scope.
Local Open Scope m_scope.

(** Strings and vectors of the standard library are three words that stand for a text or a list; a
    primed value is a second one of the same contents, made for a comparison. [papers] says which
    three words are a [Vec<Paper>].
    Of the examples in [/repo/src/tagged_box.rs:25-466] and [/repo/src/lib.rs:31-65]. *)
Record doc_data : Type := DocData {
  doc_text : leafval -> string;
  doc_items : leafval -> list N;
  foobar : leafval;                        (* String::from("Foobar is a timeless classic") *)
  greeting : leafval; greeting' : leafval; (* String::from("Hello from tagged-box!") *)
  numbers : leafval; numbers' : leafval;   (* vec![100_usize, 200, 300] *)
  empty : leafval;                         (* String::new() *)
  papers : leafval -> bool
}.

(** [/repo/src/tagged_box.rs:361-397]. *)
Definition ty_vec_usize : rty := Ty "Vec<usize>" 24 8 str_valid true false.
(** [/repo/src/tagged_box.rs:328-353]. *)
Definition ty_bytes10 : rty := Ty "[u8; 10]" 10 1 all_init false true.
(** [/repo/src/tagged_box.rs:62-79]. *)
Definition ty_papers (D : doc_data) : rty := Ty "Vec<Paper>" 24 8 (papers D) true false.
(** [/repo/src/tagged_box_macro/mod.rs:604-618]. *)
Definition ty_u16 : rty := Ty "u16" 2 2 all_init false true.
(** [/repo/src/tagged_box_macro/mod.rs:604-618]. *)
Definition ty_u128 : rty := Ty "u128" 16 16 all_init false true.

(** ** Examples of [TaggedBox] *)

(** A program, and what is asserted of what its calls gave. An example ends at the first panic.
    Of [/repo/src/tagged_box.rs:25-466]. *)
Record doc_test : Type := DocTest { dt_prog : prog; dt_asserts : list obs -> bool }.

(** A call; a panic ends the example. For the examples of [/repo/src/tagged_box.rs:25-466], [/repo/src/tagged_box_macro/mod.rs:600-724]. *)
Definition call (o : op) (rest : obs -> prog) : prog :=
  Do o (fun seen => match seen with SawPanic _ => Stop | _ => rest seen end).
(** Calls in a row. For the examples of [/repo/src/tagged_box.rs:25-466], [/repo/src/tagged_box_macro/mod.rs:600-724]. *)
Fixpoint calls (l : list op) : prog :=
  match l with [] => Stop | o :: r => call o (fun _ => calls r) end.

(** The example runs as a test. For the examples of [/repo/src/tagged_box.rs:25-466], [/repo/src/tagged_box_macro/mod.rs:600-724]. *)
Definition doc_passes (E : env) (t : doc_test) (s : st) : Prop :=
  exists seen c s', run E (dt_prog t) [] s = (seen, Finished c s') /\
    forallb not_panic seen = true /\ dt_asserts t seen = true.

(** [/repo/src/tagged_box.rs:25-38]; the box goes out of scope. *)
Definition doc_new (D : doc_data) : doc_test :=
  DocTest (calls [NewBox false (leaf_hty ty_string) [foobar D] 0; DropBox 0])
    (fun seen => match seen with [_; _] => true | _ => false end).

(** [/repo/src/tagged_box.rs:44-60]. *)
Definition doc_new_read (D : doc_data) : doc_test :=
  DocTest (calls [NewBox false (leaf_hty ty_string) [foobar D] 0; IntoInner 0; DropValue 0])
    (fun seen =>
       match seen with
       | [_; SawValue [message]; _] => String.eqb (doc_text D message) "Foobar is a timeless classic"
       | _ => false
       end).

(** [/repo/src/tagged_box.rs:64-79], [#[should_panic]]: the [String] is read as a [Vec<Paper>]. *)
Definition doc_misread (E : env) (D : doc_data) : M unit :=
  tagged_message <- tb_new E (leaf_hty ty_string) [foobar D] 0 ;;
  letter <- tb_into_inner E (leaf_hty (ty_papers D)) tagged_message ;;
  drop_hval (leaf_hty (ty_papers D)) letter ;;
  raise (PanicUser "Undefined Behavior!").

(** [/repo/src/tagged_box.rs:219-231]. *)
Definition doc_as_ref : doc_test :=
  DocTest (calls [NewBox false (leaf_hty ty_usize) [usize 100] 0; Read 0; DropBox 0])
    (fun seen => match seen with [_; SawValue v; _] => hval_eqb v [usize 100] | _ => false end).

(** [/repo/src/tagged_box.rs:248-264]. *)
Definition doc_as_mut_ref : doc_test :=
  DocTest (calls [NewBox false (leaf_hty ty_usize) [usize 100] 0; Read 0; Assign 0 [usize 300]; Read 0; DropBox 0])
    (fun seen =>
       match seen with
       | [_; SawValue v; _; SawValue v'; _] => hval_eqb v [usize 100] && hval_eqb v' [usize 300]
       | _ => false
       end).

(** [/repo/src/tagged_box.rs:279-293]. *)
Definition doc_into_inner : doc_test :=
  DocTest (calls [NewBox false (leaf_hty ty_usize) [usize 100] 0; IntoInner 0])
    (fun seen => match seen with [_; SawValue v] => hval_eqb v [usize 100] | _ => false end).

(** [/repo/src/tagged_box.rs:309-321], with tag 8. *)
Definition tens : leafval := repeat (Byte 10) 10.
(** [/repo/src/tagged_box.rs:309-321]. *)
Definition doc_into_raw (tag : N) : doc_test :=
  DocTest (calls [NewBox false (leaf_hty ty_bytes10) [tens] tag; IntoRaw 0; RawRead 0])
    (fun seen => match seen with [_; _; SawValue v] => hval_eqb v [tens] | _ => false end).

(** [/repo/src/tagged_box.rs:338-350], with tag 8; the [Box] goes out of scope. *)
Definition doc_into_box (tag : N) : doc_test :=
  DocTest (calls [NewBox false (leaf_hty ty_bytes10) [tens] tag; IntoBox 0; RustDrop 0])
    (fun seen => match seen with [_; _; _] => true | _ => false end).

(** [/repo/src/tagged_box.rs:376-395], with tag 10; the new box gets the tag read from the old one. *)
Definition doc_from_raw (D : doc_data) (tag : N) : doc_test :=
  DocTest
    (call (NewBox false (leaf_hty ty_vec_usize) [numbers D] tag) (fun _ =>
     call (Tag 0) (fun discriminant =>
       match discriminant with
       | SawTag d => calls [IntoRaw 0; RawRead 0; FromRaw 0 d; IntoInner 0; DropValue 0]
       | _ => Stop
       end)))
    (fun seen =>
       match seen with
       | [_; _; _; SawValue [v]; _; SawValue [v']; _] =>
           list_eqb N.eqb (doc_items D v) (doc_items D (numbers' D)) &&
           list_eqb N.eqb (doc_items D v') (doc_items D (numbers' D))
       | _ => false
       end).

(** [/repo/src/tagged_box.rs:409-416], with tag 11. *)
Definition doc_discriminant (tag : N) : doc_test :=
  DocTest (calls [NewBox false (leaf_hty ty_i32) [u32 0] tag; Tag 0; DropBox 0])
    (fun seen => match seen with [_; SawTag d; _] => d =? tag | _ => false end).

(** [/repo/src/tagged_box.rs:427-438]. *)
Definition doc_as_ptr : doc_test :=
  DocTest (calls [NewBox false (leaf_hty ty_usize) [usize 100] 0; ReadPtr 0; DropBox 0])
    (fun seen => match seen with [_; SawValue v; _] => hval_eqb v [usize 100] | _ => false end).

(** [/repo/src/tagged_box.rs:453-466]. *)
Definition doc_as_mut_ptr : doc_test :=
  DocTest (calls [NewBox false (leaf_hty ty_usize) [usize 100] 0; AssignPtr 0 [usize 100000]; IntoInner 0])
    (fun seen => match seen with [_; _; SawValue v] => hval_eqb v [usize 100000] | _ => false end).

(** The examples whose box has tag 0. [/repo/src/tagged_box.rs:25-466]. *)
Definition docs_untagged (D : doc_data) : list doc_test :=
  [doc_new D; doc_new_read D; doc_as_ref; doc_as_mut_ref; doc_into_inner; doc_as_ptr; doc_as_mut_ptr].
(** The examples that store a tag and do not look at it, or only give it back to the API.
    [/repo/src/tagged_box.rs:25-466]. *)
Definition docs_tagged (D : doc_data) : list doc_test := [doc_into_raw 8; doc_into_box 8; doc_from_raw D 10].

(** ** Examples of [tagged_box!] *)

(** [/repo/src/lib.rs:35-46]. *)
Definition readme_enum : edef := Edef "Container" "Item" 8 false false
  [("String", KTuple [ty_string]); ("Numbers", KTuple [ty_i32; ty_f32]); ("Nothing", KUnit);
   ("Struct", KStruct [("float", ty_f32); ("boolean", ty_bool)])]%string.

(** The derived [PartialEq] of [Item], here and below: texts by their contents, the rest by bytes.
    Derived, [/repo/src/lib.rs:35]. *)
Definition doc_eqb (D : doc_data) (a b : evalue) : bool :=
  match a, b with
  | EV "String" [x], EV "String" [y] => String.eqb (doc_text D x) (doc_text D y)
  | _, _ => value_eqb a b
  end.

(** [/repo/src/lib.rs:48-64]. *)
Definition doc_readme (D : doc_data) : macro_test :=
  let ten := f32 0x41200000 in
  MacroTest
    [KFromPayload "String" [greeting D]; KIntoInner 0; KDropVal 0;
     KFromPayload "(i32, f32)" [u32 10; ten]; KIntoInner 1; KDropVal 1]
    (fun seen => list_eqb (doc_eqb D) (values seen) [EV "String" [greeting' D]; EV "Numbers" [u32 10; ten]]).

(** [/repo/src/tagged_box_macro/mod.rs:687-695], [710-718]. *)
Definition docs_enum : edef := Edef "Container" "Item" 8 false false
  [("Integer", KTuple [ty_i32]); ("Boolean", KTuple [ty_bool]); ("String", KTuple [ty_string])]%string.

(** [/repo/src/tagged_box_macro/mod.rs:720-723]. *)
Definition doc_greeting (D : doc_data) : macro_test :=
  MacroTest [KFromPayload "String" [greeting D]; KIntoInner 0; KDropVal 0]
    (fun seen => list_eqb (doc_eqb D) (values seen) [EV "String" [greeting' D]]).

(** [/repo/src/tagged_box_macro/mod.rs:684-700], [compile_fail]: the first two lines, and the third. *)
Definition doc_works (D : doc_data) : macro_test :=
  MacroTest [KFromPayload "i32" [u32 10]; KFromPayload "String" [empty D]; KDrop 0; KDrop 1] (fun _ => true).
(** [/repo/src/tagged_box_macro/mod.rs:684-700], the third line. *)
Definition doc_does_not_work (v : leafval) : kop := KFromPayload "Vec<_>" [v].

(** [/repo/src/tagged_box_macro/mod.rs:604-618] and [/repo/src/manually_impl_enum.rs:8-13]: only have to
    compile. *)
Definition usage_enum : edef := Edef "Container" "Item" 16 false false
  [("Integer", KTuple [ty_i32]); ("Numbers", KTuple [ty_usize; ty_f32; ty_u8]);
   ("Unsigned", KStruct [("big", ty_u128); ("large", ty_u64); ("medium", ty_u32); ("small", ty_u16); ("tiny", ty_u8)])]%string.
(** [/repo/src/manually_impl_enum.rs:8-13]. *)
Definition guide_doc_enum : edef := Edef "Container" "Item" 4 false false
  [("Integer", KTuple [ty_i32]); ("Boolean", KTuple [ty_bool])]%string.

(** The definition of the enum is accepted: the macro matches, its tags have the right integer type, and
    all names mean what they should. Types are written as their names; [String] is imported.
    Auxiliary. For the examples of [/repo/src/tagged_box.rs:25-466], [/repo/src/tagged_box_macro/mod.rs:600-724]. *)
Definition spelled (t : rty) : wty := WType (ty_name t).
(** Auxiliary. For the examples of [/repo/src/tagged_box.rs:25-466], [/repo/src/tagged_box_macro/mod.rs:600-724]. *)
Definition imported (n : string) : bool := String.eqb n "String".
(** For the examples of [/repo/src/tagged_box_macro/mod.rs:600-724], [/repo/src/lib.rs:31-65]. *)
Definition doc_compiles (c : config) (def : edef) : Prop :=
  exists x, expand def = Some x /\ tags_typecheck c x = true /\
    names_accepted imported spelled (e_container def) (e_name def) x.

(** ** All examples *)

(** Started in state [s]; [I1], [I2] are the derived impls of the two enums that are used.
    [/repo/src/tagged_box.rs:25-466], [/repo/src/lib.rs:31-65], [/repo/src/tagged_box_macro/mod.rs:600-724], [/repo/src/manually_impl_enum.rs:5-14]. *)
Definition docs_hold (E : env) (D : doc_data) (I1 I2 : impls) (s : st) : Prop :=
  let c := cfg (tgt E) in
  Forall (fun t => doc_passes E t s) (docs_untagged D) /\
  Forall (fun t => doc_passes E t s) (docs_tagged D) /\
  doc_passes E (doc_discriminant 11) s /\
  should_panic (doc_misread E D) s /\
  Forall (doc_compiles c) [readme_enum; docs_enum; usage_enum; guide_doc_enum] /\
  (forall x, expand readme_enum = Some x -> macro_passes E x I1 (doc_readme D) s) /\
  (forall x, expand docs_enum = Some x ->
     macro_passes E x I2 (doc_greeting D) s /\ macro_passes E x I2 (doc_works D) s /\
     forall v c, kstep E x I2 (doc_does_not_work v) c = None).
