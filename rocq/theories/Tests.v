(** The crate's own tests: [/repo/src/tagged_pointer.rs:169-287], [/repo/src/tagged_box.rs:593-827],
    [/repo/src/taggable.rs:54-231] (the same tests as [/repo/tests/tagged_box_macro.rs]) and
    [/repo/src/tagged_box_macro/mod.rs:834-852], call by call. A test passes if no call panics or is
    undefined and its assertions hold of what the calls gave; the assertions are evaluated at the end,
    they have no effects. Numbers are compared by their bytes, which is right for the floats used
    (neither zero nor NaN); texts and vectors by what they stand for. *)
From Coq Require Import NArith String Bool List.
From Verif Require Import Words Config Pointer Mem Box Bump Macro Session Containers Manual.
Import ListNotations.
Local Open Scope N_scope.
Local Open Scope m_scope.

(** ** Comparing values *)

(** Auxiliary. For the tests, [/repo/src/tagged_pointer.rs:169-287], [/repo/src/tagged_box.rs:593-827], [/repo/src/taggable.rs:54-231]. *)
Definition byte_eqb (a b : mbyte) : bool :=
  match a, b with Byte x, Byte y => x =? y | Undef, Undef => true | _, _ => false end.
(** Auxiliary. For the tests, [/repo/src/tagged_pointer.rs:169-287], [/repo/src/tagged_box.rs:593-827], [/repo/src/taggable.rs:54-231]. *)
Fixpoint list_eqb {A} (e : A -> A -> bool) (l m : list A) : bool :=
  match l, m with
  | [], [] => true
  | a :: l, b :: m => e a b && list_eqb e l m
  | _, _ => false
  end.
(** Auxiliary. For the tests, [/repo/src/tagged_pointer.rs:169-287], [/repo/src/tagged_box.rs:593-827], [/repo/src/taggable.rs:54-231]. *)
Definition leaf_eqb : leafval -> leafval -> bool := list_eqb byte_eqb.
(** [assert_eq!] by bytes. For the tests, [/repo/src/tagged_pointer.rs:169-287], [/repo/src/tagged_box.rs:593-827], [/repo/src/taggable.rs:54-231]. *)
Definition hval_eqb : hval -> hval -> bool := list_eqb leaf_eqb.
(** The derived [PartialEq] by bytes, [/repo/src/taggable.rs:60]. *)
Definition value_eqb (a b : evalue) : bool :=
  String.eqb (ev_variant a) (ev_variant b) && hval_eqb (ev_fields a) (ev_fields b).

(** The number that little endian bytes stand for. For the tests, [/repo/src/tagged_pointer.rs:169-287], [/repo/src/tagged_box.rs:593-827], [/repo/src/taggable.rs:54-231]. *)
Fixpoint number (v : leafval) : N :=
  match v with Byte x :: r => x + 256 * number r | _ => 0 end.

(** The types of the tests on a 64-bit target. [/repo/src/tagged_box.rs:611], [/repo/src/taggable.rs:62]. *)
Definition ty_usize : rty := Ty "usize" 8 8 all_init false true.
(** [/repo/src/tagged_box.rs:787]. *)
Definition ty_f32 : rty := Ty "f32" 4 4 all_init false true.
(** [/repo/src/tagged_box.rs:607]. *)
Definition ty_usizes : rty := Ty "[usize; 10]" 80 8 all_init false true.
(** [/repo/src/tagged_box.rs:792]. *)
Definition ty_bytes8 : rty := Ty "[u8; 8]" 8 1 all_init false true.
(** [/repo/src/tagged_pointer.rs:257-272]. *)
Definition ty_bytes12 : rty := Ty "[u8; 12]" 12 1 all_init false true.
(** [/repo/src/tagged_box.rs:600-642]. *)
Definition ty_vec_i32 : rty := Ty "Vec<i32>" 24 8 str_valid true false.
(** [/repo/src/tagged_box.rs:793]. *)
Definition ty_vec_u8 : rty := Ty "Vec<u8>" 24 8 str_valid true false.
(** [/repo/src/tagged_box.rs:778-782]. *)
Definition ty_custom_struct : rty := Ty "CustomStruct" 16 8 (fun _ => true) false true.
(** [/repo/src/tagged_box_macro/mod.rs:836-851]. *)
Definition ty_isize : rty := Ty "isize" 8 8 all_init false true.

(** Literals of the tests. For the tests, [/repo/src/tagged_pointer.rs:169-287], [/repo/src/tagged_box.rs:593-827], [/repo/src/taggable.rs:54-231]. *)
Definition usize (n : N) : leafval := le_bytes 8 n.
(** Literals of the tests. For the tests, [/repo/src/tagged_pointer.rs:169-287], [/repo/src/tagged_box.rs:593-827], [/repo/src/taggable.rs:54-231]. *)
Definition u32 (n : N) : leafval := le_bytes 4 n.
(** Literals of the tests, by their bits. For the tests, [/repo/src/tagged_pointer.rs:169-287], [/repo/src/tagged_box.rs:593-827], [/repo/src/taggable.rs:54-231]. *)
Definition f32 (bits : N) : leafval := le_bytes 4 bits.
(** Literals of the tests. For the tests, [/repo/src/tagged_pointer.rs:169-287], [/repo/src/tagged_box.rs:593-827], [/repo/src/taggable.rs:54-231]. *)
Definition boolean (b : bool) : leafval := [Byte (if b then 1 else 0)].

(** ** Tests of [TaggedPointer] *)

(** [assert!]. For the tests, [/repo/src/tagged_pointer.rs:169-287], [/repo/src/tagged_box.rs:593-827], [/repo/src/taggable.rs:54-231]. *)
Definition check (b : bool) : M unit := if b then ret tt else raise (PanicUser "assertion failed").

(** [#[test]]. For the tests, [/repo/src/tagged_pointer.rs:169-287], [/repo/src/tagged_box.rs:593-827], [/repo/src/taggable.rs:54-231]. *)
Definition passes (m : M unit) (s : st) : Prop := exists s', m s = Ok tt s'.
(** [#[should_panic]]. As [/repo/src/tagged_pointer.rs:274]. *)
Definition should_panic (m : M unit) (s : st) : Prop := exists p s', m s = Panicked p s'.

Section PointerTests.
Variable t : target.
Let max := max_discriminant (cfg t).

(** [/repo/src/tagged_pointer.rs:176-185]. *)
Definition utility_functions : M unit :=
  let ptr := 0xF00DBEEF in
  let discrim := max / 2 in
  p <- of_outcome (tp_new t ptr discrim) ;;
  let stored := tp_as_raw_u64 p in
  check (strip_discriminant t stored =? ptr) ;;
  check (fetch_discriminant t stored =? discrim) ;;
  check (store_discriminant t ptr discrim =? stored).

(** The common part of [/repo/src/tagged_pointer.rs:187-261]: a tagged pointer gives back what went in. *)
Definition gives_back (p d : N) : M tagged_ptr :=
  ptr <- of_outcome (tp_new t p d) ;;
  check (tp_discriminant t ptr =? d) ;;
  check (tp_as_u64 t ptr =? p) ;;
  ret ptr.

(** The same of a variable of type [ty] at address [p] (its place on the stack counts as a block),
    which is also read through the pointer. [/repo/src/tagged_pointer.rs:187-255]. *)
Definition points_to (ty : rty) (p d : N) (value : leafval) : M unit :=
  ptr <- gives_back p d ;;
  r <- read_at (leaf_hty ty) (tp_ref_addr t ptr) ;;
  check (hval_eqb r [value]).

(** [/repo/src/tagged_pointer.rs:187-201]. *)
Definition tagged_pointer (int_ptr : N) : M unit := points_to ty_i32 int_ptr 10 (le_bytes 4 100).

(** [/repo/src/tagged_pointer.rs:203-223]. *)
Definition max_pointer : M unit := gives_back (max_pointer_value (cfg t)) max ;; ret tt.
(** [/repo/src/tagged_pointer.rs:203-223]. *)
Definition min_pointer : M unit := gives_back 0 max ;; ret tt.

(** [/repo/src/tagged_pointer.rs:225-255]. *)
Definition max_discriminant_test (int_ptr : N) : M unit := points_to ty_usize int_ptr max (usize 100).
(** [/repo/src/tagged_pointer.rs:225-255]. *)
Definition min_discriminant_test (int_ptr : N) : M unit := points_to ty_usize int_ptr 0 (usize 100).

(** [/repo/src/tagged_pointer.rs:257-272]: the slice of 12 bytes is read through [as_ptr]. *)
Definition string_pointer (str_ptr : N) (contents : leafval) : M unit :=
  ptr <- gives_back str_ptr max ;;
  r <- read_at (leaf_hty ty_bytes12) (tp_as_ptr t ptr) ;;
  check (hval_eqb r [contents]).

(** [/repo/src/tagged_pointer.rs:274-286], [#[should_panic]]. *)
Definition oversized_discriminant : M unit :=
  if max + 1 <? 2 ^ disc_ty_bits (cfg t) then of_outcome (tp_new t 0xF00DBEEF (max + 1)) ;; ret tt
  else raise (PanicUser "Adding one to discriminant would overflow type, aborting test").

End PointerTests.

(** ** Tests of [TaggedBox] *)

(** Calls, and what is asserted of what they gave. Of [/repo/src/tagged_box.rs:600-657]. *)
Record box_test : Type := BoxTest { bt_calls : list op; bt_asserts : list obs -> bool }.

(** A test ends at the first panic. Of [/repo/src/tagged_box.rs:600-657]. *)
Fixpoint straight (l : list op) : prog :=
  match l with
  | [] => Stop
  | o :: r => Do o (fun seen => match seen with SawPanic _ => Stop | _ => straight r end)
  end.

(** Auxiliary. For the tests, [/repo/src/tagged_pointer.rs:169-287], [/repo/src/tagged_box.rs:593-827], [/repo/src/taggable.rs:54-231]. *)
Definition not_panic (o : obs) : bool := match o with SawPanic _ => false | _ => true end.

(** [#[test]]. For the tests, [/repo/src/tagged_pointer.rs:169-287], [/repo/src/tagged_box.rs:593-827], [/repo/src/taggable.rs:54-231]. *)
Definition box_passes (E : env) (t : box_test) (s : st) : Prop :=
  exists seen c s', run E (straight (bt_calls t)) [] s = (seen, Finished c s') /\
    List.length seen = List.length (bt_calls t) /\ forallb not_panic seen = true /\ bt_asserts t seen = true.

(** What the tests know of the standard library's strings and vectors: three words stand for a text
    or a list. A primed value is a second one of the same
    contents, made for the comparison. [/repo/src/tagged_box.rs:600-825]. *)
Record std_data : Type := StdData {
  text : leafval -> string;
  items : leafval -> list N;
  hello_world : leafval; hello_world' : leafval;   (* String::from("Hello world!") *)
  six : leafval; six' : leafval;                   (* vec![1, 2, 3, 4, 5, 6] *)
  hundreds : leafval; hundreds' : leafval;         (* vec![100; 10] *)
  hello : leafval;                                 (* String::from("Hello") *)
  push_world : leafval -> leafval                  (* push_str(", World!") *)
}.

(** [/repo/src/tagged_box.rs:600-642]. [Custom] has the layout the compiler gives to a tuple of its
    fields. The values moved out are dropped after their comparison. *)
Definition test_new (E : env) (D : std_data) : box_test :=
  let max := max_discriminant (cfg (tgt E)) in
  let custom := [u32 10000; boolean false; List.concat (repeat (usize 0xFFFFFFFF) 10)] in
  BoxTest
    [NewBox false (leaf_hty ty_usize) [usize 0xF00DBEEF] (max / 2);
     NewBox false (tuple_layout E [ty_u32; ty_bool; ty_usizes]) custom (max / 4);
     NewBox false (leaf_hty ty_string) [hello_world D] 0;
     NewBox false (leaf_hty ty_vec_i32) [six D] 10;
     IntoInner 0; IntoInner 1; IntoInner 2; DropValue 2; IntoInner 3; DropValue 3]
    (fun seen =>
       match seen with
       | [_; _; _; _; SawValue a; SawValue b; SawValue [c]; _; SawValue [d]; _] =>
           hval_eqb [usize 0xF00DBEEF] a && hval_eqb custom b &&
           String.eqb (text D (hello_world' D)) (text D c) && list_eqb N.eqb (items D (six' D)) (items D d)
       | _ => false
       end).

(** [/repo/src/tagged_box.rs:644-657]; values without size are equal. *)
Definition test_new_zst (E : env) : box_test :=
  let zst := Ty "Zst" 0 1 (fun _ => true) false false in
  BoxTest
    [NewBox false (leaf_hty ty_unit) [[]] 0; NewBox false (leaf_hty zst) [[]] (max_discriminant (cfg (tgt E)));
     IntoInner 0; IntoInner 1]
    (fun seen =>
       match seen with
       | [_; _; SawValue a; SawValue b] => hval_eqb [[]] a && hval_eqb [[]] b
       | _ => false
       end).

(** ** Test [tagged_box] *)

(** [/repo/src/tagged_box.rs:718-722]. *)
Inductive test_value : Type := VI32 (v : leafval) | VBool (v : leafval).

(** Derived, [/repo/src/tagged_box.rs:718]. *)
Definition test_value_eqb (a b : test_value) : bool :=
  match a, b with
  | VI32 a, VI32 b | VBool a, VBool b => leaf_eqb a b
  | _, _ => false
  end.

Section TaggedBoxTest.
Variable E : env.

(** [/repo/src/tagged_box.rs:725-730]. *)
Definition tv_into (v : test_value) : M tagged_ptr :=
  match v with
  | VI32 int => tb_new E (leaf_hty ty_i32) [int] 0
  | VBool boolean => tb_new E (leaf_hty ty_bool) [boolean] 1
  end.

(** [/repo/src/tagged_box.rs:732-740], and [Container::into_inner], lines 707-715. *)
Definition tv_from (w : tagged_ptr) : M test_value :=
  match tb_discriminant E w with
  | 0 => v <- tb_into_inner E (leaf_hty ty_i32) w ;; ret (VI32 (only v))
  | 1 => v <- tb_into_inner E (leaf_hty ty_bool) w ;; ret (VBool (only v))
  | _ => unreachable
  end.

(** [/repo/src/tagged_box.rs:742-753]. *)
Definition tv_ref (S : Type) (w : tagged_ptr) (callback : test_value -> S -> M S) (captured : S) : M S :=
  value <- match tb_discriminant E w with
           | 0 => v <- read_at (leaf_hty ty_i32) (tb_as_ptr E w) ;; ret (VI32 (only v))
           | 1 => v <- read_at (leaf_hty ty_bool) (tb_as_ptr E w) ;; ret (VBool (only v))
           | _ => unreachable
           end ;;
  callback value captured.

(** [/repo/src/tagged_box.rs:724-754]. *)
Definition tv_taggable : taggable test_value := Taggable test_value tv_into tv_from tv_ref.

(** [/repo/src/tagged_box.rs:756-773]; [Clone] is derived, of the container and (as [Copy]) of the value. *)
Definition test_tagged_box : M unit :=
  int_container <- tb_new E (leaf_hty ty_i32) [le_bytes 4 110] 0 ;;
  bool_container <- tb_new E (leaf_hty ty_bool) [boolean true] 1 ;;
  check (tb_discriminant E int_container =? 0) ;;
  check (tb_discriminant E bool_container =? 1) ;;
  i <- tb_as_ref E (leaf_hty ty_i32) int_container ;;
  check (hval_eqb i [le_bytes 4 110]) ;;
  b <- tb_as_ref E (leaf_hty ty_bool) bool_container ;;
  check (hval_eqb b [boolean true]) ;;
  int_clone <- tb_clone tv_taggable ret int_container ;;
  v <- tv_from int_clone ;;
  check (test_value_eqb v (VI32 (le_bytes 4 110))) ;;
  bool_clone <- tb_clone tv_taggable ret bool_container ;;
  v <- tv_from bool_clone ;;
  check (test_value_eqb v (VBool (boolean true))) ;;
  v <- tv_from int_container ;;
  check (test_value_eqb v (VI32 (le_bytes 4 110))) ;;
  v <- tv_from bool_container ;;
  check (test_value_eqb v (VBool (boolean true))).

End TaggedBoxTest.

(** ** Tests of [tagged_box!] *)

(** Calls, and what is asserted of what they gave. For the tests, [/repo/src/tagged_pointer.rs:169-287], [/repo/src/tagged_box.rs:593-827], [/repo/src/taggable.rs:54-231]. *)
Record macro_test : Type := MacroTest { mt_calls : list kop; mt_asserts : list kobs -> bool }.

(** A test ends at the first panic. For the tests, [/repo/src/tagged_pointer.rs:169-287], [/repo/src/tagged_box.rs:593-827], [/repo/src/taggable.rs:54-231]. *)
Fixpoint kstraight (l : list kop) : kprog :=
  match l with
  | [] => KStop
  | o :: r => KDo o (fun seen => match seen with KSawPanic _ => KStop | _ => kstraight r end)
  end.

(** Auxiliary. For the tests, [/repo/src/tagged_pointer.rs:169-287], [/repo/src/tagged_box.rs:593-827], [/repo/src/taggable.rs:54-231]. *)
Definition knot_panic (o : kobs) : bool := match o with KSawPanic _ => false | _ => true end.

(** [#[test]]. For the tests, [/repo/src/tagged_pointer.rs:169-287], [/repo/src/tagged_box.rs:593-827], [/repo/src/taggable.rs:54-231]. *)
Definition macro_passes (E : env) (x : expansion) (I : impls) (t : macro_test) (s : st) : Prop :=
  exists seen c s', krun E x I (kstraight (mt_calls t)) [] s = (seen, KFinished c s') /\
    List.length seen = List.length (mt_calls t) /\ forallb knot_panic seen = true /\ mt_asserts t seen = true.

(** The values seen, in order.
    Auxiliary. For the tests, [/repo/src/tagged_pointer.rs:169-287], [/repo/src/tagged_box.rs:593-827], [/repo/src/taggable.rs:54-231]. *)
Definition values (seen : list kobs) : list evalue :=
  flat_map (fun o => match o with KSawValues l => l | _ => [] end) seen.

(** [/repo/src/tagged_box.rs:661-667]. *)
Definition clone_enum : edef := Edef "Container" "Enum" 8 false false
  [("Usize", KTuple [ty_usize]); ("Str", KTuple [ty_string])]%string.

(** The derived [PartialEq] of [Enum]. [/repo/src/tagged_box.rs:662]. *)
Definition enum_eqb (D : std_data) (a b : evalue) : bool :=
  match a, b with
  | EV "Usize" [x], EV "Usize" [y] => leaf_eqb x y
  | EV "Str" [x], EV "Str" [y] => String.eqb (text D x) (text D y)
  | _, _ => false
  end.

(** [*= 100] on a [usize]. [/repo/src/tagged_box.rs:671-690]. *)
Definition times100 (v : leafval) : leafval := usize (number v * 100).

(** [/repo/src/tagged_box.rs:659-695]. The variables are 0: [original_usize], 1: [cloned_usize],
    2: [original_string], 3: [cloned_string]; they end in this order: 2, 3, 0, 1. The values that the
    assertions compare to are written as in the test. *)
Definition test_clone (D : std_data) : macro_test :=
  MacroTest
    [KFromPayload "usize" [usize 100];
     KClone 0; KIntoInner 1; KFrom 1; KModify 1 "Usize" times100; KFromTagged 1; KIntoInner 0;
     KFromPayload "String" [hello D];
     KClone 2; KIntoInner 3; KFrom 3; KModify 3 "Str" (push_world D); KFromTagged 3; KIntoInner 2;
     KDropVal 2; KDropVal 3; KDropVal 0; KDropVal 1]
    (fun seen =>
       match values seen with
       | [_; cloned_usize; original_usize; _; cloned_string; original_string] =>
           negb (enum_eqb D original_usize cloned_usize) &&
           enum_eqb D (EV "Usize" [usize (100 * 100)]) cloned_usize &&
           enum_eqb D (EV "Usize" [usize 100]) original_usize &&
           negb (enum_eqb D original_string cloned_string) &&
           match cloned_string with EV "Str" [c] => String.eqb "Hello, World!" (text D c) | _ => false end &&
           match original_string with EV "Str" [c] => String.eqb "Hello" (text D c) | _ => false end &&
           negb (enum_eqb D cloned_string cloned_usize)
       | _ => false
       end).

(** [/repo/src/tagged_box.rs:784-804]. *)
Definition storage_enum : edef := Edef "Outer" "Inner" 8 false false
  [("Float", KTuple [ty_f32]); ("Int", KTuple [ty_i32]); ("Byte", KTuple [ty_u8]); ("Unit", KUnit);
   ("Bool", KTuple [ty_bool]); ("Array", KTuple [ty_bytes8]); ("Vector", KTuple [ty_vec_u8]);
   ("CustomStruct", KTuple [ty_custom_struct]);
   ("OrphanStructTrailingComma", KStruct [("int", ty_i32); ("trailing_comma", ty_f32)]);
   ("OrphanStructNoTrailingComma", KStruct [("int", ty_i32); ("no_trailing_comma", ty_f32)])]%string.

(** [CustomStruct { int: 100_000, boolean: false }], with its padding. [/repo/src/tagged_box.rs:806-825]. *)
Definition custom_struct : leafval := usize 100000 ++ boolean false ++ repeat Undef 7.

(** The derived [PartialEq] of [Inner]. [CustomStruct] is compared without its padding.
    [/repo/src/tagged_box.rs:785]. *)
Definition inner_eqb (D : std_data) (a b : evalue) : bool :=
  match a, b with
  | EV "Vector" [x], EV "Vector" [y] => list_eqb N.eqb (items D x) (items D y)
  | EV "CustomStruct" [x], EV "CustomStruct" [y] => leaf_eqb (firstn 9 x) (firstn 9 y)
  | _, _ => value_eqb a b
  end.

(** [/repo/src/tagged_box.rs:806-825]: each value goes in by its [From] and comes out by [into_inner];
    the temporaries end with their statement. *)
Definition test_storage (D : std_data) : macro_test :=
  let hundred8 := List.concat (repeat [Byte 100] 8) in
  let stored := [("f32", "Float", f32 0x41200000); ("i32", "Int", u32 100); ("u8", "Byte", [Byte 10]);
                 ("bool", "Bool", boolean true); ("[u8; 8]", "Array", hundred8);
                 ("Vec<u8>", "Vector", hundreds D); ("CustomStruct", "CustomStruct", custom_struct)]%string in
  let expected := [("Float", f32 0x41200000); ("Int", u32 100); ("Byte", [Byte 10]); ("Bool", boolean true);
                   ("Array", hundred8); ("Vector", hundreds' D); ("CustomStruct", custom_struct)]%string in
  MacroTest
    (List.concat (map (fun i => match nth_error stored i with
                                | Some (src, _, v) => [KFromPayload src [v]; KIntoInner i; KDropVal i]
                                | None => []
                                end) (seq 0 7)))
    (fun seen => list_eqb (inner_eqb D) (values seen) (map (fun y => EV (fst y) [snd y]) expected)).

(** [/repo/src/taggable.rs:59-70], [/repo/tests/tagged_box_macro.rs:3-14]. *)
Definition tests_item : edef := Edef "Container" "Item" 8 false true
  [("SingleTuple", KTuple [ty_usize]); ("ManyTuple", KTuple [ty_usize; ty_usize; ty_f32; ty_usize]);
   ("Unit", KUnit); ("Orphan", KStruct [("int", ty_u32); ("boolean", ty_bool)])]%string.

(** [usize::max_value()]. For the tests, [/repo/src/tagged_pointer.rs:169-287], [/repo/src/tagged_box.rs:593-827], [/repo/src/taggable.rs:54-231]. *)
Definition usize_max : leafval := usize 0xFFFFFFFFFFFFFFFF.
(** [Item::SingleTuple(v)]. For the tests, [/repo/src/tagged_pointer.rs:169-287], [/repo/src/tagged_box.rs:593-827], [/repo/src/taggable.rs:54-231]. *)
Definition single (v : leafval) : evalue := EV "SingleTuple" [v].
(** [Item::ManyTuple(a, b, f, c)]. For the tests, [/repo/src/tagged_pointer.rs:169-287], [/repo/src/tagged_box.rs:593-827], [/repo/src/taggable.rs:54-231]. *)
Definition many (a b : N) (f : leafval) (c : N) : evalue := EV "ManyTuple" [usize a; usize b; f; usize c].
(** [Item::Unit]. For the tests, [/repo/src/tagged_pointer.rs:169-287], [/repo/src/tagged_box.rs:593-827], [/repo/src/taggable.rs:54-231]. *)
Definition unit_item : evalue := EV "Unit" [].
(** [Item::Orphan { int, boolean }]. For the tests, [/repo/src/tagged_pointer.rs:169-287], [/repo/src/tagged_box.rs:593-827], [/repo/src/taggable.rs:54-231]. *)
Definition orphan (int : N) (b : bool) : evalue := EV "Orphan" [u32 int; boolean b].
(** [/repo/src/taggable.rs:72-124]. *)
Definition fifty : leafval := f32 0x42486668.          (* 50.100005 *)
(** [/repo/src/taggable.rs:126-213]. *)
Definition five_hundred : leafval := f32 0x43FA0CCD.   (* 500.100005 *)

(** [/repo/src/taggable.rs:72-82]. *)
Definition container_into_inner : macro_test :=
  MacroTest
    [KFromPayload "usize" [usize_max]; KIntoInner 0;
     KFromPayload "(usize, usize, f32, usize)" [usize 100; usize 200; fifty; usize 300]; KIntoInner 1]
    (fun seen => list_eqb value_eqb (values seen) [single usize_max; many 100 200 fifty 300]).

(** Each value goes into variable [i], a box is made of it, and [use] of the box.
    As in [/repo/src/taggable.rs:84-213]. *)
Definition each (vs : list evalue) (use : nat -> kop) : list kop :=
  List.concat (map (fun iv => [KNew (snd iv); KFrom (fst iv); use (fst iv)]) (combine (seq 0 (List.length vs)) vs)).

(** [/repo/src/taggable.rs:84-124]. *)
Definition inner_into_tagged_box : macro_test :=
  let vs := [single usize_max; many 100 200 fifty 300; unit_item; orphan 10 false] in
  MacroTest (each vs KIntoInner) (fun seen => list_eqb value_eqb vs (values seen)).

(** [/repo/src/taggable.rs:126-158]. *)
Definition inner_from_tagged_box : macro_test :=
  let vs := [single usize_max; many 12200 23300 five_hundred 34400; unit_item; orphan 10000 true] in
  MacroTest (each vs KFromTagged) (fun seen => list_eqb value_eqb vs (values seen)).

(** [/repo/src/taggable.rs:160-213]: each value is equal to itself and different from the others. *)
Definition inner_ref_from_tagged_box : macro_test :=
  let vs := [single usize_max; many 1200 233 five_hundred 34; unit_item; orphan 0 false] in
  MacroTest (each vs KView)
    (fun seen =>
       match values seen with
       | [a; b; c; d] =>
           forallb (fun ij : nat * evalue =>
             forallb (fun kl : nat * evalue => Bool.eqb (value_eqb (snd ij) (snd kl)) (Nat.eqb (fst ij) (fst kl)))
               (combine (seq 0 4) vs)) (combine (seq 0 4) [a; b; c; d])
       | _ => false
       end).

(** The derived [PartialOrd] on two [SingleTuple]s. [/repo/src/taggable.rs:60]. *)
Definition single_gt (a b : evalue) : bool :=
  match a, b with EV "SingleTuple" [x], EV "SingleTuple" [y] => number y <? number x | _, _ => false end.

(** [/repo/src/taggable.rs:215-230]; the two views are nested in the test, here they follow each other. *)
Definition wrapped_refs_from_tagged_box : macro_test :=
  let big := single (usize 10000) in
  let small := single (usize 100) in
  MacroTest
    [KNew big; KFrom 0; KNew small; KFrom 1; KView 0; KView 1; KFromTagged 0; KFromTagged 1]
    (fun seen =>
       match values seen with
       | [b; s; b'; s'] =>
           negb (value_eqb b s) && single_gt b s && single_gt b s && value_eqb b' big && value_eqb s' small
       | _ => false
       end).

(** [/repo/src/tagged_box_macro/mod.rs:836-851]: only has to compile. *)
Definition variants_compile : edef := Edef "Container" "Item" 8 false false
  [("Unit", KUnit); ("Something", KTuple [ty_i32]); ("EmptyTuple", KTuple []);
   ("ManyThings", KTuple [ty_usize; ty_bool; ty_isize]);
   ("OrphanStruct", KStruct [("thing", ty_usize); ("other_thing", ty_bool)])]%string.

(** ** The suite *)

(** All enums of the tests compile.
    [/repo/src/tagged_box.rs:593-827], [/repo/src/taggable.rs:54-231], [/repo/src/tagged_box_macro/mod.rs:834-852]. *)
Definition suite_compiles (c : config) : Prop :=
  Forall (fun def => exists x, expand def = Some x /\ tags_typecheck c x = true)
    [clone_enum; storage_enum; tests_item; variants_compile].

(** The variables of the pointer tests: their addresses, and the bytes of the text.
    [/repo/src/tagged_pointer.rs:187-272]. *)
Record slots : Type := Slots { int_at : N; usize_at : N; text_at : N; text_bytes : leafval }.

(** All tests pass, started in state [s]; [I1] .. [I3] are the derived impls of the three enums.
    [/repo/src/tagged_pointer.rs:169-287], [/repo/src/tagged_box.rs:593-827], [/repo/src/taggable.rs:54-231]. *)
Definition suite_passes (E : env) (D : std_data) (P : slots) (I1 I2 I3 : impls) (s : st) : Prop :=
  let t := tgt E in
  Forall (fun m => passes m s)
    [utility_functions t; tagged_pointer t (int_at P); max_pointer t; min_pointer t;
     max_discriminant_test t (usize_at P); min_discriminant_test t (usize_at P);
     string_pointer t (text_at P) (text_bytes P); test_tagged_box E] /\
  should_panic (oversized_discriminant t) s /\
  Forall (fun b => box_passes E b s) [test_new E D; test_new_zst E] /\
  (forall x, expand clone_enum = Some x -> macro_passes E x I1 (test_clone D) s) /\
  (forall x, expand storage_enum = Some x -> macro_passes E x I2 (test_storage D) s) /\
  (forall x, expand tests_item = Some x ->
     Forall (fun m => macro_passes E x I3 m s)
       [container_into_inner; inner_into_tagged_box; inner_from_tagged_box; inner_ref_from_tagged_box;
        wrapped_refs_from_tagged_box]).

(** The settings of the tasks [test-all] and [miri-all], [/repo/Makefile.toml:11-16, 65-70]. *)
Definition makefile_settings : list string :=
  ["48bits"; "49bits"; "50bits"; "51bits"; "52bits"; "53bits"; "54bits"; "55bits"; "56bits"; "57bits"]%string.
