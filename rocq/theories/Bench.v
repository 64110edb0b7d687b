(** Loops that make a box and let it go out of scope, and the benchmarks of [/repo/benches/tagged_box.rs].
    Criterion's [b.iter(f)] calls [f] again and again and drops what it returns; how often, the harness
    decides. [black_box] is the identity. *)
From Coq Require Import NArith String Bool List.
From Verif Require Import Words Config Pointer Mem Box Bump Macro Tests.
Import ListNotations.
Local Open Scope N_scope.
Local Open Scope m_scope.

(** [b.iter(..)], [/repo/benches/tagged_box.rs:16-44]. *)
Fixpoint iterate (n : nat) (m : M unit) : M unit :=
  match n with O => ret tt | S k => m ;; iterate k m end.

(** [TaggedBox::new::<U>(val, d)], dropped ([/repo/benches/tagged_box.rs:38-40]). *)
Definition new_dropped (E : env) (U : hty) (val : hval) (d : N) : M unit :=
  w <- tb_new E U val d ;; tb_drop w.

(** [v.into_tagged_box()], dropped ([/repo/benches/tagged_box.rs:19-37]). *)
Definition into_dropped (E : env) (x : expansion) (v : evalue) : M unit :=
  w <- macro_into E x v ;; tb_drop w.

(** The same with [into_box]: the [Box] is dropped.
    Not among the benchmarks; for comparison. For [/repo/benches/tagged_box.rs:4-44]. *)
Definition boxed_dropped (E : env) (U : hty) (val : hval) (d : N) : M unit :=
  w <- tb_new E U val d ;; rbox_drop U (tb_into_box E w).

(** Rust's [Box::new(val)] (a failing allocation ends the program), dropped
    ([/repo/benches/tagged_box.rs:41-43]). *)
Definition box_dropped (E : env) (U : hty) (val : hval) : M unit :=
  if h_size U =? 0 then rbox_drop U (h_align U)
  else
    p <- alloc (alloc_fn E) (h_size U) (h_align U) ;;
    match p with
    | None => raise (PanicUser "memory allocation failed")
    | Some ptr => write_at U ptr val ;; rbox_drop U ptr
    end.

(** [[usize; 100]] and [[100usize; 100]]. [/repo/benches/tagged_box.rs:38-43]. *)
Definition ty_usizes : rty := Ty "[usize; 100]" 800 8 all_init false true.
(** [/repo/benches/tagged_box.rs:38-43]. *)
Definition hundreds_of_usize : leafval := List.concat (repeat (usize 100) 100).

(** The benchmarks, [/repo/benches/tagged_box.rs:16-44], with their names; the enum (lines 4-14) is
    the one of the tests. *)
Definition benchmarks (E : env) (x : expansion) : list (string * M unit) :=
  [("Unit into_tagged_box", into_dropped E x unit_item);
   ("Single element Tuple into_tagged_box", into_dropped E x (single usize_max));
   ("Multiple element Tuple into_tagged_box", into_dropped E x (many 100 200 fifty 300));
   ("Orphan Struct into_tagged_box", into_dropped E x (orphan 10 false));
   ("TaggedBox::new", new_dropped E (leaf_hty ty_usizes) [hundreds_of_usize] 0);
   ("Box::new", box_dropped E (leaf_hty ty_usizes) [hundreds_of_usize])]%string.
