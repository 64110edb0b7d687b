(** Client programs that use several enums made with [tagged_box!], the manual API of [TaggedBox] and
    other code side by side, in one memory. The calls are those of [Containers.v] and [Session.v]
    ([/repo/src/tagged_box.rs:82-533], [/repo/src/tagged_box_macro/mod.rs:732-852]); here they
    are only interleaved. *)
From Coq Require Import NArith String Bool List.
From Verif Require Import Words Config Pointer Mem Box Macro Session Containers.
Import ListNotations.
Local Open Scope N_scope.

(** An enum: its definition, what [tagged_box!] makes of it, and the user's impls for it.
    [/repo/src/tagged_box_macro/mod.rs:732-832]. *)
Record inst : Type := Inst { in_def : edef; in_x : expansion; in_impls : impls }.

(** The variables of the program: those of each enum, and those of the manual API.
    Not code of the repository. For programs using [/repo/src/tagged_box_macro/mod.rs:739-831] and [/repo/src/tagged_box.rs:82-480]. *)
Record mvars : Type := MVars { mv_enums : list (list kcell); mv_boxes : list cell }.
(** At the start there are no variables. For programs using [/repo/src/tagged_box_macro/mod.rs:739-831] and [/repo/src/tagged_box.rs:82-480]. *)
Definition mv0 (L : list inst) : mvars := MVars (map (fun _ => []) L) [].

(** A program: a call on enum [i]; a call of the manual API; code of other crates, with its effect on
    memory.
    Not code of the repository. For programs using [/repo/src/tagged_box_macro/mod.rs:739-831] and [/repo/src/tagged_box.rs:82-480]. *)
Inductive mprog : Type :=
| MStop
| MEnum (i : nat) (o : kop) (k : kobs -> mprog)
| MBox (o : op) (k : obs -> mprog)
| MOther (f : st -> st) (p : mprog).

(** What the program sees of a call. For programs using [/repo/src/tagged_box_macro/mod.rs:739-831] and [/repo/src/tagged_box.rs:82-480]. *)
Inductive mseen : Type := MSawEnum (r : kobs) | MSawBox (r : obs).
(** How its run ends. For programs using [/repo/src/tagged_box_macro/mod.rs:739-831] and [/repo/src/tagged_box.rs:82-480]. *)
Inductive mending : Type := MFinished (c : mvars) (s : st) | MUndefined (u : ub) | MDoesNotCompile.

Section Run.
Variable E : env.
Variable L : list inst.

(** A call on enum [i], [/repo/src/tagged_box_macro/mod.rs:739-831]; also the enum's variables before. *)
Definition menum (i : nat) (o : kop) (c : mvars) : option (M (kobs * list kcell) * list kcell) :=
  match nth_error L i, nth_error (mv_enums c) i with
  | Some n, Some l => option_map (fun m => (m, l)) (kstep E (in_x n) (in_impls n) o l)
  | _, _ => None
  end.
(** The variables of enum [i] become [l]. For programs using [/repo/src/tagged_box_macro/mod.rs:739-831] and [/repo/src/tagged_box.rs:82-480]. *)
Definition set_enum (i : nat) (l : list kcell) (c : mvars) : mvars := MVars (put i l (mv_enums c)) (mv_boxes c).
(** The variables of the manual API become [l]. For programs using [/repo/src/tagged_box_macro/mod.rs:739-831] and [/repo/src/tagged_box.rs:82-480]. *)
Definition set_boxes (l : list cell) (c : mvars) : mvars := MVars (mv_enums c) l.

(** Everything the program sees, and how it ends. For programs using [/repo/src/tagged_box_macro/mod.rs:739-831] and [/repo/src/tagged_box.rs:82-480]. *)
Fixpoint mrun (p : mprog) (c : mvars) (s : st) : list mseen * mending :=
  match p with
  | MStop => ([], MFinished c s)
  | MEnum i o k =>
      match menum i o c with
      | None => ([], MDoesNotCompile)
      | Some (m, l) =>
          match m s with
          | Ok (r, l') s' => let (q, e) := mrun (k r) (set_enum i l' c) s' in (MSawEnum r :: q, e)
          | Panicked x s' =>
              let (q, e) := mrun (k (KSawPanic x)) (set_enum i (kafter_panic o l) c) s' in (MSawEnum (KSawPanic x) :: q, e)
          | UB u => ([], MUndefined u)
          end
      end
  | MBox o k =>
      match step E o (mv_boxes c) with
      | None => ([], MDoesNotCompile)
      | Some m =>
          match m s with
          | Ok (r, l') s' => let (q, e) := mrun (k r) (set_boxes l' c) s' in (MSawBox r :: q, e)
          | Panicked x s' =>
              let (q, e) := mrun (k (SawPanic x)) (set_boxes (after_panic o (mv_boxes c)) c) s' in (MSawBox (SawPanic x) :: q, e)
          | UB u => ([], MUndefined u)
          end
      end
  | MOther f p => mrun p c (f s)
  end.

End Run.
