(** Model of the type declarations: [TaggedPointer] ([/repo/src/tagged_pointer.rs:10-15]), [TaggedBox]
    ([/repo/src/tagged_box.rs:15-19]) and the generated container
    ([/repo/src/tagged_box_macro/mod.rs:739-743]), with Rust's rules for [repr(transparent)] and for auto
    traits ([Send], [Sync], [Unpin], ..: no impl in the crate, so a type has one if its fields do;
    [PhantomData<T>] has it if [T] does). *)
From Coq Require Import NArith String Bool List.
From Verif Require Import Mem Macro.
Import ListNotations.
Local Open Scope N_scope.

(** Type declarations. For [/repo/src/tagged_pointer.rs:10-15], [/repo/src/tagged_box.rs:15-19], [/repo/src/tagged_box_macro/mod.rs:739-743]. *)
Inductive decl : Type :=
| DU64
| DPhantom (t : decl)
| DStruct (fields : list decl)             (* all structs here are repr(transparent) *)
| DUser (size align : N) (parts : list rty).  (* a user's type: how it is laid out is the compiler's choice *)

(** [/repo/src/tagged_pointer.rs:10-15]. *)
Definition tagged_pointer_decl : decl := DStruct [DU64].

(** [/repo/src/tagged_box.rs:15-19]. *)
Definition tagged_box_decl (T : decl) : decl := DStruct [tagged_pointer_decl; DPhantom T].

(** The enum [__make_enum!] declares, [/repo/src/tagged_box_macro/mod.rs:25-30]. *)
Definition enum_decl (x : expansion) (size : N) : decl :=
  DUser size (x_align x) (flat_map (fun vk => kind_types (snd vk)) (x_enum x)).

(** [/repo/src/tagged_box_macro/mod.rs:739-743]. *)
Definition container_decl (x : expansion) (size : N) : decl := DStruct [tagged_box_decl (enum_decl x size)].

(** Size and alignment; [None]: rejected, [repr(transparent)] allows one field that is not a zero-sized
    type of alignment 1. [a64]: alignment of [u64] (8, or 4 on some 32-bit targets).
    [repr(transparent)], as in [/repo/src/tagged_pointer.rs:12], [/repo/src/tagged_box.rs:15], [/repo/src/tagged_box_macro/mod.rs:740]. *)
Fixpoint layout (a64 : N) (d : decl) : option (N * N) :=
  match d with
  | DU64 => Some (8, a64)
  | DPhantom _ => Some (0, 1)
  | DUser s a _ => Some (s, a)
  | DStruct fs =>
      (fix go (fs : list decl) (found : option (N * N)) : option (N * N) :=
         match fs with
         | [] => Some (match found with Some l => l | None => (0, 1) end)
         | f :: r =>
             match layout a64 f with
             | Some (s, a) =>
                 if (s =? 0) && (a =? 1) then go r found
                 else match found with Some _ => None | None => go r (Some (s, a)) end
             | None => None
             end
         end) fs None
  end.

(** Does the type have an auto trait that the types in [part_has] have.
    For [/repo/src/tagged_pointer.rs:10-15], [/repo/src/tagged_box.rs:15-19], [/repo/src/tagged_box_macro/mod.rs:739-743]. *)
Fixpoint auto (part_has : rty -> bool) (d : decl) : bool :=
  match d with
  | DU64 => true
  | DPhantom t => auto part_has t
  | DStruct fs => (fix all (fs : list decl) : bool := match fs with [] => true | f :: r => auto part_has f && all r end) fs
  | DUser _ _ parts => forallb part_has parts
  end.
