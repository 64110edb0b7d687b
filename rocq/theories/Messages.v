(** The texts of the crate's panics. *)
From Coq Require Import NArith String Ascii Bool List.
From Verif Require Import Words Config Pointer Fmt.
Import ListNotations.
Local Open Scope N_scope.
Local Open Scope string_scope.

(** [{}] of an integer. As in [/repo/src/tagged_pointer.rs:30-43]. *)
Definition show_dec (x : N) : string := fmt_dec default_opts x.

(** The payload of the panic as text; [enum] is [stringify!($enum)].
    [/repo/src/tagged_pointer.rs:30-43] (the string literal contains a line break and twelve spaces
    after "above."; the backslash removes the first line break and indentation),
    [/repo/src/tagged_box.rs:93] ([assert!] without a message shows the condition), [527-528]
    ([Option::expect]), [/repo/src/tagged_box_macro/mod.rs:258], [366-374], [504-512]. *)
Definition panic_message (enum : string) (p : panic) : string :=
  match p with
  | PanicDiscriminant d max =>
      "Attempted to store a discriminant of " ++ show_dec d ++ " while the max value is " ++ show_dec max
  | PanicPointer width suggested =>
      "If you are receiving this error, then your hardware uses more than " ++ show_dec width ++
      " bits of a pointer to store addresses. It is recommended that you use a different feature for the `tagged-box` crate using `features = [""" ++
      show_dec suggested ++ "bits""]` or above." ++ String newline "            "
  | PanicNullAlloc => "assertion failed: ptr as u64 != 0"
  | PanicCloneExpect => "The inner value could not be fetched"
  | PanicNoVariantInto => "Attempted to create an enum variant from a discriminant that doesn't exist!"
  | PanicNoVariantFrom total d =>
      "The number of variants in `" ++ enum ++ "` is " ++ show_dec total ++
      ", but a variant by the discriminant of " ++ show_dec d ++ " was attempted to be created"
  | PanicNoVariantRef total d =>
      "The number of variants in `" ++ enum ++ "` is " ++ show_dec total ++
      ", but a variant by the discriminant of " ++ show_dec d ++ " was attempted to be referenced"
  | PanicUser msg => msg
  end.
