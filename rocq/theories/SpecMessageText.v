(** What formatted numbers and the crate's panic messages look like: the specification of their texts, character by character.
    Nothing here uses the printer. *)
From Coq Require Import Arith NArith List String Ascii Bool.
From Verif Require Import Config Pointer Fmt SpecFmt.
Import ListNotations.
Local Open Scope N_scope.

(** The numeral of [x]: made of the notation's digits, read as [x], no superfluous zeros. *)
Definition plain_numeral (n : notation) (x : N) (s : string) : Prop :=
  (forall c, occurs c s = true -> occurs c (n_digits n) = true) /\
  read_numeral (n_base n) s = Some x /\
  (forall r, s = String "0" r -> r = EmptyString).

Fixpoint times (k : nat) (c : ascii) : string := match k with O => EmptyString | S k => String c (times k c) end.

(** The documentation of [std::fmt]: sign and prefix are part of the number; zeros go after them; other padding goes around it, to the left
    unless asked otherwise, and the odd one to the right when centred; there is no padding if the number is wide enough. *)
Definition laid_out (n : notation) (o : fmt_opts) (x : N) (s : string) : Prop :=
  exists num before zeros after, plain_numeral n x num /\
    let number := ((if f_sign_plus o then "+" else "") ++ (if f_alternate o then n_prefix n else "") ++ times zeros "0" ++ num)%string in
    s = (times before (f_fill o) ++ number ++ times after (f_fill o))%string /\
    String.length s = Nat.max (match f_width o with Some w => w | None => 0%nat end) (String.length number - zeros) /\
    (if f_zero_pad o then before = 0%nat /\ after = 0%nat
     else zeros = 0%nat /\
          match f_align o with
          | Some ALeft => before = 0%nat
          | Some ACenter => (before <= after <= S before)%nat
          | Some ARight | None => after = 0%nat
          end).

(** Format strings: [{}] stands for the next argument. *)
Inductive fills : string -> list (string -> Prop) -> string -> Prop :=
| fills_end : fills EmptyString [] EmptyString
| fills_char c f args s : c <> "{"%char -> fills f args s -> fills (String c f) args (String c s)
| fills_arg (P : string -> Prop) f args t s : P t -> fills f args s -> fills (String "{" (String "}" f)) (P :: args) (t ++ s).

(** [/repo/src/tagged_pointer.rs:31-43], [/repo/src/tagged_box.rs:93], [527-528], [/repo/src/tagged_box_macro/mod.rs:258], [366-374], [504-512]. *)
Definition format_string (p : panic) : option string :=
  match p with
  | PanicDiscriminant _ _ => Some "Attempted to store a discriminant of {} while the max value is {}"%string
  | PanicPointer _ _ => Some
"If you are receiving this error, then your hardware uses more than {} bits of a pointer to store addresses. It is recommended that you use a different feature for the `tagged-box` crate using `features = [""{}bits""]` or above.
            "%string
  | PanicNullAlloc => Some "assertion failed: ptr as u64 != 0"%string
  | PanicCloneExpect => Some "The inner value could not be fetched"%string
  | PanicNoVariantInto => Some "Attempted to create an enum variant from a discriminant that doesn't exist!"%string
  | PanicNoVariantFrom _ _ => Some "The number of variants in `{}` is {}, but a variant by the discriminant of {} was attempted to be created"%string
  | PanicNoVariantRef _ _ => Some "The number of variants in `{}` is {}, but a variant by the discriminant of {} was attempted to be referenced"%string
  | PanicUser _ => None
  end.
Definition arguments (enum : string) (p : panic) : list (string -> Prop) :=
  match p with
  | PanicDiscriminant d max => [plain_numeral decimal d; plain_numeral decimal max]
  | PanicPointer width suggested => [plain_numeral decimal width; plain_numeral decimal suggested]
  | PanicNoVariantFrom total d | PanicNoVariantRef total d => [eq enum; plain_numeral decimal total; plain_numeral decimal d]
  | _ => []
  end.
