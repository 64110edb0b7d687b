(** How a person reads a number off a formatted text: the specification of the numeric formats.
    Nothing here uses the printer ([digits], [pad_integral], ...); only the options and the names of
    the formats are shared with it. *)
From Coq Require Import Arith NArith List String Ascii Bool.
From Verif Require Import Config Fmt.
Import ListNotations.
Local Open Scope N_scope.

(** The digits [0-9A-Fa-f]. *)
Definition read_digit (c : ascii) : option N :=
  let n := N_of_ascii c in
  if (48 <=? n) && (n <=? 57) then Some (n - 48)
  else if (65 <=? n) && (n <=? 70) then Some (n - 55)
  else if (97 <=? n) && (n <=? 102) then Some (n - 87)
  else None.

Fixpoint read_number (b acc : N) (s : string) : option N :=
  match s with
  | EmptyString => Some acc
  | String c r => match read_digit c with
                  | Some d => if d <? b then read_number b (acc * b + d) r else None
                  | None => None
                  end
  end.

(** A numeral has at least one digit. *)
Definition read_numeral (b : N) (s : string) : option N :=
  match s with EmptyString => None | _ => read_number b 0 s end.

(** The number format: base, prefix under [#], and the digit characters written. *)
Record notation : Type := Notation_ { n_base : N; n_prefix : string; n_digits : string }.
Definition radix_notation (k : radix) : notation :=
  match k with
  | LowerHex => Notation_ 16 "0x" "0123456789abcdef"
  | UpperHex => Notation_ 16 "0x" "0123456789ABCDEF"
  | Binary => Notation_ 2 "0b" "01"
  | Octal => Notation_ 8 "0o" "01234567"
  end.
Definition decimal : notation := Notation_ 10 "" "0123456789".

Fixpoint occurs (c : ascii) (s : string) : bool :=
  match s with EmptyString => false | String a r => Ascii.eqb a c || occurs c r end.

Fixpoint trim_left (c : ascii) (s : string) : string :=
  match s with
  | EmptyString => EmptyString
  | String a r => if Ascii.eqb a c then trim_left c r else s
  end.

Fixpoint trim_right (c : ascii) (s : string) : string :=
  match s with
  | EmptyString => EmptyString
  | String a r => match trim_right c r with
                  | EmptyString => if Ascii.eqb a c then EmptyString else String a EmptyString
                  | r' => String a r'
                  end
  end.

(** What follows the last [c]; [None] if there is none. *)
Fixpoint after_last (c : ascii) (s : string) : option string :=
  match s with
  | EmptyString => None
  | String a r => match after_last c r with
                  | Some t => Some t
                  | None => if Ascii.eqb a c then Some r else None
                  end
  end.

Fixpoint last_char (s : string) : option ascii :=
  match s with EmptyString => None | String c EmptyString => Some c | String _ r => last_char r end.

(** Whether text may be padded with the fill character, and whether some of it goes after. *)
Definition filled (o : fmt_opts) : bool :=
  match f_width o with Some _ => negb (f_zero_pad o) | None => false end.
Definition fill_after (o : fmt_opts) : bool :=
  match f_align o with Some ALeft | Some ACenter => true | Some ARight | None => false end.

(** The last character before the numeral that is not padding: the [x] of [0x], or [+]. *)
Definition marker (n : notation) (o : fmt_opts) : option ascii :=
  match (if f_alternate o then last_char (n_prefix n) else None) with
  | Some c => Some c
  | None => if f_sign_plus o then Some "+"%char else None
  end.

(** Read the number of a text: drop the padding after it, then everything up to the marker or else the
    padding before it; what is left is the numeral. *)
Definition read_text (n : notation) (o : fmt_opts) (s : string) : option N :=
  let trim := filled o && negb (occurs (f_fill o) (n_digits n)) in
  let s := if trim && fill_after o then trim_right (f_fill o) s else s in
  match marker n o with
  | Some m => match after_last m s with Some t => read_numeral (n_base n) t | None => None end
  | None => read_numeral (n_base n) (if trim then trim_left (f_fill o) s else s)
  end.

(** When texts in a notation can be told apart: unless the fill is one of the digits and lands next to
    the numeral where it can be taken for a part of it. [lead] is the length of sign and prefix. *)
Definition lead (n : notation) (o : fmt_opts) : nat :=
  ((if f_sign_plus o then 1 else 0) + (if f_alternate o then String.length (n_prefix n) else 0))%nat.
Definition separable (n : notation) (o : fmt_opts) : bool :=
  match f_width o with
  | None => true
  | Some w =>
      f_zero_pad o || negb (occurs (f_fill o) (n_digits n)) || (w <=? lead n o + 1)%nat ||
      match f_align o with
      | Some ALeft | Some ACenter => false
      | Some ARight | None => Ascii.eqb (f_fill o) "0" || negb (lead n o =? 0)%nat
      end
  end.

(** The options in force for a raw pointer ([{:p}], [{:?}]): always with the prefix, and under [#]
    with zeros up to the full width of an address. *)
Definition pointer_opts (bits : N) (o : fmt_opts) : fmt_opts :=
  FmtOpts (f_fill o) (f_align o) (f_sign_plus o) true (f_zero_pad o || f_alternate o)
    (match f_width o with
     | Some w => Some w
     | None => if f_alternate o then Some (if bits =? 64 then 18%nat else 10%nat) else None
     end) (f_precision o) (f_debug_hex o).

(** The notation of an integer under [{:?}], [{:x?}], [{:X?}]. *)
Definition debug_notation (o : fmt_opts) : notation :=
  match f_debug_hex o with
  | None => decimal
  | Some false => radix_notation LowerHex
  | Some true => radix_notation UpperHex
  end.

(** The Debug text of a tagged pointer, given the texts of its three parts. *)
Definition line_break : string := String (ascii_of_N 10) EmptyString.
Definition debug_text (o : fmt_opts) (raw ptr disc : string) : string :=
  if f_alternate o
  then ("TaggedPointer {" ++ line_break ++ "    raw: " ++ raw ++ "," ++ line_break ++ "    ptr: " ++ ptr ++ "," ++ line_break ++
       "    discriminant: " ++ disc ++ "," ++ line_break ++ "}")%string
  else ("TaggedPointer { raw: " ++ raw ++ ", ptr: " ++ ptr ++ ", discriminant: " ++ disc ++ " }")%string.

(** No line breaks inside the parts: not a multi-line text filled with line breaks. *)
Definition one_line (o : fmt_opts) : Prop :=
  f_alternate o = false \/ f_width o = None \/ f_zero_pad o = true \/ f_fill o <> ascii_of_N 10.

(** Pointers are not padded with hexadecimal digits. *)
Definition legible (bits : N) (o : fmt_opts) : Prop :=
  filled (pointer_opts bits o) = false \/ occurs (f_fill o) "0123456789abcdef" = false.
