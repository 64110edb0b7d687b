(** Model of the formatting impls of the crate: [impl_fmt!] in [src/lib.rs] and the fmt impls of
    [src/tagged_pointer.rs].

    The part of [core::fmt] used is modelled from core's source as known to the author (it is not in
    the repository): [Formatter::pad_integral], [Pointer] of raw pointers, [Debug] of integers,
    [debug_struct] and its [PadAdapter]. The fill is one ASCII character. Writing to the output never
    fails. *)
From Coq Require Import Arith NArith List String Ascii Bool.
From Verif Require Import Words Config Pointer.
Import ListNotations.
Local Open Scope N_scope.

(** The four traits [/repo/src/tagged_pointer.rs:167] and [/repo/src/tagged_box.rs:591] name. *)
Inductive radix : Type := LowerHex | UpperHex | Binary | Octal.

(** core's [int_impl], used by [/repo/src/lib.rs:176-197]. *)
Definition base (k : radix) : N :=
  match k with LowerHex => 16 | UpperHex => 16 | Binary => 2 | Octal => 8 end.

(** Prefix printed with the [#] flag. core, used by [/repo/src/lib.rs:176-197]. *)
Definition prefix (k : radix) : string :=
  match k with LowerHex => "0x" | UpperHex => "0x" | Binary => "0b" | Octal => "0o" end.

(** core's loop: [loop { push(x % base); x /= base; if x == 0 { break } }], filling a buffer from its
    end, so the accumulator is the digits already produced (most significant first).
    core, used by [/repo/src/lib.rs:176-197]. *)
Fixpoint digits_loop (fuel : nat) (b x : N) (acc : list N) : list N :=
  match fuel with
  | O => acc
  | S f => let acc' := (x mod b) :: acc in
           if x / b =? 0 then acc' else digits_loop f b (x / b) acc'
  end.

(** Enough iterations for any [x] (see [FmtFacts.digits_value]). core, used by [/repo/src/lib.rs:176-197]. *)
Definition digits (b x : N) : list N := digits_loop (S (N.to_nat (N.log2 x))) b x [].

(** core, used by [/repo/src/lib.rs:176-197]. *)
Definition digit_char (k : radix) (d : N) : ascii :=
  ascii_of_N (if d <? 10 then 48 + d
              else match k with UpperHex => 65 + (d - 10) | _ => 97 + (d - 10) end).

(** core, used by [/repo/src/lib.rs:176-197]. *)
Fixpoint string_of_digits (k : radix) (l : list N) : string :=
  match l with [] => EmptyString | d :: r => String (digit_char k d) (string_of_digits k r) end.

(** ** The options of a [Formatter] *)

(** core's [fmt::Alignment] of the [Formatter] passed in [/repo/src/lib.rs:176-197] and [/repo/src/tagged_pointer.rs:151-165]. *)
Inductive alignment : Type := ALeft | ARight | ACenter.

(** [{:fill<align>+#0width.precision?}]; [f_debug_hex]: [Some false] for [{:x?}], [Some true] for [{:X?}].
    core's [Formatter] passed in [/repo/src/lib.rs:176-197] and [/repo/src/tagged_pointer.rs:151-165]. *)
Record fmt_opts : Type := FmtOpts {
  f_fill : ascii;
  f_align : option alignment;
  f_sign_plus : bool;
  f_alternate : bool;
  f_zero_pad : bool;
  f_width : option nat;
  f_precision : option nat;
  f_debug_hex : option bool
}.
(** The options of a plain [{}] or [{:?}], as in [/repo/src/tagged_box.rs:491], [507]. *)
Definition default_opts : fmt_opts := FmtOpts " " None false false false None None None.

(** core, used by [/repo/src/lib.rs:176-197]. *)
Fixpoint repeat_char (n : nat) (c : ascii) : string :=
  match n with O => EmptyString | S k => String c (repeat_char k c) end.

(** core's [Formatter::padding]: how much goes before and after. Used by [/repo/src/lib.rs:176-197]. *)
Definition padding (a : option alignment) (n : nat) : nat * nat :=
  match a with
  | Some ALeft => (O, n)
  | Some ACenter => (n / 2, (n + 1) / 2)%nat
  | Some ARight | None => (n, O)      (* numbers are right-aligned by default *)
  end.

(** core's [Formatter::pad_integral] for a non-negative number with the digits [buf].
    Used by [/repo/src/lib.rs:176-197]. *)
Definition pad_integral (o : fmt_opts) (pre buf : string) : string :=
  let sign := if f_sign_plus o then "+"%string else EmptyString in
  let pre := if f_alternate o then pre else EmptyString in
  let width := (String.length buf + String.length sign + String.length pre)%nat in
  match f_width o with
  | None => sign ++ pre ++ buf
  | Some min =>
      if (min <=? width)%nat then sign ++ pre ++ buf
      else if f_zero_pad o then sign ++ pre ++ repeat_char (min - width) "0" ++ buf
      else
        let (before, after) := padding (f_align o) (min - width) in
        repeat_char before (f_fill o) ++ sign ++ pre ++ buf ++ repeat_char after (f_fill o)
  end.

(** [fmt::LowerHex::fmt(&u64, f)] etc. Called in [/repo/src/lib.rs:176-197]. *)
Definition fmt_u64 (k : radix) (o : fmt_opts) (x : N) : string :=
  pad_integral o (prefix k) (string_of_digits k (digits (base k) x)).

(** [Display] of an unsigned integer. Called in [/repo/src/tagged_pointer.rs:30-43]. *)
Definition fmt_dec (o : fmt_opts) (x : N) : string :=
  pad_integral o EmptyString (string_of_digits LowerHex (digits 10 x)).

(** [Debug] of an unsigned integer.
    Called for the field [discriminant] in [/repo/src/tagged_pointer.rs:151-159]. *)
Definition fmt_int_debug (o : fmt_opts) (x : N) : string :=
  match f_debug_hex o with
  | Some false => fmt_u64 LowerHex o x
  | Some true => fmt_u64 UpperHex o x
  | None => fmt_dec o x
  end.

(** [fmt::Pointer] and [Debug] of [*const ()]: lower hex with the prefix, padded with zeros to the
    full width of an address under [#]; [bits] is the size of [usize].
    Called in [/repo/src/tagged_pointer.rs:151-165]. *)
Definition fmt_ptr (bits : N) (o : fmt_opts) (a : N) : string :=
  let o' :=
    FmtOpts (f_fill o) (f_align o) (f_sign_plus o) true
      (f_zero_pad o || f_alternate o)
      (match f_width o with
       | None => if f_alternate o then Some (N.to_nat (bits / 4) + 2)%nat else None
       | Some w => Some w
       end)
      (f_precision o) (f_debug_hex o) in
  fmt_u64 LowerHex o' a.

(** core, for [/repo/src/tagged_pointer.rs:151-159]. *)
Definition newline : ascii := "010".

(** core's [PadAdapter]: four spaces at the beginning of every line written through it.
    core, for [/repo/src/tagged_pointer.rs:151-159]. *)
Fixpoint indent (on_newline : bool) (s : string) : string :=
  match s with
  | EmptyString => EmptyString
  | String c r =>
      (if on_newline then "    "%string else EmptyString) ++ String c (indent (Ascii.eqb c newline) r)
  end.

(** [f.debug_struct(name).field(..). ..field(..).finish()] with at least one field; the fields' texts
    were written with the same options. Called in [/repo/src/tagged_pointer.rs:151-159]. *)
Definition debug_struct (o : fmt_opts) (name : string) (fields : list (string * string)) : string :=
  if f_alternate o then
    name ++ " {" ++ String newline
      (fold_right (fun f r => indent true (fst f ++ ": " ++ snd f ++ "," ++ String newline EmptyString) ++ r)%string "}"%string fields)
  else
    name ++ " { " ++ String.concat ", " (map (fun f => fst f ++ ": " ++ snd f)%string fields) ++ " }".

(** [#[derive(Debug)]] on a struct with one field, the text written by the field and whether it
    succeeded given: [debug_struct(name).field(field, ..).finish()]; after an error nothing more is
    written. On the generated struct, [/repo/src/tagged_box_macro/mod.rs:739]. *)
Definition derived_debug (o : fmt_opts) (name field : string) (r : string * bool) : string * bool :=
  if snd r then (debug_struct o name [(field, fst r)], true)
  else ((name ++ (if f_alternate o then " {" ++ String newline (indent true (field ++ ": " ++ fst r))
                  else " { " ++ field ++ ": " ++ fst r))%string, false).

(** ** The crate's impls *)

(** [/repo/src/lib.rs:176-186] instantiated at [/repo/src/tagged_pointer.rs:167]. *)
Definition tp_fmt (t : target) (k : radix) (o : fmt_opts) (p : tagged_ptr) : string :=
  fmt_u64 k o (tp_as_u64 t p).

(** [/repo/src/tagged_pointer.rs:161-165]. *)
Definition tp_fmt_pointer (t : target) (o : fmt_opts) (p : tagged_ptr) : string :=
  fmt_ptr (ptr_bits t) o (tp_as_ptr t p).

(** [/repo/src/tagged_pointer.rs:151-159]: [self.as_raw_u64() as *const ()], [as_ptr], [discriminant]. *)
Definition tp_fmt_debug (t : target) (o : fmt_opts) (p : tagged_ptr) : string :=
  debug_struct o "TaggedPointer"
    [("raw", fmt_ptr (ptr_bits t) o (cast (ptr_bits t) (tp_as_raw_u64 p)));
     ("ptr", fmt_ptr (ptr_bits t) o (tp_as_ptr t p));
     ("discriminant", fmt_int_debug o (tp_discriminant t p))]%string.
