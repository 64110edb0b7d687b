(** Model of [src/discriminant.rs] (the 16 settings) and [build.rs] (which one is active). *)
From Coq Require Import NArith List String Ascii Bool Lia.
From Verif Require Import Words.
Import ListNotations.
Local Open Scope N_scope.
Local Open Scope string_scope.

(** One row of the table passed to [generate_discriminants!].
    [/repo/src/discriminant.rs:30-69]: the constants generated for one feature.
    [disc_ty_bits] is the width of the integer type [Discriminant] ([u8] or [u16]). *)
Record config : Type := Config {
  feature : string;
  disc_ty_bits : N;
  max_discriminant : N;
  pointer_width : N;
  discriminant_bits : N
}.

(** [/repo/src/discriminant.rs:48] [MAX_POINTER_VALUE = u64::max_value() >> $free_bits]. *)
Definition max_pointer_value (c : config) : N := shr64 u64_max (discriminant_bits c).

(** [/repo/src/discriminant.rs:59] [DISCRIMINANT_MASK = u64::max_value() >> $free_bits]. *)
Definition discriminant_mask (c : config) : N := shr64 u64_max (discriminant_bits c).

(** [/repo/src/discriminant.rs:71-88], transcribed row by row. *)
Definition table : list config := [
  Config "tagged_box_reserve_63bits" 8  1     63 1;
  Config "tagged_box_reserve_62bits" 8  3     62 2;
  Config "tagged_box_reserve_61bits" 8  7     61 3;
  Config "tagged_box_reserve_60bits" 8  15    60 4;
  Config "tagged_box_reserve_59bits" 8  31    59 5;
  Config "tagged_box_reserve_58bits" 8  63    58 6;
  Config "tagged_box_reserve_57bits" 8  127   57 7;
  Config "tagged_box_reserve_56bits" 8  255   56 8;
  Config "tagged_box_reserve_55bits" 16 511   55 9;
  Config "tagged_box_reserve_54bits" 16 1023  54 10;
  Config "tagged_box_reserve_53bits" 16 2047  53 11;
  Config "tagged_box_reserve_52bits" 16 4068  52 12;
  Config "tagged_box_reserve_51bits" 16 8191  51 13;
  Config "tagged_box_reserve_50bits" 16 16383 50 14;
  Config "tagged_box_reserve_49bits" 16 32767 49 15;
  Config "tagged_box_reserve_48bits" 16 65535 48 16
].

(** ** build.rs *)

(** The literal arms of the [match &*var] in [/repo/build.rs:3-19]: pattern and printed line. *)
Definition build_rs_arms : list (string * string) := [
   ("63bits", "cargo:rustc-cfg=tagged_box_reserve_63bits");
   ("62bits", "cargo:rustc-cfg=tagged_box_reserve_62bits");
   ("61bits", "cargo:rustc-cfg=tagged_box_reserve_61bits");
   ("60bits", "cargo:rustc-cfg=tagged_box_reserve_60bits");
   ("59bits", "cargo:rustc-cfg=tagged_box_reserve_59bits");
   ("58bits", "cargo:rustc-cfg=tagged_box_reserve_58bits");
   ("57bits", "cargo:rustc-cfg=tagged_box_reserve_57bits");
   ("56bits", "cargo:rustc-cfg=tagged_box_reserve_56bits");
   ("55bits", "cargo:rustc-cfg=tagged_box_reserve_55bits");
   ("54bits", "cargo:rustc-cfg=tagged_box_reserve_54bits");
   ("53bits", "cargo:rustc-cfg=tagged_box_reserve_53bits");
   ("52bits", "cargo:rustc-cfg=tagged_box_reserve_52bits");
   ("51bits", "cargo:rustc-cfg=tagged_box_reserve_51bits");
   ("50bits", "cargo:rustc-cfg=tagged_box_reserve_50bits");
   ("49bits", "cargo:rustc-cfg=tagged_box_reserve_49bits");
   ("48bits", "cargo:rustc-cfg=tagged_box_reserve_48bits")
].

(** Rust's [match] on a string, [/repo/build.rs:3-24]. *)
Fixpoint find_arm (arms : list (string * string)) (var : string) : option string :=
  match arms with
  | [] => None
  | (pat, line) :: rest => if String.eqb var pat then Some line else find_arm rest var
  end.

(** [/repo/build.rs:1-28]: the arguments of the [println!] calls, in order.
    [env = None] stands for [std::env::var] returning [Err] (unset or not Unicode). The [dbg!]
    output goes to stderr, which cargo does not parse, and is left out. *)
Definition build_rs (env : option string) : list string :=
  match env with
  | Some var =>
      match find_arm build_rs_arms var with
      | Some line => [line]
      | None =>  (* build.rs:20-23 *)
          ["cargo:warning=" ++ var
             ++ " is an invalid reserved pointer width for `TAGGED_BOX_RESERVED_WIDTH`";
           "cargo:rustc-cfg=tagged_box_reserve_60bits"]
      end
  | None => ["cargo:rustc-cfg=tagged_box_reserve_60bits"]  (* build.rs:25-27 *)
  end.

(** The line break character. [println!] in [/repo/build.rs:4-26]. *)
Definition nl : ascii := "010"%char.

(** Standard output of the script: each [println!] appends a line break. [/repo/build.rs:4-26]. *)
Fixpoint stdout_of (lines : list string) : string :=
  match lines with
  | [] => ""
  | l :: ls => l ++ String nl (stdout_of ls)
  end.

(** Cargo reads the script's output line by line (documented behaviour of cargo build scripts,
    not code of this repository). A text without a final line break still ends a line.
    The lines are those of [/repo/build.rs:4-26]. *)
Fixpoint split_lines (s : string) : list string :=
  match s with
  | EmptyString => []
  | String c rest =>
      if Ascii.eqb c nl then EmptyString :: split_lines rest
      else match split_lines rest with
           | [] => [String c EmptyString]
           | l :: ls => String c l :: ls
           end
  end.

(** Cargo: a line [cargo:rustc-cfg=X] sets the cfg [X]. As printed by [/repo/build.rs:4-26]. *)
Fixpoint strip_prefix (p s : string) : option string :=
  match p, s with
  | EmptyString, _ => Some s
  | String a p', String b s' => if Ascii.eqb a b then strip_prefix p' s' else None
  | String _ _, EmptyString => None
  end.

(** Auxiliary: what cargo does with the lines printed by [/repo/build.rs:4-26]. *)
Fixpoint keep_some {A} (l : list (option A)) : list A :=
  match l with
  | [] => []
  | Some a :: r => a :: keep_some r
  | None :: r => keep_some r
  end.

(** The cfgs set by the lines printed in [/repo/build.rs:4-26]. *)
Definition cargo_cfgs (out : string) : list string :=
  keep_some (map (strip_prefix "cargo:rustc-cfg=") (split_lines out)).

(** The warnings printed in [/repo/build.rs:21]. *)
Definition cargo_warnings (out : string) : list string :=
  keep_some (map (strip_prefix "cargo:warning=") (split_lines out)).

(** The cfg flags the crate is compiled with for a given environment. [/repo/build.rs:1-28] run by cargo. *)
Definition active_cfgs (env : option string) : list string :=
  cargo_cfgs (stdout_of (build_rs env)).

(** [/repo/build.rs:1-28] run by cargo. *)
Definition build_warnings (env : option string) : list string :=
  cargo_warnings (stdout_of (build_rs env)).

(** [/repo/src/discriminant.rs:33-34]: [#[cfg($feature)] mod variables]: the rows whose module is
    compiled in. The crate compiles iff exactly one is (two modules of one name are an error, and
    with none [pub use variables::*] fails). *)
Definition active_rows (cfgs : list string) : list config :=
  filter (fun c => existsb (String.eqb (feature c)) cfgs) table.

(** The setting the crate is compiled with, [/repo/src/discriminant.rs:33-34]; [None]: it does not compile. *)
Definition selected (env : option string) : option config :=
  match active_rows (active_cfgs env) with
  | [c] => Some c
  | _ => None
  end.
