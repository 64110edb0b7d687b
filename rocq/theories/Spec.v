(** Small specifications used in the property theorems, written without reference to the model of
    the code (they use only numbers, strings and lists). *)
From Coq Require Import NArith String Ascii Bool List.
Import ListNotations.
Local Open Scope N_scope.

(** ** Settings *)

(** The 16 documented values of TAGGED_BOX_RESERVED_WIDTH with their widths;
    [/repo/README.md:100-115], [/repo/src/lib.rs:113-128]. *)
Definition documented : list (string * N) :=
  [("48bits", 48); ("49bits", 49); ("50bits", 50); ("51bits", 51); ("52bits", 52); ("53bits", 53);
   ("54bits", 54); ("55bits", 55); ("56bits", 56); ("57bits", 57); ("58bits", 58); ("59bits", 59);
   ("60bits", 60); ("61bits", 61); ("62bits", 62); ("63bits", 63)]%string.

Definition is_documented (s : string) : Prop := In s (map fst documented).

(** The width a user asks for: the documented one, or 60 by default. *)
Definition width_requested (env : option string) (w : N) : Prop :=
  match env with
  | None => w = 60
  | Some s => In (s, w) documented \/ (~ is_documented s /\ w = 60)
  end.

Definition line_break_free (env : option string) : Prop :=
  match env with
  | None => True
  | Some s => ~ In "010"%char (list_ascii_of_string s)
  end.

(** ** Packing two numbers into one word *)

(** The word holding address [a] in its low [w] bits and tag [d] above. *)
Definition pack (w a d : N) : N := a + d * 2 ^ w.

(** Lexicographic comparison, first components first. *)
Definition lex_compare (x y : N * N) : comparison :=
  match fst x ?= fst y with Eq => snd x ?= snd y | c => c end.

Definition power_of_two (a : N) : Prop := exists k, k <= 29 /\ a = 2 ^ k.
