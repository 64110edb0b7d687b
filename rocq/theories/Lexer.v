(** From the text of the crate's macros to token trees: what rustc's lexer makes of the files
    [/repo/src/tagged_box_macro/mod.rs] and [/repo/src/tagged_box_macro/meta_macros.rs], whose text is in
    [Source.v]. Simplified to what occurs there: no block comments, lifetimes, escapes in strings,
    and no operators of three characters. *)
From Coq Require Import Ascii String Bool List.
From Verif Require Import Tokens.
Import ListNotations.
Local Open Scope char_scope.

(** What has been begun: nothing, a line comment, a string, a word or a number, an operator.
    For the text of [/repo/src/tagged_box_macro/mod.rs:3-832]. *)
Inductive begun : Type :=
| BNothing
| BComment
| BString (rev : list ascii)
| BWord (rev : list ascii)
| BOp (c : ascii).

(** The tokens of the group being read and the groups around it, last token first.
    For the text of [/repo/src/tagged_box_macro/mod.rs:3-832]. *)
Record lexing : Type := Lexing { lx_begun : begun; lx_group : list tree; lx_around : list (delim * list tree) }.

(** Auxiliary. For the text of [/repo/src/tagged_box_macro/mod.rs:3-832]. *)
Definition text (rev : list ascii) : string := string_of_list_ascii (List.rev rev).
(** Auxiliary. For the text of [/repo/src/tagged_box_macro/mod.rs:3-832]. *)
Definition between (lo hi c : ascii) : bool :=
  Nat.leb (nat_of_ascii lo) (nat_of_ascii c) && Nat.leb (nat_of_ascii c) (nat_of_ascii hi).
(** As in [0] of [/repo/src/tagged_box_macro/mod.rs:162]. *)
Definition is_digit (c : ascii) : bool := between "0" "9" c.
(** As in the names of [/repo/src/tagged_box_macro/mod.rs:5-31]. *)
Definition is_word (c : ascii) : bool := between "a" "z" c || between "A" "Z" c || is_digit c || Ascii.eqb c "_".
(** Space and end of line. For the text of [/repo/src/tagged_box_macro/mod.rs:3-832]. *)
Definition is_space (c : ascii) : bool := Nat.leb (nat_of_ascii c) 32.

(** A number, [_] or a word. For the text of [/repo/src/tagged_box_macro/mod.rs:3-832]. *)
Definition word_token (rev : list ascii) : tree :=
  match List.rev rev with
  | c :: l =>
      if is_digit c then TLit (text rev)
      else match l with [] => if Ascii.eqb c "_" then TOp "_" else TId (text rev) | _ => TId (text rev) end
  | [] => TId ""
  end.
(** An operator of one character. For the text of [/repo/src/tagged_box_macro/mod.rs:3-832]. *)
Definition op_token (c : ascii) : tree :=
  if Ascii.eqb c "," then TComma else if Ascii.eqb c ":" then TColon
  else if Ascii.eqb c "@" then TAt else if Ascii.eqb c "!" then TBang
  else TOp (String c EmptyString).
(** An operator of two. For the text of [/repo/src/tagged_box_macro/mod.rs:3-832]. *)
Definition joint (a b : ascii) : option tree :=
  if Ascii.eqb a ":" && Ascii.eqb b ":" then Some (TOp "::")
  else if Ascii.eqb a "=" && Ascii.eqb b ">" then Some (TOp "=>")
  else if Ascii.eqb a "=" && Ascii.eqb b "=" then Some (TOp "==")
  else if Ascii.eqb a "-" && Ascii.eqb b ">" then Some (TOp "->")
  else if Ascii.eqb a "<" && Ascii.eqb b "=" then Some (TOp "<=")
  else None.

(** Auxiliary. For the text of [/repo/src/tagged_box_macro/mod.rs:3-832]. *)
Definition push (t : tree) (st : lexing) : lexing := Lexing BNothing (t :: lx_group st) (lx_around st).
(** Auxiliary. For the text of [/repo/src/tagged_box_macro/mod.rs:3-832]. *)
Definition begin (b : begun) (st : lexing) : lexing := Lexing b (lx_group st) (lx_around st).
(** A bracket opens. For the text of [/repo/src/tagged_box_macro/mod.rs:3-832]. *)
Definition open_group (d : delim) (st : lexing) : lexing := Lexing BNothing [] ((d, lx_group st) :: lx_around st).
(** Are these brackets of the same kind? For the text of [/repo/src/tagged_box_macro/mod.rs:3-832]. *)
Definition delim_eqb (a b : delim) : bool :=
  match a, b with Paren, Paren => true | Brace, Brace => true | Bracket, Bracket => true | _, _ => false end.
(** A bracket closes. For the text of [/repo/src/tagged_box_macro/mod.rs:3-832]. *)
Definition close_group (d : delim) (st : lexing) : option lexing :=
  match lx_around st with
  | (d', l) :: around => if delim_eqb d d' then Some (Lexing BNothing (TGroup d (List.rev (lx_group st)) :: l) around) else None
  | [] => None
  end.

(** A character when nothing has been begun. For the text of [/repo/src/tagged_box_macro/mod.rs:3-832]. *)
Definition fresh (st : lexing) (c : ascii) : option lexing :=
  if is_space c then Some (begin BNothing st)
  else if is_word c then Some (begin (BWord [c]) st)
  else if Ascii.eqb c """" then Some (begin (BString []) st)
  else if Ascii.eqb c "(" then Some (open_group Paren st)
  else if Ascii.eqb c "[" then Some (open_group Bracket st)
  else if Ascii.eqb c "{" then Some (open_group Brace st)
  else if Ascii.eqb c ")" then close_group Paren st
  else if Ascii.eqb c "]" then close_group Bracket st
  else if Ascii.eqb c "}" then close_group Brace st
  else Some (begin (BOp c) st).

(** One character. For the text of [/repo/src/tagged_box_macro/mod.rs:3-832]. *)
Definition lex_char (st : lexing) (c : ascii) : option lexing :=
  match lx_begun st with
  | BNothing => fresh st c
  | BComment => Some (if Ascii.eqb c "010" then begin BNothing st else st)
  | BString r => Some (if Ascii.eqb c """" then push (TLit (text r)) st else begin (BString (c :: r)) st)
  | BWord r => if is_word c then Some (begin (BWord (c :: r)) st) else fresh (push (word_token r) st) c
  | BOp a =>
      if Ascii.eqb a "/" && Ascii.eqb c "/" then Some (begin BComment st)
      else match joint a c with
           | Some t => Some (push t st)
           | None => fresh (push (op_token a) st) c
           end
  end.

(** For the text of [/repo/src/tagged_box_macro/mod.rs:3-832]. *)
Fixpoint lex_from (st : lexing) (s : string) : option lexing :=
  match s with
  | EmptyString => Some st
  | String c s => match lex_char st c with Some st => lex_from st s | None => None end
  end.

(** The token trees of a text; a space is put after it.
    For the text of [/repo/src/tagged_box_macro/mod.rs:3-832]. *)
Definition lex (s : string) : option (list tree) :=
  match lex_from (Lexing BNothing [] []) (s ++ " ") with
  | Some (Lexing BNothing l []) => Some (List.rev l)
  | _ => None
  end.
