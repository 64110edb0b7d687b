(** [macro_rules!]: how rustc reads, matches and expands the macros of [/repo/src/tagged_box_macro/mod.rs] and
    [/repo/src/tagged_box_macro/meta_macros.rs], whose text is in [Source.v]. Here the macros are not
    modelled one by one as in [Tokens.v]; what is modelled is Rust's macro system, which then is given their text.

    Simplified: a call [m!(..)] written in a macro is kept as one token ([C]); repetitions are
    greedy, which for the patterns of the crate is the only way to match them; an [expr] or a [path] goes up to the next
    comma, which is right for those the crate passes; a [meta] goes up to the end of its brackets; no hygiene. *)
From Coq Require Import NArith String Bool List.
From Verif Require Import Words Config Pointer Mem Box Macro Tokens Heads Lexer.
Import ListNotations.
Local Open Scope string_scope.
Local Open Scope list_scope.

(** ** Tokens inside of an expansion *)

(** A token tree as the user or the macro has written it; a group with anything in it; a call of a macro;
    a type, and another fragment, matched before ("interpolated"), which are opaque to literal tokens.
    In the expansions of [/repo/src/tagged_box_macro/mod.rs:5-832]. *)
Inductive tk : Type :=
| W (t : tree)
| G (d : delim) (l : list tk)
| C (in_crate : bool) (m : string) (d : delim) (args : list tk)
| FTy (t : rty)
| F (kind : string) (l : list tk).

(** ** Reading a macro *)

(** Patterns. As in [/repo/src/tagged_box_macro/mod.rs:10]. *)
Inductive pat : Type :=
| PTok (t : tree)
| PVar (x kind : string)
| PGroup (d : delim) (l : list pat)
| PRep (l : list pat) (sep : option tree) (one : bool).   (* one: at least one *)

(** Right-hand sides. As in [/repo/src/tagged_box_macro/mod.rs:11]. *)
Inductive tmpl : Type :=
| TTok (t : tree)
| TVar (x : string)
| TGrp (d : delim) (l : list tmpl)
| TCall (in_crate : bool) (m : string) (d : delim) (l : list tmpl)
| TRep (l : list tmpl) (sep : option tree).

(** One arm. As in [/repo/src/tagged_box_macro/mod.rs:10-12]. *)
Record rule : Type := Rule { r_pat : list pat; r_rhs : list tmpl }.

(** What follows the parenthesis of a repetition: [*], [+], or one of them after a separator.
    As in [/repo/src/tagged_box_macro/mod.rs:6-7], [736]. *)
Definition rep_end (ts : list tree) : option (option tree * bool * list tree) :=
  let star o := if String.eqb o "*" then Some false else if String.eqb o "+" then Some true else None in
  match ts with
  | TOp o :: r =>
      match star o with
      | Some one => Some (None, one, r)
      | None => match r with
                | TOp o' :: r' => match star o' with Some one => Some (Some (TOp o), one, r') | None => None end
                | _ => None
                end
      end
  | s :: TOp o :: r => match star o with Some one => Some (Some s, one, r) | None => None end
  | _ => None
  end.

(** Reads a pattern; [n] bounds the work. For the left-hand sides of [/repo/src/tagged_box_macro/mod.rs:5-738]. *)
Fixpoint read_pat (n : nat) (ts : list tree) : option (list pat) :=
  match n with
  | O => None
  | S n =>
      let go p r := option_map (cons p) (read_pat n r) in
      match ts with
      | [] => Some []
      | TGroup d l :: r => match read_pat n l with Some ps => go (PGroup d ps) r | None => None end
      | TOp o :: r =>
          if String.eqb o "$" then
            match r with
            | TId x :: TColon :: TId k :: r => go (PVar x k) r
            | TGroup Paren l :: r =>
                match read_pat n l, rep_end r with
                | Some ps, Some (sep, one, r) => go (PRep ps sep one) r
                | _, _ => None
                end
            | _ => None
            end
          else go (PTok (TOp o)) r
      | t :: r => go (PTok t) r
      end
  end.

(** Reads a right-hand side; [$crate] becomes a token, which can only be followed by [::] and a name.
    For the right-hand sides of [/repo/src/tagged_box_macro/mod.rs:5-831]. *)
Fixpoint read_tmpl (n : nat) (ts : list tree) : option (list tmpl) :=
  match n with
  | O => None
  | S n =>
      let go p r := option_map (cons p) (read_tmpl n r) in
      match ts with
      | [] => Some []
      | TId m :: TBang :: TGroup d l :: r =>
          match read_tmpl n l with Some ps => go (TCall false m d ps) r | None => None end
      | TGroup d l :: r => match read_tmpl n l with Some ps => go (TGrp d ps) r | None => None end
      | TOp o :: r =>
          if String.eqb o "$" then
            match r with
            | TId x :: r =>
                if String.eqb x "crate" then
                  match r with
                  | TOp _ :: TId m :: TBang :: TGroup d l :: r =>
                      match read_tmpl n l with Some ps => go (TCall true m d ps) r | None => None end
                  | _ => go (TTok (TOp "$crate")) r
                  end
                else go (TVar x) r
            | TGroup Paren l :: r =>
                match read_tmpl n l, rep_end r with
                | Some ps, Some (sep, _, r) => go (TRep ps sep) r
                | _, _ => None
                end
            | _ => None
            end
          else go (TTok (TOp o)) r
      | t :: r => go (TTok t) r
      end
  end.

(** The bound given to the two. For the arms of [/repo/src/tagged_box_macro/mod.rs:5-832]. *)
Definition enough : nat := 1000.

(** The arms between the braces of a macro. As in [/repo/src/tagged_box_macro/mod.rs:6-30]. *)
Fixpoint read_rules (ts : list tree) : option (list rule) :=
  match ts with
  | [] => Some []
  | TGroup Paren p :: TOp arrow :: TGroup _ r :: ts =>
      if String.eqb arrow "=>" then
        match read_pat enough p, read_tmpl enough r with
        | Some p, Some r =>
            option_map (cons (Rule p r))
              (match ts with
               | [] => Some []
               | TOp semi :: ts => if String.eqb semi ";" then read_rules ts else None
               | _ => None
               end)
        | _, _ => None
        end
      else None
  | _ => None
  end.

(** [macro_rules! name { .. }]. As [/repo/src/tagged_box_macro/mod.rs:5-31]. *)
Definition read_macro (ts : list tree) : option (string * list rule) :=
  match ts with
  | [TId w; TBang; TId name; TGroup Brace body] =>
      if String.eqb w "macro_rules" then option_map (fun rs => (name, rs)) (read_rules body) else None
  | _ => None
  end.

(** The macro in a text. As [/repo/src/tagged_box_macro/mod.rs:5-31]. *)
Definition macro_of_text (s : string) : option (string * list rule) :=
  match lex s with Some ts => read_macro ts | None => None end.

(** ** Matching *)

(** What a variable stands for. The variables of [/repo/src/tagged_box_macro/mod.rs:5-738]. *)
Inductive bnd : Type := BOne (t : tk) | BMany (l : list bnd).
(** The same for all variables. Those of [/repo/src/tagged_box_macro/mod.rs:5-738]. *)
Definition env : Type := list (string * bnd).

(** Tokens without brackets. In the patterns of [/repo/src/tagged_box_macro/mod.rs:5-738]. *)
Definition leaf_eqb (a b : tree) : bool :=
  match a, b with
  | TId s, TId s' | TLit s, TLit s' | TOp s, TOp s' => String.eqb s s'
  | TComma, TComma | TColon, TColon | TAt, TAt | TBang, TBang => true
  | _, _ => false
  end.

(** The tokens up to the first one that the user has not written, for the parsers of [Heads.v] and [Tokens.v].
    For the fragments of [/repo/src/tagged_box_macro/mod.rs:5-738]. *)
Fixpoint raw (ts : list tk) : list tree * list tk :=
  match ts with
  | W t :: r => (t :: fst (raw r), snd (raw r))
  | _ => ([], ts)
  end.

(** The tokens up to the next comma. For [expr] and [path] in [/repo/src/tagged_box_macro/mod.rs:36] and
    [/repo/src/tagged_box_macro/meta_macros.rs:91]. *)
Fixpoint upto_comma (ts : list tk) : list tk * list tk :=
  match ts with
  | W TComma :: _ => ([], ts)
  | t :: r => (t :: fst (upto_comma r), snd (upto_comma r))
  | [] => ([], [])
  end.

(** What a repetition makes of its variables. As in [/repo/src/tagged_box_macro/mod.rs:10]. *)
Fixpoint pat_vars (p : pat) : list string :=
  match p with
  | PTok _ => []
  | PVar x _ => [x]
  | PGroup _ l | PRep l _ _ => flat_map pat_vars l
  end.
(** Auxiliary. For the macros of [/repo/src/tagged_box_macro/mod.rs:5-832]. *)
Fixpoint find_var (x : string) (e : env) : option bnd :=
  match e with [] => None | (y, b) :: e => if String.eqb x y then Some b else find_var x e end.
(** Auxiliary. For the macros of [/repo/src/tagged_box_macro/mod.rs:5-832]. *)
Definition collect (xs : list string) (es : list env) : env :=
  map (fun x => (x, BMany (flat_map (fun e => match find_var x e with Some b => [b] | None => [] end) es))) xs.

Section Expansion.
(** Rust's grammar and name resolution of types, as in [Tokens.v]. *)
Variable parse_ty : list tree -> ty_parse.

(** One fragment: the token it becomes and the tokens after it. A fragment that has been matched before
    is taken as it is. The kinds in [/repo/src/tagged_box_macro/mod.rs:5-738], [/repo/src/tagged_box_macro/meta_macros.rs:5-85]. *)
Definition fragment (kind : string) (ts : list tk) : mres (tk * list tk) :=
  if String.eqb kind "tt" then match ts with t :: r => Match (t, r) | [] => NoMatch end
  else if String.eqb kind "ident" then match ts with W (TId s) :: r => Match (W (TId s), r) | _ => NoMatch end
  else if String.eqb kind "literal" then match ts with W (TLit s) :: r => Match (W (TLit s), r) | _ => NoMatch end
  else if String.eqb kind "ty" then
    match ts with
    | FTy t :: r => Match (FTy t, r)
    | F _ _ :: _ => NoMatch
    | G _ _ :: _ | C _ _ _ _ :: _ => Fatal
    | _ =>
        match parse_ty (fst (raw ts)) with
        | NoStart => NoMatch
        | Syntax => Fatal
        | Parsed t r => Match (FTy t, map W r ++ snd (raw ts))
        end
    end
  else if String.eqb kind "vis" then
    match ts with
    | F k l :: r => if String.eqb k "vis" then Match (F k l, r) else Match (F "vis" [], ts)
    | _ =>
        match p_vis (fst (raw ts)) with
        | None => Fatal
        | Some (_, r) =>
            Match (F "vis" (map W (firstn (length (fst (raw ts)) - length r) (fst (raw ts)))), map W r ++ snd (raw ts))
        end
    end
  else if String.eqb kind "meta" then
    match ts with
    | F k l :: r => if String.eqb k "meta" then Match (F k l, r) else NoMatch
    | W (TId _) :: _ =>
        match snd (raw ts), p_meta (fst (raw ts)) with
        | [], Some _ => Match (F "meta" ts, [])
        | _, _ => Fatal
        end
    | _ => NoMatch
    end
  else if String.eqb kind "expr" || String.eqb kind "path" then
    match ts with
    | [] | W TAt :: _ | W TComma :: _ => NoMatch
    | _ =>
        match upto_comma ts with
        | ([F k l], r) => Match (F k l, r)
        | (l, r) => Match (F kind l, r)
        end
    end
  else NoMatch.

(** Is the next token this one? As the separators in [/repo/src/tagged_box_macro/mod.rs:7]. *)
Definition next_is (t : tree) (ts : list tk) : option (list tk) :=
  match ts with W t' :: r => if leaf_eqb t t' then Some r else None | _ => None end.

(** Matching in sequence: the variables of the first and of the others. As in [/repo/src/tagged_box_macro/mod.rs:10]. *)
Definition then_match (m : mres (env * list tk)) (k : list tk -> mres (env * list tk)) : mres (env * list tk) :=
  match m with
  | Match (e, r) => match k r with Match (e', r') => Match (e ++ e', r') | NoMatch => NoMatch | Fatal => Fatal end
  | NoMatch => NoMatch
  | Fatal => Fatal
  end.

(** A repetition, of which [m] matches the body once: after a separator the body has to follow,
    and there is no end to it before the body does not match. [n] bounds the number of times.
    As in [/repo/src/tagged_box_macro/mod.rs:10]. *)
Fixpoint times (m : list tk -> mres (env * list tk)) (sep : option tree) (n : nat) (after_sep : bool) (ts : list tk)
  : mres (list env * list tk) :=
  match n with
  | O => if after_sep then NoMatch else Match ([], ts)
  | S n =>
      match m ts with
      | Fatal => Fatal
      | NoMatch => if after_sep then NoMatch else Match ([], ts)
      | Match (e, r) =>
          let more b r := match times m sep n b r with
                          | Match (es, r') => Match (e :: es, r')
                          | NoMatch => NoMatch
                          | Fatal => Fatal
                          end in
          match sep with
          | None => more false r
          | Some s => match next_is s r with Some r => more true r | None => Match ([e], r) end
          end
      end
  end.

(** Matches one element of a pattern. [/repo/src/tagged_box_macro/mod.rs:5-738]. *)
Fixpoint match_pat (p : pat) (ts : list tk) {struct p} : mres (env * list tk) :=
  let seq := fix seq (ps : list pat) (ts : list tk) {struct ps} : mres (env * list tk) :=
    match ps with
    | [] => Match ([], ts)
    | p :: ps => then_match (match_pat p ts) (seq ps)
    end in
  match p with
  | PTok t => match next_is t ts with Some r => Match ([], r) | None => NoMatch end
  | PVar x k => match fragment k ts with Match (t, r) => Match ([(x, BOne t)], r) | NoMatch => NoMatch | Fatal => Fatal end
  | PGroup d ps =>
      let inside l r := match seq ps l with
                        | Match (e, []) => Match (e, r)
                        | Match (_, _ :: _) => NoMatch
                        | NoMatch => NoMatch
                        | Fatal => Fatal
                        end in
      match ts with
      | G d' l :: r => if delim_eqb d d' then inside l r else NoMatch
      | W (TGroup d' l) :: r => if delim_eqb d d' then inside (map W l) r else NoMatch
      | _ => NoMatch
      end
  | PRep ps sep one =>
      match times (seq ps) sep (S (length ts)) false ts with
      | Match ([], r) => if one then NoMatch else Match (collect (flat_map pat_vars ps) [], r)
      | Match (es, r) => Match (collect (flat_map pat_vars ps) es, r)
      | NoMatch => NoMatch
      | Fatal => Fatal
      end
  end.

(** Matches a sequence. [/repo/src/tagged_box_macro/mod.rs:5-738]. *)
Fixpoint match_seq (ps : list pat) (ts : list tk) : mres (env * list tk) :=
  match ps with
  | [] => Match ([], ts)
  | p :: ps => then_match (match_pat p ts) (match_seq ps)
  end.
(** Matches all of the arguments. [/repo/src/tagged_box_macro/mod.rs:5-738]. *)
Definition match_all (ps : list pat) (ts : list tk) : mres env :=
  match match_seq ps ts with
  | Match (e, []) => Match e
  | Match (_, _ :: _) => NoMatch
  | NoMatch => NoMatch
  | Fatal => Fatal
  end.

End Expansion.

(** ** Writing the right-hand side *)

(** The variables in it. As in [/repo/src/tagged_box_macro/mod.rs:7]. *)
Fixpoint tmpl_vars (t : tmpl) : list string :=
  match t with
  | TTok _ => []
  | TVar x => [x]
  | TGrp _ l | TCall _ _ _ l | TRep l _ => flat_map tmpl_vars l
  end.

(** How often to repeat: as often as its variables were, all the same. As in [/repo/src/tagged_box_macro/mod.rs:15]. *)
Fixpoint how_often (xs : list string) (e : env) : option nat :=
  match xs with
  | [] => None
  | x :: xs =>
      match find_var x e, how_often xs e with
      | Some (BMany l), None => Some (length l)
      | Some (BMany l), Some n => if Nat.eqb (length l) n then Some n else None
      | _, r => r
      end
  end.

(** The variables in the [k]th repetition. As in [/repo/src/tagged_box_macro/mod.rs:15]. *)
Definition kth (xs : list string) (e : env) (k : nat) : env :=
  map (fun b => match b with
                | (x, BMany l) => if existsb (String.eqb x) xs then (x, nth k l (BMany [])) else (x, BMany l)
                | b => b
                end) e.

(** [a sep b sep c]. As in [/repo/src/tagged_box_macro/mod.rs:7]. *)
Fixpoint separated {A} (sep : list A) (ls : list (list A)) : list A :=
  match ls with
  | [] => []
  | [l] => l
  | l :: ls => l ++ sep ++ separated sep ls
  end.

(** Auxiliary. For the macros of [/repo/src/tagged_box_macro/mod.rs:5-832]. *)
Fixpoint all_some {A} (l : list (option A)) : option (list A) :=
  match l with
  | [] => Some []
  | Some a :: l => option_map (cons a) (all_some l)
  | None :: _ => None
  end.

(** Writes a right-hand side; a name that is not a variable stays as it is. [/repo/src/tagged_box_macro/mod.rs:5-831]. *)
Fixpoint write (t : tmpl) (e : env) {struct t} : option (list tk) :=
  let seq := fix seq (l : list tmpl) (e : env) {struct l} : option (list tk) :=
    match l with
    | [] => Some []
    | t :: l => match write t e, seq l e with Some a, Some b => Some (a ++ b) | _, _ => None end
    end in
  match t with
  | TTok t => Some [W t]
  | TVar x =>
      match find_var x e with
      | Some (BOne t) => Some [t]
      | Some (BMany _) => None
      | None => Some [W (TOp "$"); W (TId x)]
      end
  | TGrp d l => option_map (fun l => [G d l]) (seq l e)
  | TCall c m d l => option_map (fun l => [C c m d l]) (seq l e)
  | TRep l sep =>
      let xs := flat_map tmpl_vars l in
      match how_often xs e with
      | Some n =>
          option_map (separated (match sep with Some s => [W s] | None => [] end))
            (all_some (map (fun k => seq l (kth xs e k)) (List.seq 0 n)))
      | None => None
      end
  end.
(** The same in sequence. [/repo/src/tagged_box_macro/mod.rs:5-831]. *)
Fixpoint write_seq (l : list tmpl) (e : env) : option (list tk) :=
  match l with
  | [] => Some []
  | t :: l => match write t e, write_seq l e with Some a, Some b => Some (a ++ b) | _, _ => None end
  end.

(** ** Expanding *)

Section Expanding.
(** As above. *)
Variable parse_ty : list tree -> ty_parse.

(** A call of a macro with these arms: the first that fits. [/repo/src/tagged_box_macro/mod.rs:5-832]. *)
Fixpoint apply_rules (rs : list rule) (args : list tk) : exp (list tk) :=
  match rs with
  | [] => Error
  | r :: rs =>
      match match_all parse_ty (r_pat r) args with
      | Match e => match write_seq (r_rhs r) e with Some out => Done out | None => Error end
      | Fatal => Error
      | NoMatch => apply_rules rs args
      end
  end.

(** The macros there are: those of [/repo/src/tagged_box_macro/mod.rs] and [/repo/src/tagged_box_macro/meta_macros.rs]. *)
Variable macros : list (string * list rule).

(** Auxiliary. For the macros of [/repo/src/tagged_box_macro/mod.rs:5-832]. *)
Fixpoint find_macro (m : string) (l : list (string * list rule)) : option (list rule) :=
  match l with [] => None | (m', rs) :: l => if String.eqb m m' then Some rs else find_macro m l end.

(** All calls in a piece of code; [call] is what becomes of one. Calls in the arguments of another
    macro are left to that one. [/repo/src/tagged_box_macro/mod.rs:739-831]. *)
Fixpoint expand_tk (call : bool -> string -> delim -> list tk -> exp (list tk)) (t : tk) {struct t} : exp (list tk) :=
  let seq := fix seq (l : list tk) {struct l} : exp (list tk) :=
    match l with
    | [] => Done []
    | t :: l => and_then (expand_tk call t) (fun a => and_then (seq l) (fun b => Done (a ++ b)))
    end in
  match t with
  | W t => Done [W t]
  | FTy t => Done [FTy t]
  | G d l => and_then (seq l) (fun l => Done [G d l])
  | F k l => and_then (seq l) (fun l => Done [F k l])
  | C c m d args => call c m d args
  end.
(** The same in sequence. [/repo/src/tagged_box_macro/mod.rs:739-831]. *)
Fixpoint expand_with (call : bool -> string -> delim -> list tk -> exp (list tk)) (l : list tk) : exp (list tk) :=
  match l with
  | [] => Done []
  | t :: l => and_then (expand_tk call t) (fun a => and_then (expand_with call l) (fun b => Done (a ++ b)))
  end.

(** Expands code until no call of the crate's macros is left, within a recursion limit. [compile_error!] is an
    error; other macros of the standard library stay. [/repo/src/tagged_box_macro/mod.rs:732-832]. *)
Fixpoint expand_all (limit : nat) (l : list tk) : exp (list tk) :=
  expand_with (fun c m d args =>
    match find_macro m macros with
    | Some rs => match limit with O => Limit | S n => and_then (apply_rules rs args) (expand_all n) end
    | None =>
        if String.eqb m "compile_error" then Message (match args with [W (TLit s)] => s | _ => "" end)
        else Done [C c m d args]
    end) l.

End Expanding.
