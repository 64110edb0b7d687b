(** The value of constant expressions of Rust as [__generate_const_sizes!] writes them: numbers, sums, products,
    [core::mem::size_of::<T>()], and blocks with a constant in it. Used to state C67. Not modelled in general: other operators,
    other statements, constants of another type than [usize]. *)
From Coq Require Import Arith NArith String Bool List.
From Verif Require Import Words Config Pointer Mem Box Macro Tokens Lexer MacroRules SpecText.
Import ListNotations.
Local Open Scope string_scope.
Local Open Scope list_scope.
Local Open Scope N_scope.

Section Value.
(** The width of [usize], and the sizes of the types. For [/repo/src/tagged_box_macro/mod.rs:169]. *)
Variable width : N.
Variable size : rty -> N.

(** Constants are computed by the compiler, for which an overflow is an error. For [/repo/src/tagged_box_macro/mod.rs:168-169]. *)
Definition in_usize (n : N) : option N := if n <? 2 ^ width then Some n else None.

(** Is the code at this place [text]? For the code in [/repo/src/tagged_box_macro/mod.rs:168-171]. *)
Fixpoint strip (text : list tree) (ts : list tk) : option (list tk) :=
  match text with
  | [] => Some ts
  | t :: text => match ts with W t' :: r => if leaf_eqb t t' then strip text r else None | _ => None end
  end.

(** The numbers that are written there, [/repo/src/tagged_box_macro/mod.rs:162], [169]. *)
Definition number (s : string) : option N :=
  if String.eqb s "0" then Some 0 else if String.eqb s "8" then Some 8 else None.

(** Its text, [/repo/src/tagged_box_macro/mod.rs:169]. *)
Definition size_of_text : list tree := Eval vm_compute in toks "core::mem::size_of::<".
(** Its text, [/repo/src/tagged_box_macro/mod.rs:169]. *)
Definition const_text : list tree := Eval vm_compute in toks "const".
(** Its text, [/repo/src/tagged_box_macro/mod.rs:169]. *)
Definition const_type_text : list tree := Eval vm_compute in toks ": usize =".

(** A number, the size of a type, or a block. [/repo/src/tagged_box_macro/mod.rs:162], [168-171]. *)
Definition atom (block : list tk -> option N) (ts : list tk) : option (N * list tk) :=
  match ts with
  | W (TLit s) :: r => option_map (fun v => (v, r)) (number s)
  | G Brace l :: r => option_map (fun v => (v, r)) (block l)
  | _ =>
      match strip size_of_text ts with
      | Some (FTy t :: W (TOp gt) :: G Paren [] :: r) => if String.eqb gt ">" then Some (size t, r) else None
      | _ => None
      end
  end.

(** [a * b * ..], after the first factor; [n] bounds the work. [/repo/src/tagged_box_macro/mod.rs:169]. *)
Fixpoint factors (block : list tk -> option N) (n : nat) (v : N) (ts : list tk) : option (N * list tk) :=
  match n with
  | O => None
  | S n =>
      match ts with
      | W (TOp o) :: r =>
          if String.eqb o "*" then
            match atom block r with
            | Some (w, r) => match in_usize (v * w) with Some v => factors block n v r | None => None end
            | None => None
            end
          else Some (v, ts)
      | _ => Some (v, ts)
      end
  end.
(** A product. [/repo/src/tagged_box_macro/mod.rs:169]. *)
Definition product (block : list tk -> option N) (n : nat) (ts : list tk) : option (N * list tk) :=
  match atom block ts with Some (v, r) => factors block n v r | None => None end.

(** [a + b + ..], after the first summand. [/repo/src/tagged_box_macro/mod.rs:168]. *)
Fixpoint summands (block : list tk -> option N) (n : nat) (v : N) (ts : list tk) : option (N * list tk) :=
  match n with
  | O => None
  | S n =>
      match ts with
      | W (TOp o) :: r =>
          if String.eqb o "+" then
            match product block (S n) r with
            | Some (w, r) => match in_usize (v + w) with Some v => summands block n v r | None => None end
            | None => None
            end
          else Some (v, ts)
      | _ => Some (v, ts)
      end
  end.
(** A sum. [/repo/src/tagged_box_macro/mod.rs:168]. *)
Definition sum (block : list tk -> option N) (n : nat) (ts : list tk) : option (N * list tk) :=
  match product block n ts with Some (v, r) => summands block n v r | None => None end.

(** What is in a block: a sum, or [const X: usize = sum; X]. [deep] bounds how deep blocks are nested.
    [/repo/src/tagged_box_macro/mod.rs:161-163], [168-171]. *)
Fixpoint block_value (deep : nat) (ts : list tk) : option N :=
  match deep with
  | O => None
  | S deep =>
      match strip const_text ts with
      | Some (W (TId x) :: r) =>
          match strip const_type_text r with
          | Some r =>
              match sum (block_value deep) (S (List.length r)) r with
              | Some (v, [W (TOp semi); W (TId y)]) => if String.eqb semi ";" && String.eqb x y then Some v else None
              | _ => None
              end
          | None => None
          end
      | Some _ => None
      | None => match sum (block_value deep) (S (List.length ts)) ts with Some (v, []) => Some v | _ => None end
      end
  end.

End Value.
