(** The macros of [CrateMacros.v], run by [MacroRules.v], generate the code of [SpecText.v]. *)
From Coq Require Import Arith NArith String Bool List Lia.
From Verif Require Import Words Config Pointer Mem Box Arms Macro Tokens SpecTokens TokensFacts Heads SpecHeads Lexer MacroRules
  MacroRulesFacts CrateMacros SpecText.
Import ListNotations.
Local Open Scope string_scope.
Local Open Scope list_scope.

(** ** Lists *)

Lemma separated_commas (ls : list (list tk)) : separated [W TComma] ls = commas ls.
Proof.
  induction ls as [|l ls IH]; [reflexivity|]. destruct ls as [|l' ls]; [reflexivity|].
  change (separated [W TComma] (l :: l' :: ls)) with (l ++ [W TComma] ++ separated [W TComma] (l' :: ls)). rewrite IH. reflexivity.
Qed.

Lemma commas_cons a b ls : commas (a :: b :: ls) = a ++ W TComma :: commas (b :: ls).
Proof. reflexivity. Qed.

Lemma plain_app a b : plain (a ++ b) = plain a ++ plain b.
Proof. apply flat_map_app. Qed.

Lemma plain_commas ls : plain (commas ls) = commas (map plain ls).
Proof.
  induction ls as [|l ls IH]; [reflexivity|]. destruct ls as [|l' ls]; [reflexivity|].
  cbn [map]. rewrite !commas_cons, plain_app. f_equal.
  change (plain (W TComma :: commas (l' :: ls))) with (W TComma :: plain (commas (l' :: ls))). rewrite IH. reflexivity.
Qed.

(** ** What code becomes when all calls in it are expanded *)

Section Text.
Variable parse : list tree -> ty_parse.
Hypothesis Hp : parser_ok parse.

Definition becomes (n : nat) (l out : list tk) : Prop :=
  exists l', expand_all parse the_macros n l = Done l' /\ plain l' = out.

Definition the_call (n : nat) (c : bool) (m : string) (d : delim) (args : list tk) : exp (list tk) :=
  match find_macro m the_macros with
  | Some rs => match n with O => Limit | S n => and_then (apply_rules parse rs args) (expand_all parse the_macros n) end
  | None =>
      if String.eqb m "compile_error" then Message (match args with [W (TLit s)] => s | _ => "" end)
      else Done [C c m d args]
  end.

Lemma expand_all_eq n l : expand_all parse the_macros n l = expand_with (the_call n) l.
Proof. destruct n; reflexivity. Qed.

Lemma expand_cons n t l : expand_all parse the_macros n (t :: l) =
  and_then (expand_tk (the_call n) t) (fun a => and_then (expand_all parse the_macros n l) (fun b => Done (a ++ b))).
Proof. rewrite !expand_all_eq. reflexivity. Qed.

Lemma expand_nil n : expand_all parse the_macros n [] = Done [].
Proof. destruct n; reflexivity. Qed.

Lemma expand_app n a b : expand_all parse the_macros n (a ++ b) =
  and_then (expand_all parse the_macros n a) (fun a => and_then (expand_all parse the_macros n b) (fun b => Done (a ++ b))).
Proof.
  induction a as [|t a IH]; cbn [app].
  - rewrite expand_nil. cbn [and_then]. destruct (expand_all parse the_macros n b); reflexivity.
  - rewrite !expand_cons, IH. destruct (expand_tk (the_call n) t); try reflexivity. cbn [and_then].
    destruct (expand_all parse the_macros n a); try reflexivity. cbn [and_then].
    destruct (expand_all parse the_macros n b); try reflexivity. cbn [and_then]. rewrite app_assoc. reflexivity.
Qed.

Lemma expand_G n d l : expand_tk (the_call n) (G d l) = and_then (expand_all parse the_macros n l) (fun l => Done [G d l]).
Proof.
  rewrite expand_all_eq. cbn [expand_tk]. f_equal. induction l as [|t l IH]; [reflexivity|]. cbn [expand_with]. rewrite <- IH. reflexivity.
Qed.
Lemma expand_F n k l : expand_tk (the_call n) (F k l) = and_then (expand_all parse the_macros n l) (fun l => Done [F k l]).
Proof.
  rewrite expand_all_eq. cbn [expand_tk]. f_equal. induction l as [|t l IH]; [reflexivity|]. cbn [expand_with]. rewrite <- IH. reflexivity.
Qed.

Lemma becomes_nil n : becomes n [] [].
Proof. exists []. rewrite expand_nil. auto. Qed.
Lemma becomes_app n a b oa ob : becomes n a oa -> becomes n b ob -> becomes n (a ++ b) (oa ++ ob).
Proof.
  intros (a' & Ha & <-) (b' & Hb & <-). exists (a' ++ b'). rewrite expand_app, Ha, Hb, plain_app. auto.
Qed.
Lemma becomes_cons n t l o ol : becomes n [t] o -> becomes n l ol -> becomes n (t :: l) (o ++ ol).
Proof. apply (becomes_app n [t] l). Qed.
Lemma becomes_W n t : becomes n [W t] (plain_tree t).
Proof. exists [W t]. rewrite expand_cons, expand_nil. split; [reflexivity|]. cbn. apply app_nil_r. Qed.
Lemma becomes_FTy n t : becomes n [FTy t] [FTy t].
Proof. exists [FTy t]. rewrite expand_cons, expand_nil. auto. Qed.
Lemma becomes_G n d l o : becomes n l o -> becomes n [G d l] [G d o].
Proof.
  intros (l' & H & <-). exists [G d l']. rewrite expand_cons, expand_nil, expand_G, H. auto.
Qed.
Lemma becomes_F n k l o : becomes n l o -> becomes n [F k l] o.
Proof.
  intros (l' & H & <-). exists [F k l']. rewrite expand_cons, expand_nil, expand_F, H. split; [reflexivity|]. cbn. apply app_nil_r.
Qed.
Lemma becomes_call n c m d args rs out o : find_macro m the_macros = Some rs -> apply_rules parse rs args = Done out ->
  becomes n out o -> becomes (S n) [C c m d args] o.
Proof.
  intros H1 H2 (l' & H & <-). exists l'. rewrite expand_cons, expand_nil. cbn [expand_tk]. unfold the_call. rewrite H1, H2.
  cbn [and_then]. rewrite H. cbn [and_then]. rewrite app_nil_r. auto.
Qed.
Lemma becomes_std n c m d args : find_macro m the_macros = None -> String.eqb m "compile_error" = false ->
  becomes n [C c m d args] (plain [C c m d args]).
Proof.
  intros H1 H2. exists [C c m d args]. rewrite expand_cons, expand_nil. cbn [expand_tk]. unfold the_call. rewrite H1, H2. auto.
Qed.
Lemma becomes_eq n l o o' : becomes n l o -> o = o' -> becomes n l o'.
Proof. intros H <-. exact H. Qed.

Lemma becomes_Ws n l : becomes n (map W l) (flat_map plain_tree l).
Proof. induction l as [|t l IH]; [apply becomes_nil|]. apply (becomes_cons n (W t) (map W l)); [apply becomes_W|exact IH]. Qed.

Lemma becomes_commas {A} n (f g : A -> list tk) l : (forall a, In a l -> becomes n (f a) (g a)) ->
  becomes n (commas (map f l)) (commas (map g l)).
Proof.
  induction l as [|a l IH]; intros H; [apply becomes_nil|]. destruct l as [|b l]; [apply H; left; reflexivity|].
  cbn [map]. rewrite !commas_cons. apply becomes_app; [apply H; left; reflexivity|].
  apply (becomes_cons n (W TComma) _ [W TComma]); [apply becomes_W|]. apply IH. intros c Hc. apply H. right. exact Hc.
Qed.

Lemma becomes_flat_map {A} n (f g : A -> list tk) l : (forall a, In a l -> becomes n (f a) (g a)) ->
  becomes n (flat_map f l) (flat_map g l).
Proof.
  induction l as [|a l IH]; intros H; [apply becomes_nil|]. cbn [flat_map]. apply becomes_app; [apply H; left; reflexivity|].
  apply IH. intros c Hc. apply H. right. exact Hc.
Qed.

Lemma becomes_types n l : becomes n (separated [W TComma] (map (fun t => [FTy t]) l)) (types l).
Proof. rewrite separated_commas. apply becomes_commas. intros t _. apply becomes_FTy. Qed.
Lemma becomes_names n (l : list (string * rty)) : becomes n (separated [W TComma] (map (fun b => [W (TId (fst b))]) l)) (ids (map fst l)).
Proof.
  rewrite separated_commas. unfold ids. rewrite map_map. apply becomes_commas. intros t _. apply becomes_W.
Qed.
Lemma becomes_members n (l : list (string * rty)) :
  becomes n (separated [W TComma] (map (fun b => [W (TId (fst b)); W TColon; FTy (snd b)]) l)) (members l).
Proof.
  rewrite separated_commas. apply becomes_commas. intros [m t] _. cbn [fst snd].
  apply (becomes_cons n (W (TId m)) _ [W (TId m)]); [apply becomes_W|].
  apply (becomes_cons n (W TColon) _ [W TColon]); [apply becomes_W|]. apply becomes_FTy.
Qed.

(** ** [__expand_tuple!] and [__expand_tuple_arm!] *)

(** The names of the types in their arms. *)
Definition letters : list string := Eval vm_compute in
  flat_map (fun p => match p with PVar x k => if String.eqb k "ty" then [x] else [] | _ => [] end)
    (match nth_error arms_expand_tuple 33 with Some r => r_pat r | None => [] end).
Definition letter_pats (ls : list string) : list pat := flat_map (fun x => [PTok TComma; PVar x "ty"]) ls.
Definition letter_toks (tys : list rty) : list tk := flat_map (fun t => [W TComma; FTy t]) tys.
Fixpoint letter_env (ls : list string) (tys : list rty) : env :=
  match ls, tys with x :: ls, t :: tys => (x, BOne (FTy t)) :: letter_env ls tys | _, _ => [] end.

Lemma letters_toks t tys : W TComma :: separated [W TComma] (map (fun t => [FTy t]) (t :: tys)) = letter_toks (t :: tys).
Proof.
  revert t. induction tys as [|u tys IH]; intros t; [reflexivity|].
  change (separated [W TComma] (map (fun t => [FTy t]) (t :: u :: tys))) with
    ([FTy t] ++ [W TComma] ++ separated [W TComma] (map (fun t => [FTy t]) (u :: tys))).
  change (letter_toks (t :: u :: tys)) with (W TComma :: FTy t :: letter_toks (u :: tys)). rewrite <- IH. reflexivity.
Qed.

Lemma match_letters ls : forall tys X, next_is TComma X = None ->
  match_seq parse (letter_pats ls) (letter_toks tys ++ X) =
  if Nat.leb (length ls) (length tys) then Match (letter_env ls tys, letter_toks (skipn (length ls) tys) ++ X) else NoMatch.
Proof.
  induction ls as [|x ls IH]; intros [|t tys] X HX.
  - reflexivity.
  - reflexivity.
  - cbn [letter_pats flat_map app letter_toks]. 
    change (match_seq parse (PTok TComma :: PVar x "ty" :: flat_map (fun x => [PTok TComma; PVar x "ty"]) ls) X) with
      (then_match (match next_is TComma X with Some r => Match ([], r) | None => NoMatch end)
         (match_seq parse (PVar x "ty" :: letter_pats ls))).
    rewrite HX. reflexivity.
  - change (match_seq parse (letter_pats (x :: ls)) (letter_toks (t :: tys) ++ X)) with
      (then_match (Match ([], FTy t :: letter_toks tys ++ X)) (fun l => then_match (match_pat parse (PVar x "ty") l) (match_seq parse (letter_pats ls)))).
    rewrite then_match_match.
    change (match_pat parse (PVar x "ty") (FTy t :: letter_toks tys ++ X)) with
      (Match ([(x, BOne (FTy t))], letter_toks tys ++ X) : mres (env * list tk)).
    rewrite then_match_match, IH by exact HX. cbn [length Nat.leb skipn letter_env].
    destruct (Nat.leb (length ls) (length tys)); reflexivity.
Qed.

Lemma find_letters y ls : forall tys e, existsb (String.eqb y) ls = false -> find_var y (letter_env ls tys ++ e) = find_var y e.
Proof.
  induction ls as [|x ls IH]; intros [|t tys] e H; try reflexivity. cbn [existsb] in H. apply orb_false_iff in H as [H1 H2].
  cbn [letter_env app find_var]. rewrite H1. apply IH. exact H2.
Qed.

Lemma letters_firstn y k : existsb (String.eqb y) letters = false -> existsb (String.eqb y) (firstn k letters) = false.
Proof.
  generalize letters. intros l. revert k. induction l as [|x l IH]; intros [|k] H; try reflexivity.
  cbn [existsb firstn] in *. apply orb_false_iff in H as [H1 H2]. rewrite H1. apply IH. exact H2.
Qed.

(** The arm with [k] types. *)
Fixpoint access_list (l : list nat) : list tree :=
  match l with
  | [] => []
  | [i] => [TId "tuple"; TOp "."; TLit (decimal i)]
  | i :: l => TId "tuple" :: TOp "." :: TLit (decimal i) :: TComma :: access_list l
  end.
Definition access_trees (idx : list nat) : list tree := access_list idx ++ (if Nat.leb 7 (length idx) then [TComma] else []).
Definition tuple_prefix : list pat := [PVar "variant" "path"; PTok TComma; PVar "expr" "expr"].
Definition tuple_rule (entry : nat * list nat) : rule :=
  Rule (tuple_prefix ++ letter_pats (firstn (fst entry) letters))
    [TGrp Brace [TTok (TId "let"); TTok (TId "tuple"); TTok (TOp "="); TVar "expr"; TTok (TOp ";"); TVar "variant";
                 TGrp Paren (map TTok (access_trees (snd entry)))]].
Definition tuple_zero : rule := Rule tuple_prefix [TVar "variant"; TGrp Paren []].
Definition tuple_zero' : rule := Rule (tuple_prefix ++ [PTok TComma]) [TVar "variant"; TGrp Paren []].
Definition tuple_error : rule :=
  Rule (tuple_prefix ++ [PTok TComma; PRep [PVar "others" "ty"] (Some TComma) false])
    [TCall false "compile_error" Paren [TTok (TLit "Only enum tuple variants of up to 32 elements are supported")]; TTok (TOp ";")].

Lemma expand_tuple_table : arms_expand_tuple = tuple_zero :: tuple_zero' :: map tuple_rule (tl expand_tuple_arms) ++ [tuple_error].
Proof. vm_compute. reflexivity. Qed.

Lemma written r e o o' : write_seq r e = Some o -> o = o' -> match write_seq r e with Some o => Done o | None => Error end = Done o'.
Proof. intros -> <-. reflexivity. Qed.

Lemma find_arm_tl {A} (k : nat) (a : A) r n : n <> k -> find_arm n ((k, a) :: r) = find_arm n r.
Proof. intros H. cbn [find_arm]. destruct (Nat.eqb_spec k n); [congruence|reflexivity]. Qed.

Lemma tuple_arms P X fp fx t tys tbl last :
  (forall Y, match_seq parse tuple_prefix (P ++ W TComma :: X ++ W TComma :: Y) =
     Match ([("variant", BOne fp); ("expr", BOne fx)], W TComma :: Y)) ->
  Forall (fun e => fst e <= length letters) tbl ->
  apply_rules parse (map tuple_rule tbl ++ last) (P ++ W TComma :: X ++ letter_toks (t :: tys)) =
  match find_arm (length (t :: tys)) tbl with
  | Some idx => Done [G Brace [W (TId "let"); W (TId "tuple"); W (TOp "="); fx; W (TOp ";"); fp; G Paren (map W (access_trees idx))]]
  | None => apply_rules parse last (P ++ W TComma :: X ++ letter_toks (t :: tys))
  end.
Proof.
  intros H. induction tbl as [|[k idx] tbl IH]; intros HF; [reflexivity|]. apply Forall_cons_iff in HF as [Hk HF]. cbn [fst] in Hk.
  change (map tuple_rule ((k, idx) :: tbl) ++ last) with (tuple_rule (k, idx) :: (map tuple_rule tbl ++ last)).
  unfold tuple_rule at 1. rewrite apply_cons, match_all_ended, match_seq_app.
  change (letter_toks (t :: tys)) with (W TComma :: FTy t :: letter_toks tys) at 1.
  rewrite H, then_match_match. change (W TComma :: FTy t :: letter_toks tys) with (letter_toks (t :: tys)).
  rewrite <- (app_nil_r (letter_toks (t :: tys))) at 1. rewrite match_letters by reflexivity. cbn [fst snd find_arm].
  rewrite firstn_length, Nat.min_l by exact Hk. destruct (Nat.eqb_spec k (length (t :: tys))) as [E|E].
  - subst k. rewrite Nat.leb_refl, skipn_all. cbn [letter_toks flat_map app ended arm].
    eapply written.
    { eapply write_cons; [|apply write_nil]. eapply write_grp.
      repeat (eapply write_cons; [first [apply write_tok | eapply write_var; reflexivity | eapply write_grp; apply write_toks]|]).
      apply write_nil. }
    reflexivity.
  - destruct (Nat.leb_spec k (length (t :: tys))) as [L|L].
    + destruct (skipn k (t :: tys)) as [|u l] eqn:S.
      { apply (f_equal (@length _)) in S. rewrite skipn_length in S. cbn [length] in *. lia. }
      cbn [letter_toks flat_map app ended arm]. apply IH. exact HF.
    + cbn [ended arm]. apply IH. exact HF.
Qed.

Lemma tuple_applied P X fp fx tys idx :
  (forall Y, match_seq parse tuple_prefix (P ++ W TComma :: X ++ W TComma :: Y) =
     Match ([("variant", BOne fp); ("expr", BOne fx)], W TComma :: Y)) ->
  expand_tuple tys = Some idx ->
  apply_rules parse arms_expand_tuple (P ++ W TComma :: X ++ W TComma :: separated [W TComma] (map (fun t => [FTy t]) tys)) =
  Done (match idx with
        | [] => [fp; G Paren []]
        | _ => [G Brace [W (TId "let"); W (TId "tuple"); W (TOp "="); fx; W (TOp ";"); fp; G Paren (map W (access_trees idx))]]
        end).
Proof.
  intros H E. rewrite expand_tuple_table. unfold tuple_zero, tuple_zero'.
  rewrite !apply_cons. rewrite (match_all_ended parse tuple_prefix), (match_all_ended parse (tuple_prefix ++ [PTok TComma])), match_seq_app, !H, then_match_match.
  change (match_seq parse [PTok TComma] (W TComma :: separated [W TComma] (map (fun t => [FTy t]) tys))) with
    (Match ([], separated [W TComma] (map (fun t => [FTy t]) tys)) : mres (env * list tk)).
  destruct tys as [|t tys].
  - injection E as <-. reflexivity.
  - rewrite letters_toks.
    assert (N : exists a l, separated [W TComma] (map (fun t => [FTy t]) (t :: tys)) = a :: l) by (destruct tys; cbn; eauto).
    destruct N as (a & l & N). rewrite N. cbn [ended arm].
    rewrite tuple_arms with (fp := fp) (fx := fx); [|exact H|repeat constructor; cbn; lia].
    unfold expand_tuple in E. change expand_tuple_arms with ((0, []) :: tl expand_tuple_arms) in E.
    rewrite find_arm_tl in E by discriminate. rewrite E. destruct idx as [|i idx]; [|reflexivity].
    exfalso. revert E. clear. generalize (length (t :: tys)). intros n.
    change (find_arm n (tl expand_tuple_arms) = Some [] -> False).
    assert (Q : forall tbl : list (nat * list nat), forallb (fun e => match snd e with [] => false | _ => true end) tbl = true ->
      find_arm n tbl = Some [] -> False).
    { induction tbl as [|[k a] tbl IH]; cbn [forallb find_arm snd]; [discriminate|]. intros Q. apply andb_true_iff in Q as [Q1 Q2].
      destruct (Nat.eqb k n); [|apply IH; exact Q2]. intros E. injection E as ->. discriminate Q1. }
    apply Q. reflexivity.
Qed.

Lemma times_tys x : forall tys n b t X, length tys < n -> next_is TComma X = None ->
  times (match_seq parse [PVar x "ty"]) (Some TComma) n b (FTy t :: letter_toks tys ++ X) = Match (map (ty_env x) (t :: tys), X).
Proof.
  induction tys as [|u tys IH]; intros [|n] b t X Hn HX; try (exfalso; cbn [length] in Hn; lia); rewrite times_S;
    change (match_seq parse [PVar x "ty"] (FTy t :: ?l)) with (Match (ty_env x t, l) : mres (env * list tk)); cbv zeta beta iota.
  - cbn [letter_toks flat_map app]. rewrite HX. reflexivity.
  - cbn [letter_toks flat_map app]. change (next_is TComma (W TComma :: ?l)) with (Some l). cbv iota. cbn [length] in Hn.
    fold (letter_toks tys). rewrite (IH n true u X) by (try exact HX; lia). reflexivity.
Qed.

Lemma match_tys x t tys X : next_is TComma X = None ->
  match_pat parse (PRep [PVar x "ty"] (Some TComma) false) (FTy t :: letter_toks tys ++ X) = Match ([(x, tys_bnd (t :: tys))], X).
Proof.
  intros HX. rewrite match_rep, times_tys; [|cbn [length]; rewrite app_length; enough (length tys <= length (letter_toks tys)) by lia;
    clear; induction tys; cbn [letter_toks flat_map app length] in *; [lia|]; fold (letter_toks tys); lia|exact HX].
  cbn [flat_map pat_vars app]. unfold repeated. rewrite collect_types. reflexivity.
Qed.

Definition arm_prefix : list pat :=
  [PVar "tagged" "expr"; PTok TComma; PVar "enum" "ident"; PTok TComma; PVar "counter" "ident"; PTok TComma; PVar "variant" "ident"].
Definition arm_suffix : list pat :=
  [PGroup Bracket [PRep [PVar "finished" "tt"] None false]; PGroup Bracket [PRep [PVar "rest" "tt"] None false];
   PRep [PVar "ty" "ty"] (Some TComma) false].
Definition into_call (l : list tmpl) : list tmpl :=
  [TCall true "__taggable_into_box" Paren
     [TTok TAt; TTok (TId "inner"); TVar "tagged"; TTok TComma; TVar "enum"; TTok TComma; TVar "counter";
      TGrp Bracket (TRep [TVar "finished"] None :: TVar "enum" :: TTok (TOp "::") :: TVar "variant" :: l); TRep [TVar "rest"] None]].
Definition arm_tag : list tmpl := [TVar "counter"; TTok (TOp "::"); TVar "variant"; TTok (TId "as"); TTok (TId "u8")].
Fixpoint name_trees (l : list string) : list tree :=
  match l with
  | [] => []
  | [i] => [TId i]
  | i :: l => TId i :: TComma :: name_trees l
  end.
Definition arm_rule (entry : nat * (list string * list string)) : rule :=
  Rule (arm_prefix ++ letter_pats (firstn (fst entry) letters) ++ arm_suffix)
    (into_call
      [TGrp Paren (map TTok (name_trees (fst (snd entry)))); TTok (TOp "=>");
       TGrp Brace
         [TTok (TOp "#"); TGrp Bracket [TTok (TId "repr"); TGrp Paren [TTok (TId "C")]];
          TTok (TId "struct"); TVar "variant"; TGrp Paren [TRep [TVar "ty"] (Some TComma)]; TTok (TOp ";");
          TTok (TOp "$crate"); TTok (TOp "::"); TTok (TId "TaggedBox"); TTok (TOp "::"); TTok (TId "new"); TTok (TOp "::");
          TTok (TOp "<"); TVar "variant"; TTok (TOp ">");
          TGrp Paren (TVar "variant" :: TGrp Paren (map TTok (name_trees (snd (snd entry)))) :: TTok TComma :: arm_tag)]]).
Definition arm_zero_rhs : list tmpl :=
  into_call
    [TGrp Paren []; TTok (TOp "=>"); TTok (TOp "$crate"); TTok (TOp "::"); TTok (TId "TaggedBox"); TTok (TOp "::");
     TTok (TOp "<"); TVar "enum"; TTok (TOp ">"); TTok (TOp "::"); TTok (TId "dangling"); TTok (TOp "::");
     TTok (TOp "<"); TVar "enum"; TTok (TOp ">"); TGrp Paren arm_tag; TTok TComma].
Definition arm_zero : rule := Rule (arm_prefix ++ arm_suffix) arm_zero_rhs.
Definition arm_zero' : rule := Rule (arm_prefix ++ PTok TComma :: arm_suffix) arm_zero_rhs.
Definition arm_error : rule :=
  Rule (arm_prefix ++
    [PTok TComma; PRep [PVar "others" "ty"] (Some TComma) false;
     PGroup Bracket [PRep [PVar "finished" "tt"] None false]; PGroup Bracket [PRep [PVar "rest" "tt"] None false]])
    [TCall false "compile_error" Paren [TTok (TLit "Only enum tuple variants of up to 32 elements are supported")]; TTok (TOp ";")].

Lemma expand_tuple_arm_table :
  arms_expand_tuple_arm = arm_zero :: arm_zero' :: map arm_rule (tl expand_tuple_arm_arms) ++ [arm_error].
Proof. vm_compute. reflexivity. Qed.

(** The tokens of the call. *)
Definition arm_args (fx : tk) (e c v : string) (tys : list rty) (fin rest : list tk) : list tk :=
  [fx; W TComma; W (TId e); W TComma; W (TId c); W TComma; W (TId v); W TComma] ++ separated [W TComma] (map (fun t => [FTy t]) tys) ++
  G Bracket fin :: G Bracket rest :: separated [W TComma] (map (fun t => [FTy t]) tys).
Definition arm_env (fx : tk) (e c v : string) : env :=
  [("tagged", BOne fx); ("enum", BOne (W (TId e))); ("counter", BOne (W (TId c))); ("variant", BOne (W (TId v)))].
Definition is_expr (fx : tk) : Prop := exists x, fx = F "expr" x.

Lemma match_arm_prefix fx e c v Y : is_expr fx ->
  match_seq parse arm_prefix (fx :: W TComma :: W (TId e) :: W TComma :: W (TId c) :: W TComma :: W (TId v) :: Y) =
  Match (arm_env fx e c v, Y).
Proof. intros (x & ->). reflexivity. Qed.

(** The arm for the match, and what comes before and after it. *)
Definition again (fx : tk) (e c : string) (fin code rest : list tk) : list tk :=
  [C true "__taggable_into_box" Paren
     ([W TAt; W (TId "inner"); fx; W TComma; W (TId e); W TComma; W (TId c); G Bracket (fin ++ code)] ++ rest)].
Definition tag_tks (c v : string) : list tk := [W (TId c); W (TOp "::"); W (TId v); W (TId "as"); W (TId "u8")].
Definition empty_code (e c v : string) : list tk :=
  [W (TId e); W (TOp "::"); W (TId v); G Paren []; W (TOp "=>"); W (TOp "$crate"); W (TOp "::"); W (TId "TaggedBox"); W (TOp "::");
   W (TOp "<"); W (TId e); W (TOp ">"); W (TOp "::"); W (TId "dangling"); W (TOp "::");
   W (TOp "<"); W (TId e); W (TOp ">"); G Paren (tag_tks c v); W TComma].
Definition several_code (e c v : string) (tys : list rty) (pat args : list string) : list tk :=
  [W (TId e); W (TOp "::"); W (TId v); G Paren (map W (name_trees pat)); W (TOp "=>");
   G Brace
     [W (TOp "#"); G Bracket [W (TId "repr"); G Paren [W (TId "C")]];
      W (TId "struct"); W (TId v); G Paren (separated [W TComma] (map (fun t => [FTy t]) tys)); W (TOp ";");
      W (TOp "$crate"); W (TOp "::"); W (TId "TaggedBox"); W (TOp "::"); W (TId "new"); W (TOp "::");
      W (TOp "<"); W (TId v); W (TOp ">");
      G Paren (W (TId v) :: G Paren (map W (name_trees args)) :: W TComma :: tag_tks c v)]].

Ltac find_it :=
  first [ reflexivity
        | unfold arm_env; cbn [app find_var String.eqb Ascii.eqb Bool.eqb];
          rewrite find_letters by (apply letters_firstn; reflexivity); reflexivity ].

Lemma match_suffix fin rest t tys : match_seq parse arm_suffix (G Bracket fin :: G Bracket rest :: FTy t :: letter_toks tys) =
  Match ([("finished", BMany (map BOne fin)); ("rest", BMany (map BOne rest)); ("ty", tys_bnd (t :: tys))], []).
Proof.
  unfold arm_suffix. rewrite match_finished, then_match_match, match_finished, then_match_match, match_one.
  rewrite <- (app_nil_r (letter_toks tys)), match_tys by reflexivity. reflexivity.
Qed.

Lemma separated_tys t tys : separated [W TComma] (map (fun t => [FTy t]) (t :: tys)) = FTy t :: letter_toks tys.
Proof. pose proof (letters_toks t tys) as E. injection E as E. exact E. Qed.

Lemma arm_arms fx e c v t tys fin rest tbl last : is_expr fx ->
  Forall (fun e => fst e <= length letters) tbl ->
  apply_rules parse (map arm_rule tbl ++ last) (arm_args fx e c v (t :: tys) fin rest) =
  match find_arm (length (t :: tys)) tbl with
  | Some (pat, args) => Done (again fx e c fin (several_code e c v (t :: tys) pat args) rest)
  | None => apply_rules parse last (arm_args fx e c v (t :: tys) fin rest)
  end.
Proof.
  intros Hx. induction tbl as [|[k [pat args]] tbl IH]; intros HF; [reflexivity|]. apply Forall_cons_iff in HF as [Hk HF]. cbn [fst] in Hk.
  change (map arm_rule ((k, (pat, args)) :: tbl) ++ last) with (arm_rule (k, (pat, args)) :: (map arm_rule tbl ++ last)).
  unfold arm_rule at 1. rewrite apply_cons, match_all_ended, match_seq_app. cbn [fst snd].
  assert (M : match_seq parse arm_prefix (arm_args fx e c v (t :: tys) fin rest) =
    Match (arm_env fx e c v, letter_toks (t :: tys) ++ G Bracket fin :: G Bracket rest :: FTy t :: letter_toks tys)).
  { unfold arm_args. rewrite separated_tys. cbn [app]. rewrite match_arm_prefix by exact Hx. reflexivity. }
  rewrite M, then_match_match, match_seq_app, match_letters by reflexivity. cbn [find_arm].
  rewrite firstn_length, Nat.min_l by exact Hk. destruct (Nat.eqb_spec k (length (t :: tys))) as [E|E].
  - subst k. rewrite Nat.leb_refl, skipn_all. cbn [letter_toks flat_map app]. rewrite then_match_match.
    fold (letter_toks tys). rewrite match_suffix. cbn [then_match ended arm].
    eapply written.
    { unfold into_call, arm_tag. write_with find_it. }
    rewrite !app_nil_r. reflexivity.
  - destruct (Nat.leb_spec k (length (t :: tys))) as [L|L].
    + destruct (skipn k (t :: tys)) as [|u l] eqn:S.
      { apply (f_equal (@length _)) in S. rewrite skipn_length in S. cbn [length] in *. lia. }
      rewrite then_match_match.
      change (match_seq parse arm_suffix (letter_toks (u :: l) ++ ?Z)) with (NoMatch : mres (env * list tk)).
      cbn [ended arm]. apply IH. exact HF.
    + cbn [ended arm]. apply IH. exact HF.
Qed.

Definition arm_of (v : string) (e c : string) (tys : list rty) : option (list tk) :=
  match tys with
  | [] => Some (empty_code e c v)
  | _ => option_map (fun '(pat, args) => several_code e c v tys pat args) (find_arm (length tys) expand_tuple_arm_arms)
  end.

Lemma arm_applied fx e c v tys fin rest : is_expr fx ->
  apply_rules parse arms_expand_tuple_arm (arm_args fx e c v tys fin rest) =
  match arm_of v e c tys with Some code => Done (again fx e c fin code rest) | None => Error end.
Proof.
  intros Hx. rewrite expand_tuple_arm_table. unfold arm_zero, arm_zero'. rewrite !apply_cons.
  rewrite (match_all_ended parse (arm_prefix ++ arm_suffix)), (match_all_ended parse (arm_prefix ++ PTok TComma :: arm_suffix)), !match_seq_app.
  assert (M : match_seq parse arm_prefix (arm_args fx e c v tys fin rest) =
    Match (arm_env fx e c v, W TComma :: separated [W TComma] (map (fun t => [FTy t]) tys) ++
      G Bracket fin :: G Bracket rest :: separated [W TComma] (map (fun t => [FTy t]) tys))).
  { unfold arm_args. cbn [app]. apply match_arm_prefix. exact Hx. }
  rewrite M, !then_match_match.
  change (match_seq parse arm_suffix (W TComma :: ?Z)) with (NoMatch : mres (env * list tk)). cbn [ended arm].
  destruct tys as [|t tys].
  - cbn [map separated app].
    change (match_seq parse (PTok TComma :: arm_suffix) [W TComma; G Bracket fin; G Bracket rest]) with
      (then_match (Match ([], G Bracket fin :: [G Bracket rest])) (match_seq parse arm_suffix)).
    rewrite then_match_match. unfold arm_suffix. rewrite match_finished, then_match_match, match_finished, then_match_match, match_one.
    rewrite match_rep, times_S. change (match_seq parse [PVar "ty" "ty"] []) with (match_seq parse [PVar "ty" "ty"] (map W [])).
    rewrite (match_ty parse), (proj1 Hp). cbn [repeated then_match ended arm].
    eapply written.
    { unfold arm_zero_rhs, into_call, arm_tag. write_with ltac:(reflexivity). }
    rewrite !app_nil_r. reflexivity.
  - rewrite separated_tys.
    change (match_seq parse (PTok TComma :: arm_suffix) (W TComma :: (FTy t :: letter_toks tys) ++ ?Z)) with (NoMatch : mres (env * list tk)).
    cbn [ended arm]. rewrite arm_arms; [|exact Hx|repeat constructor; cbn; lia].
    unfold arm_of. change expand_tuple_arm_arms with ((0, ([], [])) :: tl expand_tuple_arm_arms).
    rewrite (find_arm_tl 0 ([], []) (tl expand_tuple_arm_arms) (length (t :: tys))) by discriminate.
    change (tl ((0, ([], [])) :: tl expand_tuple_arm_arms)) with (tl expand_tuple_arm_arms).
    destruct (find_arm (length (t :: tys)) (tl expand_tuple_arm_arms)) as [[pat args]|]; [reflexivity|]. cbn [option_map].
    unfold arm_error. rewrite apply_cons, match_all_ended, match_seq_app.
    assert (M' : match_seq parse arm_prefix (arm_args fx e c v (t :: tys) fin rest) =
      Match (arm_env fx e c v, W TComma :: FTy t :: letter_toks tys ++ G Bracket fin :: G Bracket rest :: FTy t :: letter_toks tys)).
    { unfold arm_args. rewrite separated_tys. cbn [app]. apply match_arm_prefix. exact Hx. }
    rewrite M', then_match_match.
    change (match_seq parse (PTok TComma :: ?a :: ?q) (W TComma :: ?Z)) with
      (then_match (Match ([], Z)) (fun l' => then_match (match_pat parse a l') (match_seq parse q))).
    rewrite then_match_match, match_tys by reflexivity. rewrite then_match_match.
    rewrite match_finished, then_match_match, match_finished, then_match_match, match_nil. reflexivity.
Qed.

(** ** The munchers *)

Definition as_done (o : option (list tk)) : exp (list tk) := match o with Some o => Done o | None => Error end.
Definition coll (x : string) : pat := PGroup Bracket [PRep [PVar x "tt"] None false].
Definition p_suffix (body : list pat) (r : string) : list pat := PVar "variant" "ident" :: body ++ [PTok TComma; PRep [PVar r "tt"] None false].
Definition pb_single : list pat := [PGroup Paren [PVar "ty" "ty"]].
Definition pb_tuple : list pat := [PGroup Paren [PRep [PVar "ty" "ty"] (Some TComma) false]].
Definition pb_struct (m : string) : list pat := [PGroup Brace [PRep [PVar m "ident"; PTok TColon; PVar "ty" "ty"] (Some TComma) false]].
Definition pb_struct_comma (m : string) : list pat := [PGroup Brace [PRep [PVar m "ident"; PTok TColon; PVar "ty" "ty"; PTok TComma] None false]].

Lemma match_coll {A} pre x suf toks e fin ts (f : A -> env) m :
  match_seq parse pre (toks ++ G Bracket fin :: map W ts) = Match (e, G Bracket fin :: map W ts) ->
  match_seq parse suf (map W ts) = to_env f m ->
  match_all parse (pre ++ coll x :: suf) (toks ++ G Bracket fin :: map W ts) =
  mmap (fun a => e ++ (x, BMany (map BOne fin)) :: f a) m.
Proof.
  intros H1 H2. unfold coll. rewrite match_all_ended, match_seq_app, H1, then_match_match, match_finished, then_match_match, H2.
  destruct m; reflexivity.
Qed.

Lemma match_stop pre x toks e fin ts :
  match_seq parse pre (toks ++ G Bracket fin :: map W ts) = Match (e, G Bracket fin :: map W ts) ->
  match_all parse (pre ++ [coll x]) (toks ++ G Bracket fin :: map W ts) =
  mmap (fun _ => e ++ [(x, BMany (map BOne fin))]) (p_end ts).
Proof.
  intros H1. unfold coll. rewrite match_all_ended, match_seq_app, H1, then_match_match, match_finished, then_match_match, match_nil.
  destruct ts; reflexivity.
Qed.

Lemma applied5 pre toks e fin ts x1 x2 x3 x4 x5 m r1 r2 r3 r4 r5 more : m <> "ty" ->
  match_seq parse pre (toks ++ G Bracket fin :: map W ts) = Match (e, G Bracket fin :: map W ts) ->
  apply_rules parse
    (Rule (pre ++ coll x1 :: p_suffix pb_single "rest") r1 ::
     Rule (pre ++ coll x2 :: p_suffix pb_tuple "rest") r2 ::
     Rule (pre ++ coll x3 :: p_suffix (pb_struct m) "rest") r3 ::
     Rule (pre ++ coll x3 :: p_suffix (pb_struct_comma m) "rest") r3 ::
     Rule (pre ++ coll x4 :: p_suffix [] "rest") r4 ::
     Rule (pre ++ [coll x5]) r5 :: more) (toks ++ G Bracket fin :: map W ts) =
  let f x := (x, BMany (map BOne fin)) in
  match step parse ts with
  | SVar v (KTuple [t]) rest => as_done (write_seq r1 (e ++ f x1 :: single_env "variant" "ty" "rest" (v, t, rest)))
  | SVar v (KTuple tys) rest => as_done (write_seq r2 (e ++ f x2 :: tuple_env "variant" "ty" "rest" (v, tys, rest)))
  | SVar v (KStruct ms) rest => as_done (write_seq r3 (e ++ f x3 :: struct_env "variant" m "ty" "rest" (v, ms, rest)))
  | SVar v KUnit rest => as_done (write_seq r4 (e ++ f x4 :: unit_env "variant" "rest" (v, rest)))
  | SEnd => as_done (write_seq r5 (e ++ [f x5]))
  | SStuck => apply_rules parse more (toks ++ G Bracket fin :: map W ts)
  | SFatal => Error
  end.
Proof.
  intros Hm H. rewrite !apply_cons.
  rewrite (match_coll pre x1 (p_suffix pb_single "rest") toks e fin ts _ _ H (match_single parse "variant" "ty" "rest" ts)).
  rewrite (match_coll pre x2 (p_suffix pb_tuple "rest") toks e fin ts _ _ H (match_tuple parse Hp "variant" "ty" "rest" ts)).
  rewrite (match_coll pre x3 (p_suffix (pb_struct m) "rest") toks e fin ts _ _ H (match_struct parse Hp "variant" m "ty" "rest" ts Hm)).
  rewrite (match_coll pre x3 (p_suffix (pb_struct_comma m) "rest") toks e fin ts _ _ H (match_struct_comma parse Hp "variant" m "ty" "rest" ts Hm)).
  rewrite (match_coll pre x4 (p_suffix [] "rest") toks e fin ts _ _ H (match_unit parse "variant" "rest" ts)).
  rewrite (match_stop pre x5 toks e fin ts H). rewrite !arm_mmap. cbv zeta.
  rewrite <- (munch5 parse ts (fun v t rest => _) (fun v tys rest => _) (fun v ms rest => _) (fun v rest => _) _ _ Hp).
  unfold arm.
  destruct (p_single parse ts) as [| |[[v t] rest]]; try reflexivity.
  destruct (p_tuple parse ts) as [| |[[v tys] rest]]; try reflexivity.
  destruct (p_struct parse ts) as [| |[[v ms] rest]]; try reflexivity.
  destruct (p_struct_comma parse ts) as [| |[[v ms] rest]]; try reflexivity.
  destruct (p_unit ts) as [| |[v rest]]; reflexivity.
Qed.

Lemma applied4 pre toks e fin ts x2 x3 x4 m r2 r3 r4 more : m <> "ty" ->
  match_seq parse pre (toks ++ G Bracket fin :: map W ts) = Match (e, G Bracket fin :: map W ts) ->
  apply_rules parse
    (Rule (pre ++ coll x2 :: p_suffix pb_tuple "rest") r2 ::
     Rule (pre ++ coll x3 :: p_suffix (pb_struct m) "rest") r3 ::
     Rule (pre ++ coll x3 :: p_suffix (pb_struct_comma m) "rest") r3 ::
     Rule (pre ++ coll x4 :: p_suffix [] "rest") r4 :: more) (toks ++ G Bracket fin :: map W ts) =
  let f x := (x, BMany (map BOne fin)) in
  match step parse ts with
  | SVar v (KTuple tys) rest => as_done (write_seq r2 (e ++ f x2 :: tuple_env "variant" "ty" "rest" (v, tys, rest)))
  | SVar v (KStruct ms) rest => as_done (write_seq r3 (e ++ f x3 :: struct_env "variant" m "ty" "rest" (v, ms, rest)))
  | SVar v KUnit rest => as_done (write_seq r4 (e ++ f x4 :: unit_env "variant" "rest" (v, rest)))
  | SEnd | SStuck => apply_rules parse more (toks ++ G Bracket fin :: map W ts)
  | SFatal => Error
  end.
Proof.
  intros Hm H. rewrite !apply_cons.
  rewrite (match_coll pre x2 (p_suffix pb_tuple "rest") toks e fin ts _ _ H (match_tuple parse Hp "variant" "ty" "rest" ts)).
  rewrite (match_coll pre x3 (p_suffix (pb_struct m) "rest") toks e fin ts _ _ H (match_struct parse Hp "variant" m "ty" "rest" ts Hm)).
  rewrite (match_coll pre x3 (p_suffix (pb_struct_comma m) "rest") toks e fin ts _ _ H (match_struct_comma parse Hp "variant" m "ty" "rest" ts Hm)).
  rewrite (match_coll pre x4 (p_suffix [] "rest") toks e fin ts _ _ H (match_unit parse "variant" "rest" ts)).
  rewrite !arm_mmap. cbv zeta. unfold step, arm.
  destruct (p_tuple parse ts) as [| |[[v tys] rest]]; try reflexivity.
  destruct (p_struct parse ts) as [| |[[v ms] rest]]; try reflexivity.
  destruct (p_struct_comma parse ts) as [| |[[v ms] rest]]; try reflexivity.
  destruct (p_unit ts) as [| |[v rest]]; try reflexivity. destruct ts; reflexivity.
Qed.

(** ** Collecting *)

Lemma collector (name : string) (d : delim) (rs : list rule) (args : list tk -> list tree -> list tk) (tail : list tk)
    (spec : string -> vkind -> list tk) (cost : vkind -> nat) (final : list tk -> list tk) vs0 :
  find_macro name the_macros = Some rs ->
  (forall v k, In (v, k) vs0 -> forall fin ts rest, step parse ts = SVar v k rest ->
     exists code, apply_rules parse rs (args fin ts) = Done (C true name d (args (fin ++ code) rest) :: tail) /\
       forall n, cost k <= n -> becomes n code (spec v k)) ->
  (forall n, becomes n tail tail) ->
  (forall n fin o, becomes n fin o -> becomes (S n) [C true name d (args fin [])] (final o)) ->
  forall vs ts fin n o, incl vs vs0 -> variant_list parse ts vs -> (forall v k, In (v, k) vs -> cost k <= n) -> becomes n fin o ->
  becomes (length vs + S n) [C true name d (args fin ts)]
    (final (o ++ flat_map (fun vk => spec (fst vk) (snd vk)) vs) ++ concat (repeat tail (length vs))).
Proof.
  intros Hm Hs Ht Hf. induction vs as [|[v k] vs IH]; intros ts fin n o HI L Hc Ho; apply (variant_list_step parse Hp) in L.
  - apply (step_end parse) in L. subst ts. cbn [flat_map length repeat concat]. rewrite !app_nil_r. apply Hf. exact Ho.
  - destruct L as (rest & S & L). destruct (Hs v k (HI _ (or_introl eq_refl)) fin ts rest S) as (code & A & B).
    cbn [length plus]. eapply becomes_call; [exact Hm|exact A|].
    cbn [repeat concat flat_map fst snd]. rewrite (app_assoc o).
    pose proof (IH rest (fin ++ code) n (o ++ spec v k)) as I.
    assert (Q : forall m, concat (repeat tail m) ++ tail = tail ++ concat (repeat tail m)).
    { clear. induction m as [|m IH]; cbn [repeat concat]; [rewrite app_nil_r; reflexivity|]. rewrite <- app_assoc, IH. reflexivity. }
    rewrite <- Q, app_assoc. apply (becomes_cons _ (C true name d (args (fin ++ code) rest))); [|apply Ht].
    apply I.
    + intros x Hx. apply HI. right. exact Hx.
    + exact L.
    + intros v' k' Hk. apply (Hc v' k'). right. exact Hk.
    + apply becomes_app; [exact Ho|]. apply B. apply (Hc v k). left. reflexivity.
Qed.

Lemma upto_app X Y : Forall (fun t => t <> W TComma) X -> upto_comma (X ++ W TComma :: Y) = (X, W TComma :: Y).
Proof.
  induction X as [|t X IH]; intros H; [reflexivity|]. apply Forall_cons_iff in H as [H1 H2]. cbn [app upto_comma]. rewrite IH by exact H2.
  destruct t as [[]| | | |]; try reflexivity. contradiction H1. reflexivity.
Qed.

(** A call of [__expand_tuple!]. *)
Lemma becomes_tuple n d P X fp fx path expr tys idx :
  (forall Y, match_seq parse tuple_prefix (P ++ W TComma :: X ++ W TComma :: Y) =
     Match ([("variant", BOne fp); ("expr", BOne fx)], W TComma :: Y)) ->
  expand_tuple tys = Some idx -> becomes n [fp] path -> becomes n [fx] expr ->
  becomes (S n) [C true "__expand_tuple" d (P ++ W TComma :: X ++ W TComma :: separated [W TComma] (map (fun t => [FTy t]) tys))]
    (from_fields path expr idx).
Proof.
  intros H E B1 B2. eapply becomes_call; [reflexivity|apply (tuple_applied P X fp fx tys idx H E)|].
  destruct idx as [|i idx].
  - apply (becomes_cons n fp [G Paren []]); [exact B1|]. apply becomes_G, becomes_nil.
  - apply becomes_eq with (o := [G Brace ([W (TId "let"); W (TId "tuple"); W (TOp "=")] ++ expr ++ [W (TOp ";")] ++ path ++
                                            [G Paren (accesses (i :: idx))])] ).
    + apply becomes_G. repeat (apply (becomes_cons n (W _) _ [W _]); [apply becomes_W|]).
      apply (becomes_cons n fx); [exact B2|].  apply (becomes_cons n (W _) _ [W _]); [apply becomes_W|].
      apply (becomes_cons n fp); [exact B1|]. apply becomes_G.
      eapply becomes_eq; [apply becomes_Ws|].
      unfold access_trees, accesses. rewrite flat_map_app. f_equal; [|destruct (Nat.leb 7 (length (i :: idx))); reflexivity].
      generalize (i :: idx). clear. intros l. induction l as [|a l IH]; [reflexivity|]. destruct l as [|j l]; [reflexivity|].
      change (flat_map plain_tree (access_list (a :: j :: l))) with
        ([W (TId "tuple"); W (TOp "."); W (TLit (decimal a))] ++ W TComma :: flat_map plain_tree (access_list (j :: l))).
      rewrite IH. reflexivity.
    + unfold from_fields, filled. cbn [fields_text flat_map fill lookup String.eqb Ascii.eqb Bool.eqb app]. rewrite !app_nil_r. reflexivity.
Qed.

End Text.
