(** What is no definition is not expanded. *)
From Coq Require Import Arith NArith String Ascii Bool List Lia.
From Verif Require Import Words Config Pointer Mem Box Arms Macro MacroFacts Tokens SpecTokens TokensFacts Heads SpecHeads Props_Heads Props_Tokens
  Lexer MacroRules MacroRulesFacts CrateMacros SpecText TextFacts TextMacros TextParts TextEnums TextWhole.
Import ListNotations.
Local Open Scope string_scope.
Local Open Scope list_scope.

(** ** The lexer takes no underscore for a name *)

Definition named (t : tree) : Prop := t <> TId "_".

Lemma word_named r : named (word_token r).
Proof.
  unfold named, word_token. destruct (List.rev r) as [|c l] eqn:E; [discriminate|]. destruct (is_digit c); [discriminate|].
  assert (T : text r = String c (string_of_list_ascii l)) by (unfold text; rewrite E; reflexivity).
  destruct l as [|c' l].
  - destruct (Ascii.eqb_spec c "_") as [->|N]; [discriminate|]. intros H. injection H as H. rewrite T in H. injection H as H. contradiction.
  - intros H. injection H as H. rewrite T in H. discriminate H.
Qed.

Definition all_named (st : lexing) : Prop := Forall named (lx_group st) /\ Forall (fun a => Forall named (snd a)) (lx_around st).

Lemma fresh_named st c st' : all_named st -> fresh st c = Some st' -> all_named st'.
Proof.
  intros [H1 H2] H. unfold fresh in H.
  assert (O : forall d, all_named (open_group d st)) by (intros d; split; [constructor|constructor; [exact H1|exact H2]]).
  assert (B : forall b, all_named (begin b st)) by (intros b; split; [exact H1|exact H2]).
  assert (K : forall d, close_group d st = Some st' -> all_named st').
  { intros d K. unfold close_group in K. destruct (lx_around st) as [|[d' l] around]; [discriminate K|].
    destruct (delim_eqb d d'); [|discriminate K]. injection K as <-. apply Forall_cons_iff in H2 as [H2 H3].
    split; [constructor; [discriminate|exact H2]|exact H3]. }
  repeat match type of H with (if ?b then _ else _) = _ => destruct b end;
    first [injection H as <-; first [apply O | apply B] | exact (K _ H)].
Qed.

Lemma push_named t st : named t -> all_named st -> all_named (push t st).
Proof. intros N [H1 H2]. split; [constructor; assumption|exact H2]. Qed.

Lemma char_named st c st' : all_named st -> lex_char st c = Some st' -> all_named st'.
Proof.
  intros H E. unfold lex_char in E. destruct (lx_begun st) as [| |r|r|a].
  - exact (fresh_named _ _ _ H E).
  - injection E as <-. destruct (Ascii.eqb c "010"); exact H.
  - injection E as <-. destruct (Ascii.eqb c """"); [apply push_named; [discriminate|exact H]|exact H].
  - destruct (is_word c); [injection E as <-; exact H|]. refine (fresh_named _ _ _ _ E). apply push_named; [apply word_named|exact H].
  - destruct (Ascii.eqb a "/" && Ascii.eqb c "/")%bool; [injection E as <-; exact H|].
    destruct (joint a c) as [t|] eqn:J.
    + injection E as <-. apply push_named; [|exact H]. unfold joint in J.
      repeat match type of J with (if ?b then _ else _) = _ => destruct b end; try discriminate J; injection J as <-; discriminate.
    + refine (fresh_named _ _ _ _ E). apply push_named; [|exact H]. unfold op_token.
      repeat match goal with |- named (if ?b then _ else _) => destruct b end; discriminate.
Qed.

Lemma lex_named s ts : lex s = Some ts -> Forall named ts.
Proof.
  unfold lex. generalize (s ++ " ")%string. intros s' H.
  assert (G : forall s st st', all_named st -> lex_from st s = Some st' -> all_named st').
  { clear. induction s as [|c s IH]; intros st st' H E; [injection E as <-; exact H|]. cbn [lex_from] in E.
    destruct (lex_char st c) as [st1|] eqn:L; [|discriminate E]. exact (IH _ _ (char_named _ _ _ H L) E). }
  destruct (lex_from _ s') as [[b l a]|] eqn:L; [|discriminate H]. apply G in L as [L _]; [|split; constructor].
  destruct b; try discriminate H. destruct a; [|discriminate H]. injection H as <-. apply Forall_rev. exact L.
Qed.

(** ** Only heads match *)

Section Refused.
Variable parse : list tree -> ty_parse.

Lemma raw_W l : raw (map W l) = (l, []).
Proof. induction l as [|t l IH]; [reflexivity|]. cbn [map raw]. rewrite IH. reflexivity. Qed.

Lemma attr_only ts e r :
  match_seq parse [PTok (TOp "#"); PGroup Bracket [PVar "meta" "meta"]] (map W ts) = Match (e, r) ->
  exists l ts' m, ts = TOp "#" :: TGroup Bracket l :: ts' /\ p_meta l = Some m /\ r = map W ts'.
Proof.
  change [PTok (TOp "#"); PGroup Bracket [PVar "meta" "meta"]] with ([PTok (TOp "#")] ++ [PGroup Bracket [PVar "meta" "meta"]]).
  rewrite match_seq_app, match_one.
  change (match_pat parse (PTok (TOp "#")) (map W ts)) with
    (match next_is (TOp "#") (map W ts) with Some r => Match ([], r) | None => NoMatch end : mres (env * list tk)).
  destruct ts as [|t ts]; [discriminate|]. cbn [map next_is].
  destruct t as [s|s| | | | |s|d l]; cbn [leaf_eqb]; try discriminate.
  destruct (String.eqb_spec "#" s) as [<-|]; [|discriminate].
  rewrite then_match_match, match_nil. cbn [app]. rewrite then_match_match, match_one.
  destruct ts as [|[s|s| | | | |s|d l] ts]; try discriminate. cbn [map].
  change (match_pat parse (PGroup Bracket [PVar "meta" "meta"]) (W (TGroup d l) :: map W ts)) with
    (if delim_eqb Bracket d then
      match match_seq parse [PVar "meta" "meta"] (map W l) with
      | Match (e, []) => Match (e, map W ts) | Match (_, _ :: _) => NoMatch | NoMatch => NoMatch | Fatal => Fatal end
     else NoMatch : mres (env * list tk)).
  destruct d; cbn [delim_eqb]; try discriminate. rewrite match_one.
  change (match_pat parse (PVar "meta" "meta") (map W l)) with
    (match fragment parse "meta" (map W l) with Match (t, r) => Match ([("meta", BOne t)], r) | NoMatch => NoMatch | Fatal => Fatal end).
  destruct l as [|t l]; [discriminate|]. destruct t as [s|s| | | | |s|d l']; try discriminate.
  change (fragment parse "meta" (map W (TId s :: l))) with
      (match snd (raw (map W (TId s :: l))), p_meta (fst (raw (map W (TId s :: l)))) with
       | [], Some _ => Match (F "meta" (map W (TId s :: l)), [])
       | _, _ => Fatal end : mres (tk * list tk)).
  rewrite raw_W. cbn [fst snd]. destruct (p_meta (TId s :: l)) as [m|] eqn:M; [|discriminate].
  intros H. injection H as _ <-. exists (TId s :: l), ts, m. auto.
Qed.

Lemma times_only : forall n ts es r,
  times (match_seq parse [PTok (TOp "#"); PGroup Bracket [PVar "meta" "meta"]]) None n false (map W ts) = Match (es, r) -> length ts < n ->
  (exists ms ts', p_metas ts = Some (ms, ts') /\ r = map W ts' /\ incl ts' ts) \/ (exists ts', r = map W (TOp "#" :: ts')).
Proof.
  induction n as [|n IH]; intros ts es r H Hn; [lia|]. rewrite times_S in H.
  destruct (match_seq parse [PTok (TOp "#"); PGroup Bracket [PVar "meta" "meta"]] (map W ts)) as [| |[e r1]] eqn:M; [|discriminate H|].
  - injection H as _ <-.
    assert (Q : (exists ts', ts = TOp "#" :: ts') \/ p_metas ts = Some ([], ts)).
    { clear. destruct ts as [|[s|s| | | | |s|d l] ts]; try (right; reflexivity). destruct (String.eqb_spec s "#") as [->|N]; [left; eauto|].
      right. cbn [p_metas]. destruct ts as [|[| | | | | | |[]] ts]; try reflexivity. destruct (String.eqb_spec s "#"); [contradiction|reflexivity]. }
    destruct Q as [[ts' ->]|Q]; [right; eauto|left; exists [], ts; auto using incl_refl].
  - apply attr_only in M as (l & ts' & m & -> & P & ->). cbv zeta beta iota in H. cbn [length] in Hn.
    destruct (times _ None n false (map W ts')) as [| |[es' r']] eqn:T; try discriminate H. injection H as _ <-.
    apply IH in T; [|lia]. destruct T as [(ms & ts2 & P2 & -> & I)|T]; [|right; exact T].
    left. exists (m :: ms), ts2. split; [cbn [p_metas]; rewrite String.eqb_refl, P, P2; reflexivity|]. split; [reflexivity|].
    intros x Hx. right. right. apply I. exact Hx.
Qed.

Lemma vis_only x ts e r : match_pat parse (PVar x "vis") (map W ts) = Match (e, r) -> exists v ts', p_vis ts = Some (v, ts') /\ r = map W ts'.
Proof.
  change (match_pat parse (PVar x "vis") (map W ts)) with
    (match fragment parse "vis" (map W ts) with Match (t, r) => Match ([(x, BOne t)], r) | NoMatch => NoMatch | Fatal => Fatal end).
  replace (fragment parse "vis" (map W ts)) with (match p_vis (fst (raw (map W ts))) with
        | None => Fatal
        | Some (_, r) =>
            Match (F "vis" (map W (firstn (length (fst (raw (map W ts))) - length r) (fst (raw (map W ts))))),
                   map W r ++ snd (raw (map W ts)))
        end : mres (tk * list tk)) by (destruct ts; reflexivity).
  rewrite raw_W. cbn [fst snd]. destruct (p_vis ts) as [[v ts']|]; [|discriminate]. rewrite app_nil_r. intros H. injection H as _ <-. eauto.
Qed.

Lemma vis_incl ts v r : p_vis ts = Some (v, r) -> incl r ts.
Proof. intros H. apply vis_read in H as [-> _]. intros x Hx. apply in_or_app. right. exact Hx. Qed.

Lemma word_only w ts e r : match_pat parse (PTok (TId w)) (map W ts) = Match (e, r) -> exists ts', ts = TId w :: ts' /\ r = map W ts'.
Proof.
  change (match_pat parse (PTok (TId w)) (map W ts)) with
    (match next_is (TId w) (map W ts) with Some r => Match ([], r) | None => NoMatch end : mres (env * list tk)).
  destruct ts as [|[s|s| | | | |s|d l] ts]; cbn [map next_is leaf_eqb]; try discriminate.
  destruct (String.eqb_spec w s) as [<-|]; [|discriminate]. intros H. injection H as _ <-. eauto.
Qed.

Lemma comma_only ts e r : match_pat parse (PTok TComma) (map W ts) = Match (e, r) -> exists ts', ts = TComma :: ts' /\ r = map W ts'.
Proof.
  change (match_pat parse (PTok TComma) (map W ts)) with
    (match next_is TComma (map W ts) with Some r => Match ([], r) | None => NoMatch end : mres (env * list tk)).
  destruct ts as [|[s|s| | | | |s|d l] ts]; cbn [map next_is leaf_eqb]; try discriminate. intros H. injection H as _ <-. eauto.
Qed.

Lemma ident_only x ts e r : match_pat parse (PVar x "ident") (map W ts) = Match (e, r) -> exists s ts', ts = TId s :: ts' /\ r = map W ts'.
Proof.
  change (match_pat parse (PVar x "ident") (map W ts)) with
    (match fragment parse "ident" (map W ts) with Match (t, r) => Match ([(x, BOne t)], r) | NoMatch => NoMatch | Fatal => Fatal end).
  destruct ts as [|[s|s| | | | |s|d l] ts]; try discriminate. intros H. injection H as _ <-. eauto.
Qed.

Lemma braces_only ts e r : match_pat parse (PGroup Brace [PRep [PVar "variants" "tt"] None true]) (map W ts) = Match (e, r) ->
  exists t vs ts', ts = TGroup Brace (t :: vs) :: ts' /\ r = map W ts'.
Proof.
  destruct ts as [|[s|s| | | | |s|d l] ts]; try discriminate. cbn [map].
  change (match_pat parse (PGroup Brace [PRep [PVar "variants" "tt"] None true]) (W (TGroup d l) :: map W ts)) with
    (if delim_eqb Brace d then
      match match_seq parse [PRep [PVar "variants" "tt"] None true] (map W l) with
      | Match (e, []) => Match (e, map W ts) | Match (_, _ :: _) => NoMatch | NoMatch => NoMatch | Fatal => Fatal end
     else NoMatch : mres (env * list tk)).
  destruct d; cbn [delim_eqb]; try discriminate. destruct l as [|t l]; [discriminate|].
  destruct (match_seq _ _ _) as [| |[e' [|]]]; try discriminate. intros H. injection H as _ <-. eauto.
Qed.

Lemma head_only ts e : Forall named ts -> match_all parse head_pat (map W ts) = Match e -> exists h vs, p_head ts = Some (h, vs).
Proof.
  intros Nm. rewrite match_all_ended. unfold head_pat.
  rewrite match_seq_app, match_one, match_rep.
  destruct (times _ None (S (length (map W ts))) false (map W ts)) as [| |[es r]] eqn:T; try discriminate.
  apply times_only in T; [|rewrite map_length; lia]. cbn [flat_map pat_vars app].
  replace (repeated ["meta"] false (Match (es, r))) with (Match (collect ["meta"] es, r) : mres (env * list tk)) by (destruct es; reflexivity).
  rewrite then_match_match, match_nil, app_nil_r, then_match_match.
  destruct T as [(ms & t1 & P1 & -> & I1)|(t1 & ->)].
  2:{ change ([PVar "struct_vis" "vis"; PTok (TId "struct"); PVar "struct" "ident"; PTok TComma; PVar "enum_vis" "vis"; PTok (TId "enum");
              PVar "enum" "ident"; PGroup Brace [PRep [PVar "variants" "tt"] None true]]) with
        ([PVar "struct_vis" "vis"] ++ [PTok (TId "struct"); PVar "struct" "ident"; PTok TComma; PVar "enum_vis" "vis"; PTok (TId "enum");
              PVar "enum" "ident"; PGroup Brace [PRep [PVar "variants" "tt"] None true]]).
      rewrite match_seq_app, match_one. destruct (match_pat parse (PVar "struct_vis" "vis") (map W (TOp "#" :: t1))) as [| |[e1 r1]] eqn:V; try discriminate.
      apply vis_only in V as (v & t2 & V & ->). injection V as _ <-. rewrite then_match_match, match_nil, app_nil_r, then_match_match. discriminate. }
  unfold p_head. rewrite P1.
  assert (N1 : Forall named t1) by (apply Forall_forall; intros x Hx; rewrite Forall_forall in Nm; apply Nm, I1; exact Hx). clear Nm I1 P1.
  change ([PVar "struct_vis" "vis"; PTok (TId "struct"); PVar "struct" "ident"; PTok TComma; PVar "enum_vis" "vis"; PTok (TId "enum");
              PVar "enum" "ident"; PGroup Brace [PRep [PVar "variants" "tt"] None true]]) with
        ([PVar "struct_vis" "vis"] ++ [PTok (TId "struct")] ++ [PVar "struct" "ident"] ++ [PTok TComma] ++ [PVar "enum_vis" "vis"] ++ [PTok (TId "enum")] ++
         [PVar "enum" "ident"] ++ [PGroup Brace [PRep [PVar "variants" "tt"] None true]]).
  rewrite match_seq_app, match_one. destruct (match_pat parse (PVar "struct_vis" "vis") (map W t1)) as [| |[e1 r1]] eqn:V; try discriminate.
  apply vis_only in V as (v & t2 & V & ->). rewrite V. pose proof (vis_incl _ _ _ V) as I. clear V.
  assert (N2 : Forall named t2) by (apply Forall_forall; intros x Hx; rewrite Forall_forall in N1; apply N1, I; exact Hx). clear N1 I.
  rewrite then_match_match, match_nil, app_nil_r, then_match_match.
  rewrite match_seq_app, match_one. destruct (match_pat parse (PTok (TId "struct")) (map W t2)) as [| |[e2 r2]] eqn:V; try discriminate.
  apply word_only in V as (t3 & -> & ->). rewrite then_match_match, match_nil, app_nil_r, then_match_match.
  change (p_word "struct" (TId "struct" :: t3)) with (Some t3). cbv iota beta. apply Forall_cons_iff in N2 as [_ N3].
  rewrite match_seq_app, match_one. destruct (match_pat parse (PVar "struct" "ident") (map W t3)) as [| |[e3 r3]] eqn:V; try discriminate.
  apply ident_only in V as (s & t4 & -> & ->). rewrite then_match_match, match_nil, app_nil_r, then_match_match.
  apply Forall_cons_iff in N3 as [Ns N4]. cbn [p_ident]. destruct (String.eqb_spec s "_") as [->|_]; [contradiction Ns; reflexivity|].
  rewrite match_seq_app, match_one. destruct (match_pat parse (PTok TComma) (map W t4)) as [| |[e4 r4]] eqn:V; try discriminate.
  apply comma_only in V as (t5 & -> & ->). rewrite then_match_match, match_nil, app_nil_r, then_match_match.
  apply Forall_cons_iff in N4 as [_ N5].
  rewrite match_seq_app, match_one. destruct (match_pat parse (PVar "enum_vis" "vis") (map W t5)) as [| |[e5 r5]] eqn:V; try discriminate.
  apply vis_only in V as (v' & t6 & V & ->). rewrite V. pose proof (vis_incl _ _ _ V) as I. clear V.
  assert (N6 : Forall named t6) by (apply Forall_forall; intros x Hx; rewrite Forall_forall in N5; apply N5, I; exact Hx). clear N5 I.
  rewrite then_match_match, match_nil, app_nil_r, then_match_match.
  rewrite match_seq_app, match_one. destruct (match_pat parse (PTok (TId "enum")) (map W t6)) as [| |[e6 r6]] eqn:V; try discriminate.
  apply word_only in V as (t7 & -> & ->). rewrite then_match_match, match_nil, app_nil_r, then_match_match.
  change (p_word "enum" (TId "enum" :: t7)) with (Some t7). cbv iota beta. apply Forall_cons_iff in N6 as [_ N7].
  rewrite match_seq_app, match_one. destruct (match_pat parse (PVar "enum" "ident") (map W t7)) as [| |[e7 r7]] eqn:V; try discriminate.
  apply ident_only in V as (s' & t8 & -> & ->). rewrite then_match_match, match_nil, app_nil_r, then_match_match.
  apply Forall_cons_iff in N7 as [Ns' _]. cbn [p_ident]. destruct (String.eqb_spec s' "_") as [->|_]; [contradiction Ns'; reflexivity|].
  rewrite match_one. destruct (match_pat parse (PGroup Brace _) (map W t8)) as [| |[e8 r8]] eqn:V; try discriminate.
  apply braces_only in V as (t & vs & t9 & -> & ->). cbn [then_match ended]. intros H.
  destruct t9; [eauto|discriminate H].
Qed.

Lemma one_rule r args code : apply_rules parse [r] args = Done code -> exists e, match_all parse (r_pat r) args = Match e.
Proof. cbn [apply_rules]. destruct (match_all parse (r_pat r) args) as [| |e]; try discriminate. eauto. Qed.

Lemma tagged_box_matched args code : apply_rules parse arms_tagged_box args = Done code -> exists e, match_all parse head_pat args = Match e.
Proof. intros H. destruct (one_rule _ _ _ H) as [e E]. exists e. exact E. Qed.

Lemma refused n ts : Forall named ts -> p_head ts = None -> ~ done parse n [C true "tagged_box" Brace (map W ts)].
Proof.
  intros Nm P [out H]. rewrite expand_cons in H.
  change (expand_tk (the_call parse n) (C true "tagged_box" Brace (map W ts))) with (the_call parse n true "tagged_box" Brace (map W ts)) in H.
  unfold the_call in H. rewrite (eq_refl : find_macro "tagged_box" the_macros = Some arms_tagged_box) in H. destruct n as [|n]; [discriminate H|].
  assert (A : forall code, apply_rules parse arms_tagged_box (map W ts) <> Done code).
  { intros code A. apply tagged_box_matched in A as [e A]. apply head_only in A as (h & vs & A); [|exact Nm]. rewrite P in A. discriminate A. }
  destruct (apply_rules parse arms_tagged_box (map W ts)) as [code| | |] eqn:Q; [exact (A code eq_refl)| | |]; discriminate H.
Qed.

End Refused.
