(** [__derive_from!], and the macros for the enum and its counter. *)
From Coq Require Import Arith NArith String Bool List Lia.
From Verif Require Import Words Config Pointer Mem Box Arms Macro Tokens SpecTokens TokensFacts Heads SpecHeads Lexer MacroRules
  MacroRulesFacts CrateMacros SpecText TextFacts TextMacros TextParts.
Import ListNotations.
Local Open Scope string_scope.
Local Open Scope list_scope.

Section Macros.
Variable parse : list tree -> ty_parse.
Hypothesis Hp : parser_ok parse.
Local Notation becomes := (becomes parse).
Local Notation counter := "__tagged_box_enum_counter".

Lemma derive_done s e : forall vs ts n ls, variant_list parse ts vs -> gen_all gen_from_impl vs = Some ls ->
  becomes (length vs + S n) [C true "__derive_from" Brace (derive_args s e ts)] (flat_map (from_impl_code s e) (concat ls)).
Proof.
  induction vs as [|[v k] vs IH]; intros ts n ls L Gn; apply (variant_list_step parse Hp) in L; pose proof (derive_applied parse Hp s e ts) as A.
  - rewrite L in A. injection Gn as <-. eapply becomes_call; [reflexivity|exact A|]. apply becomes_nil.
  - destruct L as (rest & S & L). rewrite S in A. cbn [gen_all] in Gn. destruct (gen_from_impl v k) as [a|] eqn:E; [|discriminate Gn].
    destruct (gen_all gen_from_impl vs) as [l'|] eqn:E'; [|discriminate Gn]. injection Gn as <-.
    destruct (A a eq_refl) as (code & A1 & B). cbn [length plus concat]. rewrite flat_map_app.
    eapply becomes_call; [reflexivity|exact A1|]. apply becomes_app; [apply B; lia|]. apply IH; [exact L|reflexivity].
Qed.

(** ** [__counter_enum!] and [__count_variants!] *)

Definition counter_args (fin : list tk) (ts : list tree) : list tk := [W TAt; W (TId "inner")] ++ G Bracket fin :: map W ts.
Definition name_code (v : string) : list tk := [W (TId v); W TComma].

Lemma counter_applied fin ts :
  match step parse ts with
  | SVar v k rest => apply_rules parse arms_counter_enum (counter_args fin ts) =
      Done (C true "__counter_enum" Paren (counter_args (fin ++ name_code v) rest) :: [])
  | SEnd => exists code, apply_rules parse arms_counter_enum (counter_args fin ts) = Done code /\
      forall n o, becomes n fin o -> becomes n code (filled counter_text [("NAMES", o)])
  | _ => True
  end.
Proof.
  assert (A := applied4 parse Hp [PTok TAt; PTok (TId "inner")] [W TAt; W (TId "inner")] _
    fin ts "finished" "finished" "finished" "member" _ _ _ _ ltac:(discriminate) eq_refl : apply_rules parse arms_counter_enum (counter_args fin ts) = _).
  cbv zeta in A. rewrite A. clear A.
  destruct (step parse ts) as [v [|tys|ms] rest| | |] eqn:S; try exact Logic.I.
  - written_it.
  - written_it.
  - written_it.
  - apply step_end in S. subst ts. eexists. split.
    + rewrite apply_cons.
      pose proof (match_stop parse [PTok TAt; PTok (TId "inner")] "finished" [W TAt; W (TId "inner")] _ fin [] eq_refl) as M.
      match type of M with ?l = _ => match goal with |- arm ?m _ _ = _ => change m with l end end. rewrite M.
      cbn [p_end mmap arm]. written_it.
    + intros n o Ho. eapply becomes_eq; [cbn [app]; bec_list|finish].
Qed.

Lemma counter_done vs ts n : variant_list parse ts vs ->
  becomes (length vs + S n) [C true "__counter_enum" Paren (counter_args [] ts)] (counter_code (map fst vs)).
Proof.
  intros L. eapply becomes_eq.
  - eapply (collector parse Hp "__counter_enum" Paren arms_counter_enum counter_args [] (fun v _ => name_code v) (fun _ => 0)
      (fun o => filled counter_text [("NAMES", o)]) vs); [reflexivity| | | |apply incl_refl|exact L|lia|apply becomes_nil].
    + intros v k _ fin ts' rest S. pose proof (counter_applied fin ts') as A. rewrite S in A. exists (name_code v). split; [exact A|].
      intros m _. unfold name_code. eapply becomes_eq; [bec_list|reflexivity].
    + intros m. apply becomes_nil.
    + intros m fin o Ho. pose proof (counter_applied fin []) as A. cbn in A. destruct A as (code & A & B).
      eapply becomes_call; [reflexivity|exact A|]. apply B. exact Ho.
  - assert (Q : forall m, concat (repeat (@nil tk) m) = []) by (induction m; [reflexivity|exact IHm]). rewrite Q, app_nil_r.
    unfold counter_code. do 3 f_equal. cbn [app]. rewrite (flat_map_concat_map _ (map fst vs)), map_map, <- flat_map_concat_map. reflexivity.
Qed.

Definition names_code (l : list string) : list tk := flat_map name_code l.

Lemma times_names l : forall n, length l < n ->
  times (match_seq parse [PVar "variant" "ident"; PTok TComma]) None n false (names_code l) = Match (map (fun v => [("variant", BOne (W (TId v)))]) l, []).
Proof.
  induction l as [|v l IH]; intros [|n] Hn; try (exfalso; cbn [length] in Hn; lia); rewrite times_S; [reflexivity|].
  change (match_seq parse [PVar "variant" "ident"; PTok TComma] (names_code (v :: l))) with
    (Match ([("variant", BOne (W (TId v)))], names_code l) : mres (env * list tk)). cbv zeta beta iota.
  rewrite IH by (cbn [length] in Hn; lia). reflexivity.
Qed.

Lemma count_applied l ts :
  match step parse ts with
  | SVar v k rest => apply_rules parse arms_count_variants (counter_args (names_code l) ts) =
      Done (C true "__count_variants" Paren (counter_args (names_code (l ++ [v])) rest) :: [])
  | SEnd => exists code, apply_rules parse arms_count_variants (counter_args (names_code l) ts) = Done code /\
      forall n, becomes n code (count_code l)
  | _ => True
  end.
Proof.
  assert (A := applied4 parse Hp [PTok TAt; PTok (TId "inner")] [W TAt; W (TId "inner")] _
    (names_code l) ts "finished" "finished" "finished" "member" _ _ _ _ ltac:(discriminate) eq_refl :
    apply_rules parse arms_count_variants (counter_args (names_code l) ts) = _).
  cbv zeta in A. rewrite A. clear A.
  assert (N : forall v, names_code (l ++ [v]) = names_code l ++ name_code v).
  { intros v. unfold names_code. rewrite flat_map_app. cbn [flat_map]. rewrite app_nil_r. reflexivity. }
  destruct (step parse ts) as [v [|tys|ms] rest| | |] eqn:S; try exact Logic.I.
  - rewrite N. written_it.
  - rewrite N. written_it.
  - rewrite N. written_it.
  - apply step_end in S. subst ts. eexists. split.
    + rewrite apply_cons.
      assert (M : match_all parse [PTok TAt; PTok (TId "inner"); PGroup Bracket [PRep [PVar "variant" "ident"; PTok TComma] None false]]
          ([W TAt; W (TId "inner")] ++ G Bracket (names_code l) :: map W []) =
        Match [("variant", BMany (map BOne (map (fun v => W (TId v)) l)))]).
      { rewrite match_all_ended. 
        change [PTok TAt; PTok (TId "inner"); PGroup Bracket [PRep [PVar "variant" "ident"; PTok TComma] None false]] with
          ([PTok TAt; PTok (TId "inner")] ++ [PGroup Bracket [PRep [PVar "variant" "ident"; PTok TComma] None false]]).
        rewrite match_seq_app.
        change (match_seq parse [PTok TAt; PTok (TId "inner")] ([W TAt; W (TId "inner")] ++ G Bracket (names_code l) :: map W [])) with
          (Match ([], G Bracket (names_code l) :: map W []) : mres (env * list tk)).
        rewrite then_match_match, match_one, match_group_G. unfold in_group. cbn [delim_eqb].
        rewrite match_one, match_rep, times_names.
        - assert (Q : collect ["variant"] (map (fun v => [("variant", BOne (W (TId v)))]) l) = [("variant", BMany (map BOne (map (fun v => W (TId v)) l)))]).
          { unfold collect. cbn [map]. do 3 f_equal. clear. induction l as [|t ts IH]; [reflexivity|]. cbn [map flat_map find_var]. rewrite IH. reflexivity. }
          unfold repeated. cbn [flat_map pat_vars app]. rewrite Q. destruct l; reflexivity.
        - clear. induction l as [|v l IH]; cbn [names_code flat_map name_code app length] in *; [lia|]. fold (names_code l). lia. }
      rewrite M. cbn [arm]. written_it.
    + intros n. eapply becomes_eq.
      * cbn [app]. assert (B : becomes n (separated (sep_tks (Some TComma)) (map (fun a => [C false "stringify" Paren [W (TId a)]]) l))
          (commas (map (fun v => [W (TId "stringify"); W TBang; G Paren (id v)]) l))).
        { cbn [sep_tks]. rewrite separated_commas. apply becomes_commas. intros v _.
          eapply becomes_eq; [apply becomes_std; reflexivity|reflexivity]. }
        bec_list.
      * finish.
Qed.

Lemma count_done : forall vs ts l n, variant_list parse ts vs ->
  becomes (length vs + S n) [C true "__count_variants" Paren (counter_args (names_code l) ts)] (count_code (l ++ map fst vs)).
Proof.
  induction vs as [|[v k] vs IH]; intros ts l n L; apply (variant_list_step parse Hp) in L; pose proof (count_applied l ts) as A.
  - rewrite L in A. destruct A as (code & A & B). cbn [map]. rewrite app_nil_r. eapply becomes_call; [reflexivity|exact A|]. apply B.
  - destruct L as (rest & S & L). rewrite S in A. cbn [length plus]. eapply becomes_call; [reflexivity|exact A|].
    cbn [map fst]. pose proof (IH rest (l ++ [v]) n L) as I. rewrite <- app_assoc in I. exact I.
Qed.

(** ** [__make_enum!] *)

Definition meta_tk (l : list tree) : tk := F "meta" (map W l).
Definition metas_tks (l : list (list tree)) : list tk := flat_map (fun m => [W TComma; meta_tk m]) l.

Lemma times_metas : forall l n b m X, length l < n -> next_is TComma X = None ->
  times (match_seq parse [PVar "meta" "meta"]) (Some TComma) n b (meta_tk m :: metas_tks l ++ X) =
  Match (map (fun m => [("meta", BOne (meta_tk m))]) (m :: l), X).
Proof.
  induction l as [|u l IH]; intros [|n] b t X Hn HX; try (exfalso; cbn [length] in Hn; lia); rewrite times_S;
    change (match_seq parse [PVar "meta" "meta"] (meta_tk t :: ?l')) with (Match ([("meta", BOne (meta_tk t))], l') : mres (env * list tk)); cbv zeta beta iota.
  - cbn [metas_tks flat_map app]. rewrite HX. reflexivity.
  - cbn [metas_tks flat_map app]. change (next_is TComma (W TComma :: ?l')) with (Some l'). cbv iota. cbn [length] in Hn.
    fold (metas_tks l). rewrite (IH n true u X) by (try exact HX; lia). reflexivity.
Qed.

Lemma times_metas0 : forall l n, length l < n ->
  times (match_seq parse [PVar "meta" "meta"]) None n false (map meta_tk l) =
  Match (map (fun m => [("meta", BOne (meta_tk m))]) l, []).
Proof.
  induction l as [|u l IH]; intros [|n] Hn; try (exfalso; cbn [length] in Hn; lia); rewrite times_S; [reflexivity|].
  change (match_seq parse [PVar "meta" "meta"] (map meta_tk (u :: l))) with (Match ([("meta", BOne (meta_tk u))], map meta_tk l) : mres (env * list tk)).
  cbv zeta beta iota. rewrite IH by (cbn [length] in Hn; lia). reflexivity.
Qed.

Definition metas_env (l : list (list tree)) : env := [("meta", BMany (map BOne (map meta_tk l)))].
Lemma collect_metas l : collect ["meta"] (map (fun m => [("meta", BOne (meta_tk m))]) l) = metas_env l.
Proof. unfold collect, metas_env. cbn [map]. do 3 f_equal. induction l as [|t ts IH]; [reflexivity|]. cbn [map flat_map find_var]. rewrite IH. reflexivity. Qed.

Lemma separated_metas m l : separated [W TComma] (map (fun m => [meta_tk m]) (m :: l)) = meta_tk m :: metas_tks l.
Proof.
  revert m. induction l as [|u l IH]; intros t; [reflexivity|].
  change (separated [W TComma] (map (fun m => [meta_tk m]) (t :: u :: l))) with ([meta_tk t] ++ [W TComma] ++ separated [W TComma] (map (fun m => [meta_tk m]) (u :: l))).
  rewrite IH. reflexivity.
Qed.

Lemma match_metas l fin X : match_pat parse (PRep [PVar "meta" "meta"] (Some TComma) false) (separated [W TComma] (map (fun m => [meta_tk m]) l) ++ G Bracket fin :: X) =
  Match (metas_env l, G Bracket fin :: X).
Proof.
  rewrite match_rep. cbn [flat_map pat_vars app]. destruct l as [|m l]; [reflexivity|]. rewrite separated_metas. cbn [app].
  rewrite times_metas; [|cbn [length]; rewrite app_length; enough (length l <= length (metas_tks l)) by lia;
    clear; induction l; cbn [metas_tks flat_map app length] in *; [lia|]; fold (metas_tks l); lia|reflexivity].
  unfold repeated. rewrite collect_metas. reflexivity.
Qed.

Definition enum_prefix : list pat :=
  [PTok TAt; PTok (TId "inner"); PVar "vis" "vis"; PTok TComma; PVar "enum" "ident"; PTok TComma; PRep [PVar "meta" "meta"] (Some TComma) false].
Definition enum_toks (w : list tk) (e : string) (metas : list (list tree)) : list tk :=
  [W TAt; W (TId "inner"); F "vis" w; W TComma; W (TId e); W TComma] ++ separated [W TComma] (map (fun m => [meta_tk m]) metas).
Definition enum_args (w : list tk) (e : string) (metas : list (list tree)) (fin : list tk) (ts : list tree) : list tk :=
  enum_toks w e metas ++ G Bracket fin :: map W ts.

Lemma match_enum_prefix w e metas fin X : match_seq parse enum_prefix (enum_toks w e metas ++ G Bracket fin :: X) =
  Match (("vis", BOne (F "vis" w)) :: ("enum", BOne (W (TId e))) :: metas_env metas, G Bracket fin :: X).
Proof.
  unfold enum_toks, enum_prefix. rewrite <- app_assoc.
  change [PTok TAt; PTok (TId "inner"); PVar "vis" "vis"; PTok TComma; PVar "enum" "ident"; PTok TComma; PRep [PVar "meta" "meta"] (Some TComma) false] with
    ([PTok TAt; PTok (TId "inner"); PVar "vis" "vis"; PTok TComma; PVar "enum" "ident"; PTok TComma] ++ [PRep [PVar "meta" "meta"] (Some TComma) false]).
  rewrite match_seq_app.
  change (match_seq parse [PTok TAt; PTok (TId "inner"); PVar "vis" "vis"; PTok TComma; PVar "enum" "ident"; PTok TComma]
    ([W TAt; W (TId "inner"); F "vis" w; W TComma; W (TId e); W TComma] ++ ?Y)) with
    (Match ([("vis", BOne (F "vis" w)); ("enum", BOne (W (TId e)))], Y) : mres (env * list tk)).
  rewrite then_match_match, match_one, match_metas. reflexivity.
Qed.

Definition variant_tks (v : string) (k : vkind) : list tk :=
  match k with
  | KUnit => [W (TId v)]
  | KTuple tys => [W (TId v); G Paren (separated [W TComma] (map (fun t => [FTy t]) tys))]
  | KStruct ms => [W (TId v); G Brace (separated [W TComma] (map (fun m => [W (TId (fst m)); W TColon; FTy (snd m)]) ms))]
  end ++ [W TComma].

Lemma variant_becomes n v k : becomes n (variant_tks v k) (variant_code (v, k)).
Proof.
  unfold variant_tks, variant_code. cbn [fst snd]. destruct k as [|tys|ms]; cbn [app]; (eapply becomes_eq; [bec_list|reflexivity]).
Qed.

Definition enum_final (e : string) (metas : list (list tree)) (w : list tk) (o : list tk) : list tk :=
  flat_map (fun m => [W (TOp "#"); G Bracket (flat_map plain_tree m)]) metas ++ w ++ [W (TId "enum"); W (TId e); G Brace o].

Lemma enum_applied w e metas fin ts :
  match step parse ts with
  | SVar v k rest => apply_rules parse arms_make_enum (enum_args w e metas fin ts) =
      Done (C true "__make_enum" Brace (enum_args w e metas (fin ++ variant_tks v k) rest) :: [])
  | SEnd => exists code, apply_rules parse arms_make_enum (enum_args w e metas fin ts) = Done code /\
      forall n o w', becomes n w w' -> becomes n fin o -> becomes n code (enum_final e metas w' o)
  | _ => True
  end.
Proof.
  assert (A0 : apply_rules parse arms_make_enum (enum_args w e metas fin ts) = apply_rules parse (tl arms_make_enum) (enum_args w e metas fin ts)).
  { unfold arms_make_enum. rewrite apply_cons. reflexivity. }
  rewrite A0. clear A0.
  assert (A := applied4 parse Hp enum_prefix (enum_toks w e metas) _
    fin ts "finished" "finished" "finished" "member" _ _ _ _ ltac:(discriminate) (match_enum_prefix w e metas fin (map W ts)) :
    apply_rules parse (tl arms_make_enum) (enum_args w e metas fin ts) = _).
  cbv zeta in A. rewrite A. clear A.
  destruct (step parse ts) as [v [|tys|ms] rest| | |] eqn:S; try exact Logic.I.
  - written_it.
  - written_it.
  - written_it.
  - apply step_end in S. subst ts. eexists. split.
    + rewrite apply_cons.
      pose proof (match_stop parse enum_prefix "finished" (enum_toks w e metas) _ fin [] (match_enum_prefix w e metas fin (map W []))) as M.
      match type of M with ?l = _ => match goal with |- arm ?m _ _ = _ => change m with l end end. rewrite M.
      cbn [p_end mmap arm]. written_it.
    + intros n o w' Hw Ho. assert (B : becomes n (flat_map (fun a => [W (TOp "#"); G Bracket [meta_tk a]]) metas)
        (flat_map (fun m => [W (TOp "#"); G Bracket (flat_map plain_tree m)]) metas)).
      { apply becomes_flat_map. intros m _. unfold meta_tk. eapply becomes_eq; [bec_list|cbn; rewrite ?app_nil_r; reflexivity]. }
      eapply becomes_eq; [cbn [app]; bec_list|]. unfold enum_final. cbn. rewrite ?app_nil_r. reflexivity.
Qed.

Lemma enum_done w w' e metas vs ts n : variant_list parse ts vs -> (forall n, becomes n w w') ->
  becomes (length vs + S n) [C true "__make_enum" Brace (enum_args w e metas [] ts)] (enum_final e metas w' (flat_map variant_code vs)).
Proof.
  intros L Hw. eapply becomes_eq.
  - eapply (collector parse Hp "__make_enum" Brace arms_make_enum (enum_args w e metas) [] (fun v k => variant_code (v, k)) (fun _ => 0)
      (enum_final e metas w') vs); [reflexivity| | | |apply incl_refl|exact L|lia|apply becomes_nil].
    + intros v k _ fin ts' rest S. pose proof (enum_applied w e metas fin ts') as A. rewrite S in A. exists (variant_tks v k). split; [exact A|].
      intros m _. apply variant_becomes.
    + intros m. apply becomes_nil.
    + intros m fin o Ho. pose proof (enum_applied w e metas fin []) as A. cbn in A. destruct A as (code & A & B).
      eapply becomes_call; [reflexivity|exact A|]. apply B; [apply Hw|exact Ho].
  - assert (Q : forall m, concat (repeat (@nil tk) m) = []) by (induction m; [reflexivity|exact IHm]). rewrite Q, app_nil_r. cbn [app].
    reflexivity.
Qed.

End Macros.
