(** [tagged_box!] itself: the text of [CrateMacros.v] makes of a definition the text of [SpecText.v]. *)
From Coq Require Import Arith NArith String Bool List Lia.
From Verif Require Import Words Config Pointer Mem Box Arms Macro MacroFacts Tokens SpecTokens TokensFacts Heads SpecHeads Props_Heads Props_Tokens
  Lexer MacroRules MacroRulesFacts CrateMacros SpecText TextFacts TextMacros TextParts TextEnums.
Import ListNotations.
Local Open Scope string_scope.
Local Open Scope list_scope.

Section Whole.
Variable parse : list tree -> ty_parse.
Hypothesis Hp : parser_ok parse.
Local Notation becomes := (becomes parse).
Local Notation counter := "__tagged_box_enum_counter".
Local Notation total := [W (TId "__TAGGED_BOX_TOTAL_VARIANTS")].
Local Notation inner_x := [W (TId "self"); W (TOp "."); W (TId "value")].

(** ** The inner calls *)

Lemma code_all {A} (gen : string -> vkind -> option A) (code : A -> list tk) : forall vs l, gen_all gen vs = Some l ->
  flat_map (fun vk => code_of gen code (fst vk) (snd vk)) vs = flat_map code l.
Proof.
  induction vs as [|[v k] vs IH]; intros l H; cbn [gen_all] in H; [injection H as <-; reflexivity|].
  destruct (gen v k) as [a|] eqn:E; [|discriminate H]. destruct (gen_all gen vs) as [l'|]; [|discriminate H]. injection H as <-.
  cbn [flat_map fst snd]. unfold code_of at 1. rewrite E. f_equal. apply IH. reflexivity.
Qed.
Lemma gen_one {A} (gen : string -> vkind -> option A) vs l v k : gen_all gen vs = Some l -> In (v, k) vs -> exists a, gen v k = Some a.
Proof.
  intros H Hin. destruct (gen v k) as [a|] eqn:E; [eauto|].
  destruct (proj1 (gen_all_some gen vs) (ex_intro _ l H) v k Hin E).
Qed.
Lemma no_tail m : concat (repeat (@nil tk) m) = [].
Proof. induction m; [reflexivity|exact IHm]. Qed.
Lemma semis t m : concat (repeat [t] m) = @repeat tk t m.
Proof. induction m; [reflexivity|]. cbn [repeat concat app]. f_equal. exact IHm. Qed.

Lemma inner_done e vs ts n l : variant_list parse ts vs -> gen_all gen_inner vs = Some l -> (forall v k, In (v, k) vs -> extra k <= n) ->
  becomes (length vs + S n) [C true "__boxed_into_inner" Paren (inner_args inner_x e [] ts)]
    (inner_final (flat_map (fun a => read_arm_code (inner_body e a) a) l) ++ repeat (W (TOp ";")) (length vs)).
Proof.
  intros L G Hc. eapply becomes_eq.
  - eapply (collector parse Hp "__boxed_into_inner" Paren arms_boxed_into_inner (inner_args inner_x e) [W (TOp ";")]
      (code_of gen_inner (fun a => read_arm_code (inner_body e a) a)) extra inner_final vs);
      [reflexivity| | | |apply incl_refl|exact L|exact Hc|apply becomes_nil].
    + intros v k Hin fin ts' rest S. pose proof (inner_applied parse Hp e fin ts') as A. rewrite S in A.
      destruct (gen_one _ _ _ _ _ G Hin) as [a E]. destruct (A a E) as (code & A1 & B). exists code. split; [exact A1|].
      unfold code_of. rewrite E. exact B.
    + intros m. apply becomes_W.
    + intros m fin o Ho. pose proof (inner_applied parse Hp e fin []) as A. cbn in A. destruct A as (code & A & B).
      eapply becomes_call; [reflexivity|exact A|]. apply B. exact Ho.
  - rewrite semis. cbn [app]. rewrite (code_all gen_inner _ _ _ G). reflexivity.
Qed.

Lemma from_done e vs ts n l : variant_list parse ts vs -> gen_all gen_from vs = Some l -> (forall v k, In (v, k) vs -> extra k <= n) ->
  becomes (length vs + S n) [C true "__from_tagged_box" Paren (from_args e [] ts)]
    (from_final e (flat_map (fun a => read_arm_code (from_body e a) a) l)).
Proof.
  intros L G Hc. eapply becomes_eq.
  - eapply (collector parse Hp "__from_tagged_box" Paren arms_from_tagged_box (from_args e) []
      (code_of gen_from (fun a => read_arm_code (from_body e a) a)) extra (from_final e) vs);
      [reflexivity| | | |apply incl_refl|exact L|exact Hc|apply becomes_nil].
    + intros v k Hin fin ts' rest S. pose proof (from_applied parse Hp e fin ts') as A. rewrite S in A.
      destruct (gen_one _ _ _ _ _ G Hin) as [a E]. destruct (A a E) as (code & A1 & B). exists code. split; [exact A1|].
      unfold code_of. rewrite E. exact B.
    + intros m. apply becomes_nil.
    + intros m fin o Ho. pose proof (from_applied parse Hp e fin []) as A. cbn in A. destruct A as (code & A & B).
      eapply becomes_call; [reflexivity|exact A|]. apply B. exact Ho.
  - rewrite no_tail, app_nil_r. cbn [app]. rewrite (code_all gen_from _ _ _ G). reflexivity.
Qed.

Lemma ref_done e vs ts n l : variant_list parse ts vs -> gen_all gen_ref vs = Some l -> (forall v k, In (v, k) vs -> extra k <= n) ->
  becomes (length vs + S n) [C true "__ref_from_tagged" Paren (ref_args e [] ts)]
    (ref_final e (flat_map (fun a => read_arm_code (ref_body e a) a) l)).
Proof.
  intros L G Hc. eapply becomes_eq.
  - eapply (collector parse Hp "__ref_from_tagged" Paren arms_ref_from_tagged (ref_args e) []
      (code_of gen_ref (fun a => read_arm_code (ref_body e a) a)) extra (ref_final e) vs);
      [reflexivity| | | |apply incl_refl|exact L|exact Hc|apply becomes_nil].
    + intros v k Hin fin ts' rest S. pose proof (ref_applied parse Hp e fin ts') as A. rewrite S in A.
      destruct (gen_one _ _ _ _ _ G Hin) as [a E]. destruct (A a E) as (code & A1 & B). exists code. split; [exact A1|].
      unfold code_of. rewrite E. exact B.
    + intros m. apply becomes_nil.
    + intros m fin o Ho. pose proof (ref_applied parse Hp e fin []) as A. cbn in A. destruct A as (code & A & B).
      eapply becomes_call; [reflexivity|exact A|]. apply B. exact Ho.
  - rewrite no_tail, app_nil_r. cbn [app]. rewrite (code_all gen_ref _ _ _ G). reflexivity.
Qed.

(** ** The first calls *)

Lemma all_rest pre x toks e ts : (forall Y, match_seq parse pre (toks ++ Y) = Match (e, Y)) ->
  match_all parse (pre ++ [PRep [PVar x "tt"] None false]) (toks ++ map W ts) = Match (e ++ [(x, BMany (map BOne (map W ts)))]).
Proof.
  intros H. rewrite match_all_ended, match_seq_app, H, then_match_match, match_one, match_tts, then_match_match, match_nil.
  cbn [app]. rewrite ?app_nil_r. reflexivity.
Qed.

Local Notation rest_rep := (PRep [PVar "rest" "tt"] None false).
Ltac entry k pre toks env ts :=
  match goal with |- apply_rules parse ?arms ?args = Done ?o =>
    assert (A0 : apply_rules parse arms args = apply_rules parse (skipn k arms) args) by reflexivity; rewrite A0; clear A0;
    let arms' := eval hnf in (skipn k arms) in change (skipn k arms) with arms'; rewrite apply_cons;
    pose proof (all_rest pre "rest" toks env ts ltac:(intros Y; reflexivity)) as M;
    match type of M with ?l = _ => match goal with |- arm ?m _ _ = _ => change m with l end end; rewrite M; clear M;
    cbn [arm]; written_it
  end.

Lemma into_entry e ts :
  apply_rules parse arms_taggable_into_box ([W (TId "self"); W TComma; W (TId e); W TComma; W (TId counter); W TComma] ++ map W ts) =
  Done [C true "__taggable_into_box" Paren (into_args e [] ts)].
Proof.
  entry 0 [PVar "tagged" "expr"; PTok TComma; PVar "enum" "ident"; PTok TComma; PVar "counter" "ident"; PTok TComma]
    [W (TId "self"); W TComma; W (TId e); W TComma; W (TId counter); W TComma]
    [("tagged", BOne (F "expr" [W (TId "self")])); ("enum", BOne (W (TId e))); ("counter", BOne (W (TId counter)))] ts.
Qed.

Lemma from_entry e ts :
  apply_rules parse arms_from_tagged_box
    ([W (TId "tagged"); W TComma; W (TId e); W TComma; W (TId counter); W TComma; W (TId "__TAGGED_BOX_TOTAL_VARIANTS"); W TComma] ++ map W ts) =
  Done [C true "__from_tagged_box" Paren (from_args e [] ts)].
Proof.
  entry 0 [PVar "tagged" "expr"; PTok TComma; PVar "enum" "ident"; PTok TComma; PVar "counter" "ident"; PTok TComma; PVar "total_variants" "expr"; PTok TComma]
    [W (TId "tagged"); W TComma; W (TId e); W TComma; W (TId counter); W TComma; W (TId "__TAGGED_BOX_TOTAL_VARIANTS"); W TComma]
    [("tagged", BOne (F "expr" [W (TId "tagged")])); ("enum", BOne (W (TId e))); ("counter", BOne (W (TId counter))); ("total_variants", BOne (F "expr" total))] ts.
Qed.

Lemma ref_entry e ts :
  apply_rules parse arms_ref_from_tagged
    ([W (TId "tagged"); W TComma; W (TId "callback"); W TComma; W (TId e); W TComma; W (TId counter); W TComma;
      W (TId "__TAGGED_BOX_TOTAL_VARIANTS"); W TComma] ++ map W ts) =
  Done [C true "__ref_from_tagged" Paren (ref_args e [] ts)].
Proof.
  entry 0 [PVar "tagged" "expr"; PTok TComma; PVar "callback" "expr"; PTok TComma; PVar "enum" "ident"; PTok TComma; PVar "counter" "ident"; PTok TComma;
           PVar "total_variants" "expr"; PTok TComma]
    [W (TId "tagged"); W TComma; W (TId "callback"); W TComma; W (TId e); W TComma; W (TId counter); W TComma;
     W (TId "__TAGGED_BOX_TOTAL_VARIANTS"); W TComma]
    [("tagged", BOne (F "expr" [W (TId "tagged")])); ("callback", BOne (F "expr" [W (TId "callback")])); ("enum", BOne (W (TId e))); ("counter", BOne (W (TId counter))); ("total_variants", BOne (F "expr" total))] ts.
Qed.

Lemma inner_entry e ts :
  apply_rules parse arms_boxed_into_inner (inner_x ++ [W TComma; W (TId e); W TComma; W (TId counter); W TComma] ++ map W ts) =
  Done [C true "__boxed_into_inner" Paren (inner_args inner_x e [] ts)].
Proof.
  entry 6 [PVar "tagged" "expr"; PTok TComma; PVar "enum" "ident"; PTok TComma; PVar "counter" "ident"; PTok TComma]
    (inner_x ++ [W TComma; W (TId e); W TComma; W (TId counter); W TComma])
    [("tagged", BOne (F "expr" inner_x)); ("enum", BOne (W (TId e))); ("counter", BOne (W (TId counter)))] ts.
Qed.

Lemma derive_entry s e ts :
  apply_rules parse arms_derive_from ([W (TId s); W TComma; W (TId e); W TComma] ++ map W ts) =
  Done [C true "__derive_from" Brace (derive_args s e ts)].
Proof.
  entry 6 [PVar "struct" "ident"; PTok TComma; PVar "enum" "ident"; PTok TComma] [W (TId s); W TComma; W (TId e); W TComma]
    [("struct", BOne (W (TId s))); ("enum", BOne (W (TId e)))] ts.
Qed.

Lemma counter_entry v ts :
  apply_rules parse arms_counter_enum (map W (TId v :: ts)) = Done [C true "__counter_enum" Paren (counter_args [] (TId v :: ts))].
Proof. entry 7 (@nil pat) (@nil tk) (@nil (string * bnd)) (TId v :: ts). Qed.

Lemma count_entry v ts :
  apply_rules parse arms_count_variants (map W (TId v :: ts)) = Done [C true "__count_variants" Paren (counter_args [] (TId v :: ts))].
Proof. entry 5 (@nil pat) (@nil tk) (@nil (string * bnd)) (TId v :: ts). Qed.

Lemma enum_entry w e metas ts :
  apply_rules parse arms_make_enum ([F "vis" w; W TComma; W (TId e); G Bracket (map meta_tk metas)] ++ map W ts) =
  Done [C true "__make_enum" Brace (enum_args w e metas [] ts)].
Proof.
  unfold arms_make_enum. rewrite apply_cons.
  assert (H : forall Y, match_seq parse [PVar "vis" "vis"; PTok TComma; PVar "enum" "ident"; PGroup Bracket [PRep [PVar "meta" "meta"] None false]]
      ([F "vis" w; W TComma; W (TId e); G Bracket (map meta_tk metas)] ++ Y) =
    Match (("vis", BOne (F "vis" w)) :: ("enum", BOne (W (TId e))) :: metas_env metas, Y)).
  { intros Y. change [PVar "vis" "vis"; PTok TComma; PVar "enum" "ident"; PGroup Bracket [PRep [PVar "meta" "meta"] None false]] with
      ([PVar "vis" "vis"; PTok TComma; PVar "enum" "ident"] ++ [PGroup Bracket [PRep [PVar "meta" "meta"] None false]]).
    rewrite match_seq_app.
    change (match_seq parse [PVar "vis" "vis"; PTok TComma; PVar "enum" "ident"] ([F "vis" w; W TComma; W (TId e); G Bracket (map meta_tk metas)] ++ Y)) with
      (Match ([("vis", BOne (F "vis" w)); ("enum", BOne (W (TId e)))], G Bracket (map meta_tk metas) :: Y) : mres (env * list tk)).
    rewrite then_match_match, match_one, match_group_G. unfold in_group. cbn [delim_eqb].
    rewrite match_one, match_rep, times_metas0 by (rewrite map_length; lia). unfold repeated. cbn [flat_map pat_vars app].
    rewrite collect_metas. destruct metas; reflexivity. }
  pose proof (all_rest _ "rest" _ _ ts H) as M.
  match type of M with ?l = _ => match goal with |- arm ?m _ _ = _ => change m with l end end. rewrite M. clear M.
  cbn [arm]. written_it.
Qed.

(** ** The definition *)

Lemma match_attr m X : m_path m <> [] ->
  match_seq parse [PTok (TOp "#"); PGroup Bracket [PVar "meta" "meta"]] (map W ([TOp "#"; TGroup Bracket (write_meta m)]) ++ X) =
  Match ([("meta", BOne (meta_tk (write_meta m)))], X).
Proof.
  intros Hm. pose proof (meta_write m Hm) as R.
  assert (Q : exists a r, write_meta m = TId a :: r).
  { unfold write_meta. destruct (m_path m) as [|a [|b p]]; [contradiction| |]; do 2 eexists; reflexivity. }
  destruct Q as (a & r & Q). rewrite Q in *. cbn [map app].
  assert (RW : forall l, raw (map W l) = (l, [])) by (clear; induction l as [|t l IH]; [reflexivity|]; cbn [map raw]; rewrite IH; reflexivity).
  assert (FM : fragment parse "meta" (map W (TId a :: r)) = Match (meta_tk (TId a :: r), [])).
  { change (fragment parse "meta" (map W (TId a :: r))) with
      (match snd (raw (map W (TId a :: r))), p_meta (fst (raw (map W (TId a :: r)))) with
       | [], Some _ => Match (F "meta" (map W (TId a :: r)), [])
       | _, _ => Fatal end : mres (tk * list tk)). rewrite RW. cbn [fst snd]. rewrite R. reflexivity. }
  change [PTok (TOp "#"); PGroup Bracket [PVar "meta" "meta"]] with ([PTok (TOp "#")] ++ [PGroup Bracket [PVar "meta" "meta"]]).
  rewrite match_seq_app.
  change (match_seq parse [PTok (TOp "#")] (W (TOp "#") :: W (TGroup Bracket (TId a :: r)) :: X)) with
    (Match ([], W (TGroup Bracket (TId a :: r)) :: X) : mres (env * list tk)).
  rewrite then_match_match, match_one.
  change (match_pat parse (PGroup Bracket [PVar "meta" "meta"]) (W (TGroup Bracket (TId a :: r)) :: X)) with
    (match match_seq parse [PVar "meta" "meta"] (map W (TId a :: r)) with
     | Match (e, []) => Match (e, X) | Match (_, _ :: _) => NoMatch | NoMatch => NoMatch | Fatal => Fatal end : mres (env * list tk)).
  rewrite match_one.
  change (match_pat parse (PVar "meta" "meta") (map W (TId a :: r))) with
    (match fragment parse "meta" (map W (TId a :: r)) with Match (t, r) => Match ([("meta", BOne t)], r) | NoMatch => NoMatch | Fatal => Fatal end).
  rewrite FM. reflexivity.
Qed.

Definition attr_trees (ms : list meta) : list tree := flat_map (fun m => [TOp "#"; TGroup Bracket (write_meta m)]) ms.

Lemma times_attrs : forall ms n ts, length ms < n -> Forall (fun m => m_path m <> []) ms -> no_attr ts ->
  times (match_seq parse [PTok (TOp "#"); PGroup Bracket [PVar "meta" "meta"]]) None n false (map W (attr_trees ms ++ ts)) =
  Match (map (fun m => [("meta", BOne (meta_tk m))]) (map write_meta ms), map W ts).
Proof.
  induction ms as [|m ms IH]; intros [|n] ts Hn HF N; try (exfalso; cbn [length] in Hn; lia); rewrite times_S.
  - cbn [attr_trees flat_map app map]. destruct ts as [|[] ts]; try reflexivity. destruct N.
  - apply Forall_cons_iff in HF as [H1 H2]. change (attr_trees (m :: ms)) with ([TOp "#"; TGroup Bracket (write_meta m)] ++ attr_trees ms).
    rewrite <- app_assoc, map_app, (match_attr m _ H1). cbv zeta beta iota. rewrite IH by (try assumption; cbn [length] in Hn; lia). reflexivity.
Qed.

Lemma match_attrs ms ts : Forall (fun m => m_path m <> []) ms -> no_attr ts ->
  match_pat parse (PRep [PTok (TOp "#"); PGroup Bracket [PVar "meta" "meta"]] None false) (map W (attr_trees ms ++ ts)) =
  Match (metas_env (map write_meta ms), map W ts).
Proof.
  intros HF N. rewrite match_rep, times_attrs; [|rewrite map_length, app_length; enough (length ms <= length (attr_trees ms)) by lia;
    clear; induction ms; cbn [attr_trees flat_map app length] in *; [lia|]; fold (attr_trees ms); lia|exact HF|exact N].
  cbn [flat_map pat_vars app]. unfold repeated. rewrite <- collect_metas. destruct ms; reflexivity.
Qed.

Lemma match_vis x v ts : vis_wf v -> no_vis ts ->
  match_pat parse (PVar x "vis") (map W (write_vis v ++ ts)) = Match ([(x, BOne (F "vis" (map W (write_vis v))))], map W ts).
Proof.
  intros HW N. pose proof (vis_write v ts HW N) as R.
  assert (RW : forall l, raw (map W l) = (l, [])) by (clear; induction l as [|t l IH]; [reflexivity|]; cbn [map raw]; rewrite IH; reflexivity).
  assert (FM : fragment parse "vis" (map W (write_vis v ++ ts)) = Match (F "vis" (map W (write_vis v)), map W ts)).
  { transitivity (match p_vis (fst (raw (map W (write_vis v ++ ts)))) with
        | None => Fatal
        | Some (_, r) =>
            Match (F "vis" (map W (firstn (length (fst (raw (map W (write_vis v ++ ts)))) - length r) (fst (raw (map W (write_vis v ++ ts)))))),
                   map W r ++ snd (raw (map W (write_vis v ++ ts))))
        end : mres (tk * list tk)).
    - destruct (write_vis v ++ ts); reflexivity.
    - rewrite RW. cbn [fst snd]. rewrite R, app_nil_r, app_length. replace (length (write_vis v) + length ts - length ts) with (length (write_vis v)) by lia.
      rewrite firstn_app, firstn_all, Nat.sub_diag. cbn [firstn]. rewrite app_nil_r. reflexivity. }
  change (match_pat parse (PVar x "vis") (map W (write_vis v ++ ts))) with
    (match fragment parse "vis" (map W (write_vis v ++ ts)) with Match (t, r) => Match ([(x, BOne t)], r) | NoMatch => NoMatch | Fatal => Fatal end).
  rewrite FM. reflexivity.
Qed.

Definition head_env (h : head) (vs : list tree) : env :=
  metas_env (map write_meta (h_metas h)) ++
  [("struct_vis", BOne (F "vis" (map W (write_vis (h_svis h))))); ("struct", BOne (W (TId (h_struct h))));
   ("enum_vis", BOne (F "vis" (map W (write_vis (h_evis h))))); ("enum", BOne (W (TId (h_enum h)))); ("variants", BMany (map BOne (map W vs)))].

Definition head_pat : list pat :=
  [PRep [PTok (TOp "#"); PGroup Bracket [PVar "meta" "meta"]] None false] ++ [PVar "struct_vis" "vis"] ++
  [PTok (TId "struct"); PVar "struct" "ident"; PTok TComma] ++ [PVar "enum_vis" "vis"] ++ [PTok (TId "enum"); PVar "enum" "ident"] ++
  [PGroup Brace [PRep [PVar "variants" "tt"] None true]].

Lemma match_head h vs : head_wf h -> vs <> [] -> match_all parse head_pat (map W (write_head h vs)) = Match (head_env h vs).
Proof.
  intros (HF & W1 & W2 & _ & _) Nv. rewrite match_all_ended. unfold head_pat, write_head.
  fold (attr_trees (h_metas h)).
  rewrite match_seq_app, match_one, match_attrs by (try exact HF; destruct (h_svis h); exact Logic.I).
  rewrite then_match_match, match_nil, app_nil_r, then_match_match.
  rewrite match_seq_app, match_one, match_vis by (try exact W1; discriminate).
  rewrite then_match_match, match_nil, app_nil_r, then_match_match.
  rewrite match_seq_app.
  change (match_seq parse [PTok (TId "struct"); PVar "struct" "ident"; PTok TComma] (map W ([TId "struct"; TId (h_struct h); TComma] ++ ?Y))) with
    (Match ([("struct", BOne (W (TId (h_struct h))))], map W Y) : mres (env * list tk)).
  rewrite then_match_match, match_seq_app, match_one, match_vis by (try exact W2; discriminate).
  rewrite then_match_match, match_nil, app_nil_r, then_match_match, match_seq_app.
  change (match_seq parse [PTok (TId "enum"); PVar "enum" "ident"] (map W ([TId "enum"; TId (h_enum h); TGroup Brace vs]))) with
    (Match ([("enum", BOne (W (TId (h_enum h))))], [W (TGroup Brace vs)]) : mres (env * list tk)).
  rewrite then_match_match, match_one.
  change (match_pat parse (PGroup Brace [PRep [PVar "variants" "tt"] None true]) [W (TGroup Brace vs)]) with
    (match match_seq parse [PRep [PVar "variants" "tt"] None true] (map W vs) with
     | Match (e, []) => Match (e, []) | Match (_, _ :: _) => NoMatch | NoMatch => NoMatch | Fatal => Fatal end : mres (env * list tk)).
  rewrite match_one, match_tts_one. destruct vs as [|t vs]; [contradiction|]. reflexivity.
Qed.

Lemma flat_map_map' {A B D} (f : B -> list D) (g : A -> B) l : flat_map f (map g l) = flat_map (fun a => f (g a)) l.
Proof. induction l as [|a l IH]; [reflexivity|]. cbn [map flat_map]. rewrite IH. reflexivity. Qed.

(** What is done is done inside, too. *)
Definition done (n : nat) (l : list tk) : Prop := exists out, expand_all parse the_macros n l = Done out.
Lemma done_hd n t l : done n (t :: l) -> done n [t].
Proof.
  unfold done. rewrite !expand_cons, expand_nil. intros [out H]. destruct (expand_tk (the_call parse n) t) as [a| | |]; try discriminate H.
  exists (a ++ []). reflexivity.
Qed.
Lemma done_tl n t l : done n (t :: l) -> done n l.
Proof.
  unfold done. rewrite expand_cons. intros [out H]. destruct (expand_tk (the_call parse n) t) as [a| | |]; try discriminate H. cbn [and_then] in H.
  destruct (expand_all parse the_macros n l) as [b| | |]; try discriminate H. exists b. reflexivity.
Qed.
Lemma done_right n a b : done n (a ++ b) -> done n b.
Proof. induction a as [|t a IH]; intros H; [exact H|]. apply IH. exact (done_tl n t (a ++ b) H). Qed.
Lemma done_G n d l : done n [G d l] -> done n l.
Proof.
  unfold done. rewrite expand_cons, expand_nil, expand_G. intros [out H]. destruct (expand_all parse the_macros n l) as [b| | |]; try discriminate H.
  exists b. reflexivity.
Qed.

Ltac inside H :=
  lazymatch type of H with
  | done _ [C _ "__taggable_into_box" _ _] => exact H
  | done ?n (?a ++ ?b) => inside (done_right n a b H)
  | done ?n [G ?d ?l] => inside (done_G n d l H)
  | done ?n (W ?t :: ?l) => inside (done_tl n (W t) l H)
  | done ?n (F ?k ?t :: ?l) => inside (done_tl n (F k t) l H)
  | done _ [_] => fail
  | done ?n (?t :: ?l) => first [inside (done_hd n t l H) | inside (done_tl n t l H)]
  end.

Ltac bec_calls :=
  lazymatch goal with
  | |- TextFacts.becomes _ _ [] _ => apply becomes_nil
  | |- TextFacts.becomes _ _ (_ :: _) _ => eapply becomes_cons; [bec_call | bec_calls]
  | |- TextFacts.becomes _ _ (_ ++ _) _ => eapply becomes_app; [bec_piece | bec_calls]
  | |- TextFacts.becomes _ _ _ _ => bec_piece
  end
with bec_piece := first [match goal with H : TextFacts.becomes _ _ (flat_map _ _) _ |- _ => exact H end | apply becomes_Ws]
with bec_call :=
  lazymatch goal with
  | |- TextFacts.becomes _ _ [W _] _ => apply becomes_W
  | |- TextFacts.becomes _ _ [G _ _] _ => apply becomes_G; bec_calls
  | |- TextFacts.becomes _ _ [F _ _] _ => apply becomes_F; bec_calls
  | |- TextFacts.becomes _ _ [C _ ?m _ _] _ => match goal with H : TextFacts.becomes _ _ [C _ m _ _] _ |- _ => exact H end
  end.

Lemma tagged_box_applied h ts : head_wf h -> ts <> [] ->
  exists code, apply_rules parse arms_tagged_box (map W (write_head h ts)) = Done code /\
  (forall n, done n code ->
     done n [C true "__taggable_into_box" Paren ([W (TId "self"); W TComma; W (TId (h_enum h)); W TComma; W (TId counter); W TComma] ++ map W ts)]) /\
  (forall n names vs into inner from ref froms k,
     becomes n [C true "__counter_enum" Brace (map W ts)] (counter_code names) ->
     becomes n [C true "__boxed_into_inner" Paren (inner_x ++ [W TComma; W (TId (h_enum h)); W TComma; W (TId counter); W TComma] ++ map W ts)]
       (inner_final inner ++ repeat (W (TOp ";")) k) ->
     becomes n [C true "__derive_from" Brace ([W (TId (h_struct h)); W TComma; W (TId (h_enum h)); W TComma] ++ map W ts)] froms ->
     becomes n [C true "__make_enum" Brace ([F "vis" (map W (write_vis (h_evis h))); W TComma; W (TId (h_enum h));
         G Bracket (map meta_tk (map write_meta (h_metas h)))] ++ map W ts)]
       (enum_final (h_enum h) (map write_meta (h_metas h)) (visibility (h_evis h)) vs) ->
     becomes n [C true "__taggable_into_box" Paren ([W (TId "self"); W TComma; W (TId (h_enum h)); W TComma; W (TId counter); W TComma] ++ map W ts)]
       (into_final into) ->
     becomes n [C true "__count_variants" Paren (map W ts)] (count_code names) ->
     becomes n [C true "__from_tagged_box" Paren ([W (TId "tagged"); W TComma; W (TId (h_enum h)); W TComma; W (TId counter); W TComma;
         W (TId "__TAGGED_BOX_TOTAL_VARIANTS"); W TComma] ++ map W ts)] (from_final (h_enum h) from) ->
     becomes n [C true "__ref_from_tagged" Paren ([W (TId "tagged"); W TComma; W (TId "callback"); W TComma; W (TId (h_enum h)); W TComma; W (TId counter); W TComma;
         W (TId "__TAGGED_BOX_TOTAL_VARIANTS"); W TComma] ++ map W ts)] (ref_final (h_enum h) ref) ->
     becomes n code
       (filled generated_text
         [("STRUCT_ATTRS", attrs (h_metas h ++ [repr_transparent])); ("STRUCT_VIS", visibility (h_svis h)); ("STRUCT", id (h_struct h));
          ("ENUM_ATTRS", attrs (h_metas h)); ("ENUM_VIS", visibility (h_evis h)); ("ENUM", id (h_enum h));
          ("COUNTER", counter_code names); ("COUNT", count_code names); ("VARIANTS", vs); ("FROM_IMPLS", froms);
          ("INTO_ARMS", into); ("INNER_ARMS", inner); ("FROM_ARMS", from); ("REF_ARMS", ref);
          ("SEMICOLONS", repeat (W (TOp ";")) k)])).
Proof.
  intros Hh Hv. eexists. split; [|split].
  - unfold arms_tagged_box. rewrite apply_cons.
    pose proof (match_head h ts Hh Hv) as M.
    match type of M with ?l = _ => match goal with |- arm ?m _ _ = _ => change m with l end end. rewrite M. clear M.
    cbn [arm]. unfold head_env. 
    match goal with |- match ?w with Some o => _ | None => _ end = _ => change (match w with Some o => Done o | None => Error end) with (as_done w) end.
    written_it.
  - intros n H. cbn [app] in H |- *. inside H.
  - intros n names vs into inner from ref froms k H1 H2 H3 H4 H5 H6 H7 H8. cbn [app] in *.
    assert (B : becomes n (flat_map (fun a => [W (TOp "#"); G Bracket [meta_tk a]]) (map write_meta (h_metas h))) (attrs (h_metas h))).
    { unfold attrs. rewrite flat_map_map'. apply becomes_flat_map. intros m _. unfold meta_tk.
      eapply becomes_eq; [bec_list|]. cbn [app]. rewrite !app_nil_r. reflexivity. }
    assert (V : visibility (h_svis h) = flat_map plain_tree (write_vis (h_svis h))) by reflexivity.
    assert (V' : forall l, flat_map (fun m => [W (TOp "#"); G Bracket (flat_map plain_tree m)]) (map write_meta l) = attrs l)
      by (intros l; unfold attrs; rewrite flat_map_map'; reflexivity).
    eapply becomes_eq; [bec_calls|]. rewrite <- V. unfold enum_final. rewrite V'. 
    assert (A : attrs (h_metas h ++ [repr_transparent]) = attrs (h_metas h) ++ [W (TOp "#"); G Bracket [W (TId "repr"); G Paren [W (TId "transparent")]]])
      by (unfold attrs; rewrite flat_map_app; reflexivity).
    rewrite A. clear. unfold inner_final, into_final, from_final, ref_final, filled.
    generalize (attrs (h_metas h)) (visibility (h_svis h)) (visibility (h_evis h)) (counter_code names) (count_code names) (repeat (W (TOp ";")) k).
    intros a sv ev c cn semi. cbn. rewrite ?app_nil_r. rewrite <- ?app_assoc. cbn. reflexivity.
Qed.

Lemma extra_le vs v k : In (v, k) vs -> extra k <= other_tuples vs.
Proof.
  unfold other_tuples. intros H. apply in_split in H as (a & b & ->). rewrite filter_app, app_length. cbn [filter]. unfold other_tuple at 2. cbn [snd].
  destruct k as [|[|t [|u l]]|ms]; cbn; lia.
Qed.

Lemma becomes_entry n m d args o : becomes n [C true m d args] o -> forall rs args' d', find_macro m the_macros = Some rs ->
  apply_rules parse rs args' = Done [C true m d args] -> becomes (S n) [C true m d' args'] o.
Proof. intros H rs args' d' Hm A. eapply becomes_call; [exact Hm|exact A|exact H]. Qed.

Theorem text_of h ts vs x limit align d c : head_wf h -> ts <> [] -> variant_list parse ts vs ->
  length vs + other_tuples vs + 3 <= limit -> expand (Edef (h_struct h) (h_enum h) align d c vs) = Some x ->
  becomes limit [C true "tagged_box" Brace (map W (write_head h ts))] (generated (struct_item h) (enum_item h) x).
Proof.
  intros Hh Ht L Hl Hx. destruct (expand_inv _ _ Hx) as [X1 X2 _ _ _ X6 X7 _ X9 X10 X11 X12 (lf & X13 & X14) X15].
  cbn [e_container e_name e_variants] in *.
  assert (Q : exists v r, ts = TId v :: r) by (destruct L; [contradiction X15; reflexivity|do 2 eexists; reflexivity]).
  destruct Q as (v0 & r0 & Q).
  destruct limit as [|[|limit]]; try (exfalso; lia).
  assert (Hc : exists n, limit = length vs + S n /\ other_tuples vs <= n) by (exists (limit - length vs - 1); lia).
  destruct Hc as (n & -> & Hn).
  assert (Hi : exists m, length vs + S n = total_cost extra vs + S m) by (exists (n - other_tuples vs); rewrite extra_cost; lia).
  destruct Hi as (m & Hi).
  assert (He : forall v k, In (v, k) vs -> extra k <= n) by (intros v k Hin; pose proof (extra_le vs v k Hin); lia).
  destruct (tagged_box_applied h ts Hh Ht) as (code & A & _ & B).
  eapply becomes_call; [reflexivity|exact A|].
  pose proof (B (S (length vs + S n)) (map fst vs) (flat_map variant_code vs) (flat_map (into_arm_code (h_enum h)) (x_into x))
    (flat_map (fun a => read_arm_code (inner_body (h_enum h) a) a) (x_inner x)) (flat_map (fun a => read_arm_code (from_body (h_enum h) a) a) (x_from x))
    (flat_map (fun a => read_arm_code (ref_body (h_enum h) a) a) (x_ref x)) (flat_map (from_impl_code (h_struct h) (h_enum h)) (x_froms x)) (length vs)) as B'.
  clear B. eapply becomes_eq.
  - apply B'; clear B'.
    + refine (becomes_entry _ _ _ _ _ (counter_done parse Hp vs ts n L) _ _ _ eq_refl _). rewrite Q. apply counter_entry.
    + refine (becomes_entry _ _ _ _ _ (inner_done (h_enum h) vs ts n _ L X10 He) _ _ _ eq_refl _). apply inner_entry.
    + rewrite X14. refine (becomes_entry _ _ _ _ _ (derive_done parse Hp _ _ vs ts n _ L X13) _ _ _ eq_refl _). apply derive_entry.
    + refine (becomes_entry _ _ _ _ _ (enum_done parse Hp (map W (write_vis (h_evis h))) (visibility (h_evis h)) (h_enum h) (map write_meta (h_metas h)) vs ts n L _) _ _ _ eq_refl _).
      * intros k. apply becomes_Ws.
      * apply enum_entry.
    + rewrite Hi. refine (becomes_entry _ _ _ _ _ (into_done parse Hp (h_enum h) vs ts [] m [] _ L X9 (becomes_nil parse m)) _ _ _ eq_refl _). apply into_entry.
    + refine (becomes_entry _ _ _ _ _ (count_done parse Hp vs ts [] n L) _ _ _ eq_refl _). rewrite Q. apply count_entry.
    + refine (becomes_entry _ _ _ _ _ (from_done (h_enum h) vs ts n _ L X11 He) _ _ _ eq_refl _). apply from_entry.
    + refine (becomes_entry _ _ _ _ _ (ref_done (h_enum h) vs ts n _ L X12 He) _ _ _ eq_refl _). apply ref_entry.
  - unfold generated. rewrite X1, X2, X6, X7. destruct (gen_all_nth _ _ _ X10) as [Len _]. rewrite Len. reflexivity.
Qed.

(** ** The other way round *)

Theorem text_only h ts limit : head_wf h -> ts <> [] -> done limit [C true "tagged_box" Brace (map W (write_head h ts))] ->
  exists vs, variant_list parse ts vs /\ length vs + other_tuples vs + 3 <= limit /\
    forall align d c, exists x, expand (Edef (h_struct h) (h_enum h) align d c vs) = Some x.
Proof.
  intros Hh Ht [out H]. destruct (tagged_box_applied h ts Hh Ht) as (code & A & I & _).
  assert (One : forall n m d args rs out, find_macro m the_macros = Some rs -> expand_all parse the_macros n [C true m d args] = Done out ->
    exists n' code', n = S n' /\ apply_rules parse rs args = Done code' /\ done n' code').
  { clear. intros n m d args rs out Hm H. rewrite expand_cons, expand_nil in H.
    change (expand_tk (the_call parse n) (C true m d args)) with (the_call parse n true m d args) in H. unfold the_call in H. rewrite Hm in H.
    destruct n as [|n]; [discriminate H|]. destruct (apply_rules parse rs args) as [code| | |]; try discriminate H. cbn [and_then] in H.
    exists n, code. split; [reflexivity|]. split; [reflexivity|]. destruct (expand_all parse the_macros n code) as [o| | |] eqn:E; try discriminate H.
    exists o. exact E. }
  destruct (One _ "tagged_box" _ _ arms_tagged_box _ eq_refl H) as (n & code' & -> & A' & D). clear H. rewrite A in A'. injection A' as <-.
  apply I in D as [out1 H]. destruct (One _ "__taggable_into_box" _ _ arms_taggable_into_box _ eq_refl H) as (n' & code' & -> & A' & D). clear H. rewrite into_entry in A'. injection A' as <-.
  destruct D as [out2 H]. apply (into_inv parse Hp) in H as (vs & l & L & Hc & G). exists vs. split; [exact L|]. split; [rewrite extra_cost in Hc; lia|].
  intros align d c. apply expand_some. cbn [e_variants]. split.
  - intros ->. apply (variant_list_step parse Hp) in L. apply (step_end parse) in L. contradiction.
  - intros v k Hin. apply (gen_into_some v k). apply (proj1 (gen_all_some gen_into vs) (ex_intro _ l G)). exact Hin.
Qed.

End Whole.
