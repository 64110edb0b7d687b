(** The other macros of [CrateMacros.v] on a list of variants. *)
From Coq Require Import Arith NArith String Bool List Lia.
From Verif Require Import Words Config Pointer Mem Box Arms Macro Tokens SpecTokens TokensFacts Heads SpecHeads Lexer MacroRules
  MacroRulesFacts CrateMacros SpecText TextFacts TextMacros.
Import ListNotations.
Local Open Scope string_scope.
Local Open Scope list_scope.

Section Macros.
Variable parse : list tree -> ty_parse.
Hypothesis Hp : parser_ok parse.
Local Notation becomes := (becomes parse).
Local Notation counter := "__tagged_box_enum_counter".

(** ** [__taggable_into_box!] *)

Local Notation self_x := [W (TId "self")].
Definition into_args (e : string) (fin : list tk) (ts : list tree) : list tk :=
  [W TAt; W (TId "inner"); F "expr" self_x; W TComma; W (TId e); W TComma; W (TId counter)] ++ G Bracket fin :: map W ts.
Definition into_final_text : list tree := Eval vm_compute in toks "match self { ARMS }".
Definition into_final (o : list tk) : list tk := filled into_final_text [("ARMS", o)].

Lemma name_list n l : becomes n (map W (name_trees l)) (ids l).
Proof.
  eapply becomes_eq; [apply becomes_Ws|]. induction l as [|a l IH]; [reflexivity|]. destruct l as [|b l]; [reflexivity|].
  change (flat_map plain_tree (name_trees (a :: b :: l))) with (W (TId a) :: W TComma :: flat_map plain_tree (name_trees (b :: l))).
  rewrite IH. reflexivity.
Qed.

Lemma several_becomes n e v tys pat args :
  becomes n (several_code e counter v tys pat args) (into_arm_code e (IntoArm v (PTuple pat) (INewTuple tys args) (tag_of v))).
Proof.
  unfold several_code, tag_tks. eapply becomes_eq.
  - pose proof (name_list n pat) as B1. pose proof (name_list n args) as B2. bec_list.
  - finish.
Qed.
Lemma empty_becomes n e v : becomes n (empty_code e counter v) (into_arm_code e (IntoArm v (PTuple []) IDangling (tag_of v))).
Proof. unfold empty_code, tag_tks. eapply becomes_eq; [bec_list|finish]. Qed.

Lemma into_applied e fin ts :
  match step parse ts with
  | SVar v (KTuple [t]) rest =>
      exists code, apply_rules parse arms_taggable_into_box (into_args e fin ts) =
                     Done (C true "__taggable_into_box" Paren (into_args e (fin ++ code) rest) :: []) /\
        forall n a, gen_into v (KTuple [t]) = Some a -> becomes n code (into_arm_code e a)
  | SVar v (KTuple tys) rest =>
      apply_rules parse arms_taggable_into_box (into_args e fin ts) =
      Done [C true "__expand_tuple_arm" Paren (arm_args (F "expr" self_x) e counter v tys fin (map W rest))]
  | SVar v k rest =>
      exists code, apply_rules parse arms_taggable_into_box (into_args e fin ts) =
                     Done (C true "__taggable_into_box" Paren (into_args e (fin ++ code) rest) :: []) /\
        forall n a, gen_into v k = Some a -> becomes n code (into_arm_code e a)
  | SEnd => exists code, apply_rules parse arms_taggable_into_box (into_args e fin ts) = Done code /\
      forall n o, becomes n fin o -> becomes n code (into_final o)
  | _ => apply_rules parse arms_taggable_into_box (into_args e fin ts) = Error
  end.
Proof.
  change (apply_rules parse arms_taggable_into_box (into_args e fin ts)) with (apply_rules parse (tl arms_taggable_into_box) (into_args e fin ts)).
  assert (A := applied5 parse Hp
    [PTok TAt; PTok (TId "inner"); PVar "tagged" "expr"; PTok TComma; PVar "enum" "ident"; PTok TComma; PVar "counter" "ident"]
    [W TAt; W (TId "inner"); F "expr" self_x; W TComma; W (TId e); W TComma; W (TId counter)] _
    fin ts "finished" "finished" "tt" "finished" "finished" "member" _ _ _ _ _ _ ltac:(discriminate) eq_refl : apply_rules parse (tl arms_taggable_into_box) (into_args e fin ts) = _).
  cbv zeta in A. rewrite A. clear A.
  destruct (step parse ts) as [v [|[|t [|u tys]]|ms] rest| | |] eqn:S.
  - eexists. split; [written_it|].
    intros n a E. injection E as <-. eapply becomes_eq; [cbn [app]; bec_list|finish].
  - eapply written2; [write_it | rewrite !app_nil_r; cbn [app]; reflexivity | reflexivity].
  - eexists. split; [written_it|].
    intros n a E. injection E as <-. eapply becomes_eq; [cbn [app]; bec_list|finish].
  - eapply written2; [write_it | rewrite !app_nil_r; cbn [app]; reflexivity | reflexivity].
  - eexists. split; [written_it|].
    intros n a E. injection E as <-. eapply becomes_eq; [cbn [app]; bec_list|finish].
  - eexists. split; [written_it|].
    intros n o Ho. eapply becomes_eq; [cbn [app]; bec_list|finish].
  - reflexivity.
  - reflexivity.
Qed.

Lemma arm_of_gen v e tys : length tys <> 1 ->
  match gen_into v (KTuple tys), arm_of v e counter tys with
  | Some a, Some code => forall n, becomes n code (into_arm_code e a)
  | None, None => True
  | _, _ => False
  end.
Proof.
  destruct tys as [|t [|u tys]]; intros H; cbn [gen_into arm_of].
  - intros n. apply empty_becomes.
  - contradiction H. reflexivity.
  - destruct (find_arm (length (t :: u :: tys)) expand_tuple_arm_arms) as [[pat args]|]; cbn [option_map]; [|exact Logic.I].
    intros n. apply several_becomes.
Qed.

(** The arms of [into_tagged_box]. *)
Lemma into_done e : forall vs ts fin n o l, variant_list parse ts vs -> gen_all gen_into vs = Some l -> becomes n fin o ->
  becomes (total_cost extra vs + S n) [C true "__taggable_into_box" Paren (into_args e fin ts)] (into_final (o ++ flat_map (into_arm_code e) l)).
Proof.
  induction vs as [|[v k] vs IH]; intros ts fin n o l L G Ho; apply (variant_list_step parse Hp) in L; pose proof (into_applied e fin ts) as A.
  - rewrite L in A. injection G as <-. destruct A as (code & A & B). cbn [flat_map total_cost plus]. rewrite app_nil_r.
    eapply becomes_call; [reflexivity|exact A|]. apply B. exact Ho.
  - destruct L as (rest & S & L). rewrite S in A. cbn [gen_all] in G. destruct (gen_into v k) as [a|] eqn:E; [|discriminate G].
    destruct (gen_all gen_into vs) as [l'|] eqn:E'; [|discriminate G]. injection G as <-.
    assert (R : forall code, (forall n, becomes n code (into_arm_code e a)) -> becomes (total_cost extra vs + Datatypes.S n)
      [C true "__taggable_into_box" Paren (into_args e (fin ++ code) rest)] (into_final (o ++ flat_map (into_arm_code e) (a :: l')))).
    { intros code B. cbn [flat_map]. rewrite app_assoc. apply IH; [exact L|reflexivity|]. apply becomes_app; [exact Ho|apply B]. }
    destruct k as [|tys|ms].
    + destruct A as (code & A & B). eapply becomes_call; [reflexivity|exact A|]. apply R. intros n'. apply B. first [exact E | reflexivity].
    + assert (D : length tys = 1 \/ length tys <> 1) by lia. destruct D as [D|D].
      * destruct tys as [|t [|? ?]]; try discriminate D. destruct A as (code & A & B). eapply becomes_call; [reflexivity|exact A|]. apply R. intros n'. apply B. first [exact E | reflexivity].
      * assert (A' : apply_rules parse arms_taggable_into_box (into_args e fin ts) =
          Done [C true "__expand_tuple_arm" Paren (arm_args (F "expr" self_x) e counter v tys fin (map W rest))]).
        { destruct tys as [|t [|? ?]]; [exact A|contradiction D; reflexivity|exact A]. }
        assert (X : extra (KTuple tys) = 1) by (destruct tys as [|t [|? ?]]; [reflexivity|contradiction D; reflexivity|reflexivity]).
        cbn [total_cost]. rewrite X. cbn [plus].
        pose proof (arm_of_gen v e tys D) as Q. rewrite E in Q. destruct (arm_of v e counter tys) as [code|] eqn:Ec; [|contradiction].
        eapply becomes_call; [reflexivity|exact A'|]. eapply becomes_call; [reflexivity| |].
        { rewrite (arm_applied parse Hp) by (eexists; reflexivity). rewrite Ec. reflexivity. }
        apply R. exact Q.
    + destruct A as (code & A & B). eapply becomes_call; [reflexivity|exact A|]. apply R. intros n'. apply B. first [exact E | reflexivity].
Qed.

(** And only then it gets done. *)
Lemma into_inv e : forall n ts fin out,
  expand_all parse the_macros n [C true "__taggable_into_box" Paren (into_args e fin ts)] = Done out ->
  exists vs l, variant_list parse ts vs /\ total_cost extra vs + 1 <= n /\ gen_all gen_into vs = Some l.
Proof.
  assert (One : forall n m args rs out, find_macro m the_macros = Some rs -> expand_all parse the_macros n [C true m Paren args] = Done out ->
    exists n' o, n = S n' /\ apply_rules parse rs args = Done o /\ expand_all parse the_macros n' o = Done out).
  { intros n m args rs out Hm H. rewrite expand_cons, expand_nil in H. cbn [expand_tk] in H. unfold the_call in H. rewrite Hm in H.
    destruct n as [|n']; [discriminate H|]. destruct (apply_rules parse rs args) as [o| | |]; try discriminate H. cbn [and_then] in H.
    destruct (expand_all parse the_macros n' o) as [o'| | |] eqn:Q; try discriminate H. cbn [and_then] in H. rewrite app_nil_r in H.
    injection H as <-. eauto. }
  induction n as [n IH] using lt_wf_ind. intros ts fin out H.
  destruct (One _ "__taggable_into_box" _ arms_taggable_into_box _ eq_refl H) as (n1 & o1 & -> & A1 & H1).
  pose proof (into_applied e fin ts) as A. pose proof (step_variant_list parse Hp ts) as SV.
  destruct (step parse ts) as [v k rest| | |] eqn:S.
  - assert (R : forall m code, m < Datatypes.S n1 -> expand_all parse the_macros m [C true "__taggable_into_box" Paren (into_args e (fin ++ code) rest)] = Done out ->
      exists vs l, variant_list parse rest vs /\ total_cost extra vs + 1 <= m /\ gen_all gen_into vs = Some l) by (intros m code Hm; apply IH; exact Hm).
    assert (K : forall vs l m, variant_list parse rest vs /\ total_cost extra vs + 1 <= m /\ gen_all gen_into vs = Some l ->
      Datatypes.S (extra k + m) <= Datatypes.S n1 -> (exists a, gen_into v k = Some a) ->
      exists vs l, variant_list parse ts vs /\ total_cost extra vs + 1 <= Datatypes.S n1 /\ gen_all gen_into vs = Some l).
    { intros vs l m (L & Hc & G) Hm (a & E). exists ((v, k) :: vs), (a :: l). split; [apply SV; exact L|]. split; [cbn [total_cost]; lia|].
      cbn [gen_all]. rewrite E, G. reflexivity. }
    destruct k as [|tys|ms].
    + destruct A as (code & A & _). rewrite A in A1. injection A1 as <-. destruct (R n1 code ltac:(lia) H1) as (vs & l & Q).
      apply (K vs l n1 Q); [cbn; lia|eexists; reflexivity].
    + assert (D : length tys = 1 \/ length tys <> 1) by lia. destruct D as [D|D].
      * destruct tys as [|t [|? ?]]; try discriminate D. destruct A as (code & A & _). rewrite A in A1. injection A1 as <-.
        destruct (R n1 code ltac:(lia) H1) as (vs & l & Q). apply (K vs l n1 Q); [cbn; lia|eexists; reflexivity].
      * assert (A' : apply_rules parse arms_taggable_into_box (into_args e fin ts) =
          Done [C true "__expand_tuple_arm" Paren (arm_args (F "expr" self_x) e counter v tys fin (map W rest))]).
        { destruct tys as [|t [|? ?]]; [exact A|contradiction D; reflexivity|exact A]. }
        assert (X : extra (KTuple tys) = 1) by (destruct tys as [|t [|? ?]]; [reflexivity|contradiction D; reflexivity|reflexivity]).
        rewrite A' in A1. injection A1 as <-. destruct (One _ "__expand_tuple_arm" _ arms_expand_tuple_arm _ eq_refl H1) as (n2 & o2 & -> & A2 & H2).
        rewrite (arm_applied parse Hp) in A2 by (eexists; reflexivity). pose proof (arm_of_gen v e tys D) as Q.
        destruct (arm_of v e counter tys) as [code|]; [|discriminate A2]. injection A2 as <-.
        destruct (R n2 code ltac:(lia) H2) as (vs & l & Q'). apply (K vs l n2 Q'); [lia|].
        destruct (gen_into v (KTuple tys)) as [a|]; [eauto|contradiction].
    + destruct A as (code & A & _). rewrite A in A1. injection A1 as <-. destruct (R n1 code ltac:(lia) H1) as (vs & l & Q).
      apply (K vs l n1 Q); [cbn; lia|eexists; reflexivity].
  - exists [], []. split; [apply SV|]. split; [cbn; lia|reflexivity].
  - rewrite A in A1. discriminate A1.
  - rewrite A in A1. discriminate A1.
Qed.

(** ** [__derive_from!] *)

Lemma applied0 pre toks e ts m r1 r2 r3 r4 r5 more : m <> "ty" ->
  (forall Y, match_seq parse pre (toks ++ Y) = Match (e, Y)) ->
  apply_rules parse
    (Rule (pre ++ p_suffix pb_single "rest") r1 ::
     Rule (pre ++ p_suffix pb_tuple "rest") r2 ::
     Rule (pre ++ p_suffix (pb_struct m) "rest") r3 ::
     Rule (pre ++ p_suffix (pb_struct_comma m) "rest") r3 ::
     Rule (pre ++ p_suffix [] "rest") r4 ::
     Rule pre r5 :: more) (toks ++ map W ts) =
  match step parse ts with
  | SVar v (KTuple [t]) rest => as_done (write_seq r1 (e ++ single_env "variant" "ty" "rest" (v, t, rest)))
  | SVar v (KTuple tys) rest => as_done (write_seq r2 (e ++ tuple_env "variant" "ty" "rest" (v, tys, rest)))
  | SVar v (KStruct ms) rest => as_done (write_seq r3 (e ++ struct_env "variant" m "ty" "rest" (v, ms, rest)))
  | SVar v KUnit rest => as_done (write_seq r4 (e ++ unit_env "variant" "rest" (v, rest)))
  | SEnd => as_done (write_seq r5 e)
  | SStuck => apply_rules parse more (toks ++ map W ts)
  | SFatal => Error
  end.
Proof.
  intros Hm H. rewrite !apply_cons.
  rewrite (match_muncher0 parse pre (p_suffix pb_single "rest") toks e ts _ _ H (match_single parse "variant" "ty" "rest" ts)).
  rewrite (match_muncher0 parse pre (p_suffix pb_tuple "rest") toks e ts _ _ H (match_tuple parse Hp "variant" "ty" "rest" ts)).
  rewrite (match_muncher0 parse pre (p_suffix (pb_struct m) "rest") toks e ts _ _ H (match_struct parse Hp "variant" m "ty" "rest" ts Hm)).
  rewrite (match_muncher0 parse pre (p_suffix (pb_struct_comma m) "rest") toks e ts _ _ H (match_struct_comma parse Hp "variant" m "ty" "rest" ts Hm)).
  rewrite (match_muncher0 parse pre (p_suffix [] "rest") toks e ts _ _ H (match_unit parse "variant" "rest" ts)).
  rewrite (match_all_ended parse pre), H. rewrite !arm_mmap.
  rewrite <- (munch5 parse ts (fun v t rest => _) (fun v tys rest => _) (fun v ms rest => _) (fun v rest => _) _ _ Hp).
  unfold arm.
  destruct (p_single parse ts) as [| |[[v t] rest]]; try reflexivity.
  destruct (p_tuple parse ts) as [| |[[v tys] rest]]; try reflexivity.
  destruct (p_struct parse ts) as [| |[[v ms] rest]]; try reflexivity.
  destruct (p_struct_comma parse ts) as [| |[[v ms] rest]]; try reflexivity.
  destruct (p_unit ts) as [| |[v rest]]; try reflexivity. destruct ts; reflexivity.
Qed.

Definition derive_args (s e : string) (ts : list tree) : list tk :=
  [W TAt; W (TId "inner"); W (TId s); W TComma; W (TId e); W TComma] ++ map W ts.

Lemma becomes_each n l : becomes n (flat_map (fun t => [FTy t; W TComma]) l) (types_each l).
Proof.
  apply becomes_flat_map. intros t _. apply (becomes_cons parse n (FTy t) _ [FTy t]); [apply becomes_FTy|]. apply becomes_W.
Qed.

Lemma derive_applied s e ts :
  match step parse ts with
  | SVar v k rest =>
      forall l, gen_from_impl v k = Some l ->
      exists code, apply_rules parse arms_derive_from (derive_args s e ts) =
                     Done (code ++ [C true "__derive_from" Brace (derive_args s e rest)]) /\
        forall n, 1 <= n -> becomes n code (flat_map (from_impl_code s e) l)
  | SEnd => apply_rules parse arms_derive_from (derive_args s e ts) = Done []
  | _ => True
  end.
Proof.
  assert (A := applied0
    [PTok TAt; PTok (TId "inner"); PVar "struct" "ident"; PTok TComma; PVar "enum" "ident"; PTok TComma]
    [W TAt; W (TId "inner"); W (TId s); W TComma; W (TId e); W TComma] _
    ts "ident" _ _ _ _ _ _ ltac:(discriminate) ltac:(intros Y; reflexivity) : apply_rules parse arms_derive_from (derive_args s e ts) = _).
  rewrite A. clear A.
  destruct (step parse ts) as [v [|[|t [|u tys]]|ms] rest| | |] eqn:S; try exact Logic.I.
  - intros l E. injection E as <-. exists []. split; [|intros n _; apply becomes_nil].
    eapply written2; [write_it | rewrite !app_nil_r; cbn [app fst snd]; reflexivity | reflexivity].
  - intros l E. injection E as <-. eexists. split.
    + eapply written2; [write_it | rewrite !app_nil_r; cbn [app fst snd]; reflexivity |].
      match goal with |- [?a;?b;?c;?d;?f;?g;?h;?i;?j] = _ => instantiate (1 := [a;b;c;d;f;g;h;i]) end. reflexivity.
    + intros [|n] Hn; [inversion Hn|].
      assert (T := becomes_tuple parse n Paren [W (TId e); W (TOp "::"); W (TId v)] [W (TId "tuple")]
        (F "path" [W (TId e); W (TOp "::"); W (TId v)]) (F "expr" [W (TId "tuple")]) _ _ [] _
        ltac:(intros Y; reflexivity) eq_refl ltac:(apply tuple_path) ltac:(bec_list)).
      pose proof (becomes_each (Datatypes.S n) []) as B.
      eapply becomes_eq; [cbn [app]; bec_list|finish].
  - intros l E. injection E as <-. eexists. split.
    + eapply written2; [write_it | rewrite !app_nil_r; cbn [app fst snd]; reflexivity |].
      match goal with |- [?a;?b;?c;?d;?f;?g;?h;?i;?j] = _ => instantiate (1 := [a;b;c;d;f;g;h;i]) end. reflexivity.
    + intros n _. eapply becomes_eq; [cbn [app]; bec_list|finish].
  - intros l E. cbn [gen_from_impl] in E. destruct (expand_tuple (t :: u :: tys)) as [idx|] eqn:X; [|discriminate E]. injection E as <-.
    eexists. split.
    + eapply written2; [write_it | rewrite !app_nil_r; cbn [app fst snd]; reflexivity |].
      match goal with |- [?a;?b;?c;?d;?f;?g;?h;?i;?j] = _ => instantiate (1 := [a;b;c;d;f;g;h;i]) end. reflexivity.
    + intros [|n] Hn; [inversion Hn|].
      assert (T := becomes_tuple parse n Paren [W (TId e); W (TOp "::"); W (TId v)] [W (TId "tuple")]
        (F "path" [W (TId e); W (TOp "::"); W (TId v)]) (F "expr" [W (TId "tuple")]) _ _ _ _
        ltac:(intros Y; reflexivity) X ltac:(apply tuple_path) ltac:(bec_list)).
      pose proof (becomes_each (Datatypes.S n) (t :: u :: tys)) as B.
      eapply becomes_eq; [cbn [app]; bec_list|finish].
  - intros l E. injection E as <-. exists []. split; [|intros n _; apply becomes_nil].
    eapply written2; [write_it | rewrite !app_nil_r; cbn [app fst snd]; reflexivity | reflexivity].
  - reflexivity.
Qed.
End Macros.
