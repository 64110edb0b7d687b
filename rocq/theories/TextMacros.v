(** Each macro of [CrateMacros.v] on a list of variants. *)
From Coq Require Import Arith NArith String Bool List Lia.
From Verif Require Import Words Config Pointer Mem Box Arms Macro Tokens SpecTokens TokensFacts Heads SpecHeads Lexer MacroRules
  MacroRulesFacts CrateMacros SpecText TextFacts.
Import ListNotations.
Local Open Scope string_scope.
Local Open Scope list_scope.

(** What known code becomes. *)
Ltac bec_list :=
  lazymatch goal with
  | |- TextFacts.becomes _ _ [] _ => apply becomes_nil
  | |- TextFacts.becomes _ _ (_ :: _) _ => eapply becomes_cons; [bec_one | bec_list]
  | |- TextFacts.becomes _ _ (_ ++ _) _ => eapply becomes_app; [bec_part | bec_list]
  | |- TextFacts.becomes _ _ _ _ => bec_part
  end
with bec_part := first [eassumption | apply becomes_types | apply becomes_names | apply becomes_members | apply becomes_Ws]
with bec_one :=
  lazymatch goal with
  | |- TextFacts.becomes _ _ [W _] _ => apply becomes_W
  | |- TextFacts.becomes _ _ [FTy _] _ => apply becomes_FTy
  | |- TextFacts.becomes _ _ [G _ _] _ => apply becomes_G; bec_list
  | |- TextFacts.becomes _ _ [F _ _] _ => apply becomes_F; bec_list
  | |- TextFacts.becomes _ _ [C _ "__expand_tuple" _ (W _ :: W TComma :: _)] _ =>
      match goal with T : TextFacts.becomes _ _ [C _ "__expand_tuple" _ ([W _] ++ _)] _ |- _ => exact T end
  | |- TextFacts.becomes _ _ [C _ "__expand_tuple" _ _] _ =>
      match goal with T : TextFacts.becomes _ _ [C _ "__expand_tuple" _ ([W _; W _; W _] ++ _)] _ |- _ => exact T end
  | |- TextFacts.becomes _ _ [C _ _ _ _] _ => apply becomes_std; reflexivity
  end.
Lemma written2 r e o o' o'' : write_seq r e = Some o -> o = o' -> o' = o'' -> as_done (write_seq r e) = Done o''.
Proof. intros -> -> ->. reflexivity. Qed.
Ltac written_it := eapply written2; [write_it | rewrite !app_nil_r; cbn [app fst snd]; reflexivity | reflexivity].

Ltac finish :=
  unfold read_arm_code, into_arm_code, pattern_of, body_of, inner_body, from_body, ref_body, from_impl_code, tag, path_of, into_inner_of, read_of, filled;
  cbn; rewrite ?app_nil_r; cbn; rewrite ?app_nil_r; reflexivity.

Section Macros.
Variable parse : list tree -> ty_parse.
Hypothesis Hp : parser_ok parse.
Local Notation becomes := (becomes parse).

(** ** [__boxed_into_inner!] *)

Definition inner_args (x : list tk) (e : string) (fin : list tk) (ts : list tree) : list tk :=
  [W TAt; W (TId "inner"); F "expr" x; W TComma; W (TId e); W TComma; W (TId "__tagged_box_enum_counter"); W TComma] ++ G Bracket fin :: map W ts.
Definition code_of {A} (gen : string -> vkind -> option A) (code : A -> list tk) (v : string) (k : vkind) : list tk :=
  match gen v k with Some a => code a | None => [] end.
Local Notation inner_x := [W (TId "self"); W (TOp "."); W (TId "value")].

Definition inner_final_text : list tree := Eval vm_compute in toks
  "#[allow(unused_parens)]
   match self.value.discriminant() {
     ARMS
     _ => panic!(""Attempted to create an enum variant from a discriminant that doesn't exist!""),
   }".
Definition inner_final (o : list tk) : list tk := filled inner_final_text [("ARMS", o)].

Lemma tuple_path n e v : becomes n [F "path" [W (TId e); W (TOp "::"); W (TId v)]] (path_of e v).
Proof. eapply becomes_eq; [bec_list|reflexivity]. Qed.

Definition into_inner_tks (e : string) (x ty : list tk) : list tk :=
  [W (TOp "$crate"); W (TOp "::"); W (TId "TaggedBox"); W (TOp "::"); W (TOp "<"); W (TId e); W (TOp ">"); W (TOp "::"); W (TId "into_inner"); W (TOp "::");
   W (TOp "<")] ++ ty ++ [W (TOp ">"); G Paren [F "expr" x]].

Lemma inner_applied e fin ts :
  match step parse ts with
  | SVar v k rest =>
      forall a, gen_inner v k = Some a ->
      exists code, apply_rules parse arms_boxed_into_inner (inner_args inner_x e fin ts) =
                     Done (C true "__boxed_into_inner" Paren (inner_args inner_x e (fin ++ code) rest) :: [W (TOp ";")]) /\
        forall n, extra k <= n -> becomes n code (read_arm_code (inner_body e a) a)
  | SEnd => exists code, apply_rules parse arms_boxed_into_inner (inner_args inner_x e fin ts) = Done code /\
      forall n o, becomes n fin o -> becomes n code (inner_final o)
  | _ => True
  end.
Proof.
  assert (A := applied5 parse Hp
    [PTok TAt; PTok (TId "inner"); PVar "tagged" "expr"; PTok TComma; PVar "enum" "ident"; PTok TComma; PVar "counter" "ident"; PTok TComma]
    [W TAt; W (TId "inner"); F "expr" inner_x; W TComma; W (TId e); W TComma; W (TId "__tagged_box_enum_counter"); W TComma] _
    fin ts "tt" "tt" "tt" "tt" "tt" "ident" _ _ _ _ _ _ ltac:(discriminate) eq_refl : apply_rules parse arms_boxed_into_inner (inner_args inner_x e fin ts) = _).
  cbv zeta in A. rewrite A. clear A.
  destruct (step parse ts) as [v [|[|t [|u tys]]|ms] rest| | |] eqn:S; try exact Logic.I.
  - intros a E. injection E as <-. eexists. split; [written_it|].
    intros n _. eapply becomes_eq; [cbn [app]; bec_list|finish].
  - intros a E. injection E as <-. eexists. split; [written_it|].
    intros [|n] Hn; [inversion Hn|].
    assert (T := becomes_tuple parse n Paren [W (TId e); W (TOp "::"); W (TId v)] (into_inner_tks e inner_x [W (TId v)])
      (F "path" [W (TId e); W (TOp "::"); W (TId v)]) (F "expr" (into_inner_tks e inner_x [W (TId v)])) _ _ [] _
      ltac:(intros Y; reflexivity) eq_refl ltac:(apply tuple_path) ltac:(apply becomes_F; unfold into_inner_tks; cbn [app]; bec_list)).
    eapply becomes_eq; [cbn [app]; bec_list|finish].
  - intros a E. injection E as <-. eexists. split; [written_it|].
    intros n _. eapply becomes_eq; [cbn [app]; bec_list|finish].
  - intros a E. cbn [gen_inner] in E. destruct (expand_tuple (t :: u :: tys)) as [idx|] eqn:X; [|discriminate E]. injection E as <-.
    eexists. split; [written_it|].
    intros [|n] Hn; [inversion Hn|].
    assert (T := becomes_tuple parse n Paren [W (TId e); W (TOp "::"); W (TId v)] (into_inner_tks e inner_x [W (TId v)])
      (F "path" [W (TId e); W (TOp "::"); W (TId v)]) (F "expr" (into_inner_tks e inner_x [W (TId v)])) _ _ _ _
      ltac:(intros Y; reflexivity) X ltac:(apply tuple_path) ltac:(apply becomes_F; unfold into_inner_tks; cbn [app]; bec_list)).
    eapply becomes_eq; [cbn [app]; bec_list|finish].
  - intros a E. injection E as <-. eexists. split; [written_it|].
    intros n _. eapply becomes_eq; [cbn [app]; bec_list|finish].
  - eexists. split; [written_it|].
    intros n o Ho. eapply becomes_eq; [cbn [app]; bec_list|finish].
Qed.

(** ** [__from_tagged_box!] *)

Local Notation counter := "__tagged_box_enum_counter".
Local Notation total := [W (TId "__TAGGED_BOX_TOTAL_VARIANTS")].
Local Notation tagged_x := [W (TId "tagged")].
Definition from_args (e : string) (fin : list tk) (ts : list tree) : list tk :=
  [W TAt; W (TId "inner"); F "expr" tagged_x; W TComma; W (TId e); W TComma; W (TId counter); W TComma; F "expr" total; W TComma] ++ G Bracket fin :: map W ts.
Definition from_final_text : list tree := Eval vm_compute in toks
  "#[allow(unused_parens)]
   match tagged.discriminant() {
     ARMS
     discriminant => {
       #[allow(non_upper_case_globals)]
       panic!(""The number of variants in `{}` is {}, but a variant by the discriminant of {} was attempted to be created"",
              stringify!(ENUM), __TAGGED_BOX_TOTAL_VARIANTS, discriminant);
     }
   }".
Definition from_final (e : string) (o : list tk) : list tk := filled from_final_text [("ARMS", o); ("ENUM", id e)].

Lemma from_applied e fin ts :
  match step parse ts with
  | SVar v k rest =>
      forall a, gen_from v k = Some a ->
      exists code, apply_rules parse arms_from_tagged_box (from_args e fin ts) =
                     Done (C true "__from_tagged_box" Paren (from_args e (fin ++ code) rest) :: []) /\
        forall n, extra k <= n -> becomes n code (read_arm_code (from_body e a) a)
  | SEnd => exists code, apply_rules parse arms_from_tagged_box (from_args e fin ts) = Done code /\
      forall n o, becomes n fin o -> becomes n code (from_final e o)
  | _ => True
  end.
Proof.
  change (apply_rules parse arms_from_tagged_box (from_args e fin ts)) with (apply_rules parse (tl arms_from_tagged_box) (from_args e fin ts)).
  assert (A := applied5 parse Hp
    [PTok TAt; PTok (TId "inner"); PVar "tagged" "expr"; PTok TComma; PVar "enum" "ident"; PTok TComma; PVar "counter" "ident"; PTok TComma;
     PVar "total_variants" "expr"; PTok TComma]
    [W TAt; W (TId "inner"); F "expr" tagged_x; W TComma; W (TId e); W TComma; W (TId counter); W TComma; F "expr" total; W TComma] _
    fin ts "tt" "tt" "tt" "tt" "tt" "ident" _ _ _ _ _ _ ltac:(discriminate) eq_refl : apply_rules parse (tl arms_from_tagged_box) (from_args e fin ts) = _).
  cbv zeta in A. rewrite A. clear A.
  destruct (step parse ts) as [v [|[|t [|u tys]]|ms] rest| | |] eqn:S; try exact Logic.I.
  - intros a E. injection E as <-. eexists. split; [written_it|].
    intros n _. eapply becomes_eq; [cbn [app]; bec_list|finish].
  - intros a E. injection E as <-. eexists. split; [written_it|].
    intros [|n] Hn; [inversion Hn|].
    assert (T := becomes_tuple parse n Paren [W (TId e); W (TOp "::"); W (TId v)] (into_inner_tks e tagged_x [G Paren []])
      (F "path" [W (TId e); W (TOp "::"); W (TId v)]) (F "expr" (into_inner_tks e tagged_x [G Paren []])) _ _ [] _
      ltac:(intros Y; reflexivity) eq_refl ltac:(apply tuple_path) ltac:(apply becomes_F; unfold into_inner_tks; cbn [app]; bec_list)).
    eapply becomes_eq; [cbn [app]; bec_list|finish].
  - intros a E. injection E as <-. eexists. split; [written_it|].
    intros n _. eapply becomes_eq; [cbn [app]; bec_list|finish].
  - intros a E. cbn [gen_from] in E. destruct (expand_tuple (t :: u :: tys)) as [idx|] eqn:X; [|discriminate E]. injection E as <-.
    eexists. split; [written_it|].
    intros [|n] Hn; [inversion Hn|].
    assert (T := becomes_tuple parse n Paren [W (TId e); W (TOp "::"); W (TId v)]
      (into_inner_tks e tagged_x [G Paren (separated [W TComma] (map (fun t => [FTy t]) (t :: u :: tys)))])
      (F "path" [W (TId e); W (TOp "::"); W (TId v)])
      (F "expr" (into_inner_tks e tagged_x [G Paren (separated [W TComma] (map (fun t => [FTy t]) (t :: u :: tys)))])) _ _ _ _
      ltac:(intros Y; reflexivity) X ltac:(apply tuple_path) ltac:(apply becomes_F; unfold into_inner_tks; cbn [app]; bec_list)).
    eapply becomes_eq; [cbn [app]; bec_list|finish].
  - intros a E. injection E as <-. eexists. split; [written_it|].
    intros n _. eapply becomes_eq; [cbn [app]; bec_list|finish].
  - eexists. split; [written_it|].
    intros n o Ho. eapply becomes_eq; [cbn [app]; bec_list|finish].
Qed.

(** ** [__ref_from_tagged!] *)

Local Notation callback_x := [W (TId "callback")].
Definition ref_args (e : string) (fin : list tk) (ts : list tree) : list tk :=
  [W TAt; W (TId "inner"); F "expr" tagged_x; W TComma; F "expr" callback_x; W TComma; W (TId e); W TComma; W (TId counter); W TComma;
   F "expr" total; W TComma] ++ G Bracket fin :: map W ts.
Definition ref_final_text : list tree := Eval vm_compute in toks
  "#[allow(unused_parens)]
   match tagged.discriminant() {
     ARMS
     discriminant => {
       #[allow(non_upper_case_globals)]
       panic!(""The number of variants in `{}` is {}, but a variant by the discriminant of {} was attempted to be referenced"",
              stringify!(ENUM), __TAGGED_BOX_TOTAL_VARIANTS, discriminant);
     }
   }".
Definition ref_final (e : string) (o : list tk) : list tk := filled ref_final_text [("ARMS", o); ("ENUM", id e)].
Definition read_tks (v : string) : list tk :=
  [F "expr" tagged_x; W (TOp "."); W (TId "as_ptr"); W (TOp "::"); W (TOp "<"); W (TId v); W (TOp ">"); G Paren []; W (TOp "."); W (TId "read"); G Paren []].

Lemma ref_applied e fin ts :
  match step parse ts with
  | SVar v k rest =>
      forall a, gen_ref v k = Some a ->
      exists code, apply_rules parse arms_ref_from_tagged (ref_args e fin ts) =
                     Done (C true "__ref_from_tagged" Paren (ref_args e (fin ++ code) rest) :: []) /\
        forall n, extra k <= n -> becomes n code (read_arm_code (ref_body e a) a)
  | SEnd => exists code, apply_rules parse arms_ref_from_tagged (ref_args e fin ts) = Done code /\
      forall n o, becomes n fin o -> becomes n code (ref_final e o)
  | _ => True
  end.
Proof.
  change (apply_rules parse arms_ref_from_tagged (ref_args e fin ts)) with (apply_rules parse (tl arms_ref_from_tagged) (ref_args e fin ts)).
  assert (A := applied5 parse Hp
    [PTok TAt; PTok (TId "inner"); PVar "tagged" "expr"; PTok TComma; PVar "callback" "expr"; PTok TComma; PVar "enum" "ident"; PTok TComma;
     PVar "counter" "ident"; PTok TComma; PVar "total_variants" "expr"; PTok TComma]
    [W TAt; W (TId "inner"); F "expr" tagged_x; W TComma; F "expr" callback_x; W TComma; W (TId e); W TComma; W (TId counter); W TComma;
     F "expr" total; W TComma] _
    fin ts "tt" "tt" "tt" "tt" "rest" "ident" _ _ _ _ _ _ ltac:(discriminate) eq_refl : apply_rules parse (tl arms_ref_from_tagged) (ref_args e fin ts) = _).
  cbv zeta in A. rewrite A. clear A.
  destruct (step parse ts) as [v [|[|t [|u tys]]|ms] rest| | |] eqn:S; try exact Logic.I.
  - intros a E. injection E as <-. eexists. split; [written_it|].
    intros n _. eapply becomes_eq; [cbn [app]; bec_list|finish].
  - intros a E. injection E as <-. eexists. split; [written_it|].
    intros [|n] Hn; [inversion Hn|].
    assert (T1 := becomes_tuple parse n Paren [W (TId v)] (read_tks v) (F "path" [W (TId v)]) (F "expr" (read_tks v)) _ _ [] _
      ltac:(intros Y; reflexivity) eq_refl ltac:(bec_list) ltac:(apply becomes_F; unfold read_tks; bec_list)).
    assert (T2 := becomes_tuple parse n Paren [W (TId e); W (TOp "::"); W (TId v)] [W (TId "tuple")]
      (F "path" [W (TId e); W (TOp "::"); W (TId v)]) (F "expr" [W (TId "tuple")]) _ _ [] _
      ltac:(intros Y; reflexivity) eq_refl ltac:(apply tuple_path) ltac:(bec_list)).
    eapply becomes_eq; [cbn [app]; bec_list|finish].
  - intros a E. injection E as <-. eexists. split; [written_it|].
    intros n _. eapply becomes_eq; [cbn [app]; bec_list|finish].
  - intros a E. cbn [gen_ref] in E. destruct (expand_tuple (t :: u :: tys)) as [idx|] eqn:X; [|discriminate E]. injection E as <-.
    eexists. split; [written_it|].
    intros [|n] Hn; [inversion Hn|].
    assert (T1 := becomes_tuple parse n Paren [W (TId v)] (read_tks v) (F "path" [W (TId v)]) (F "expr" (read_tks v)) _ _ _ _
      ltac:(intros Y; reflexivity) X ltac:(bec_list) ltac:(apply becomes_F; unfold read_tks; bec_list)).
    assert (T2 := becomes_tuple parse n Paren [W (TId e); W (TOp "::"); W (TId v)] [W (TId "tuple")]
      (F "path" [W (TId e); W (TOp "::"); W (TId v)]) (F "expr" [W (TId "tuple")]) _ _ _ _
      ltac:(intros Y; reflexivity) X ltac:(apply tuple_path) ltac:(bec_list)).
    eapply becomes_eq; [cbn [app]; bec_list|finish].
  - intros a E. injection E as <-. eexists. split; [written_it|].
    intros n _. eapply becomes_eq; [cbn [app]; bec_list|finish].
  - eexists. split; [written_it|].
    intros n o Ho. eapply becomes_eq; [cbn [app]; bec_list|finish].
Qed.
End Macros.
