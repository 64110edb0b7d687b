(** C67: the two macros of the crate that nothing calls. *)
From Coq Require Import Arith NArith String Ascii Bool List Lia.
From Verif Require Import Words Config Pointer Mem Box Arms Macro Tokens SpecTokens TokensFacts Heads SpecHeads Props_Heads Props_Tokens
  Lexer MacroRules MacroRulesFacts CrateMacros SpecText TextFacts TextMacros Constants Bump.
Import ListNotations.
Local Open Scope string_scope.
Local Open Scope list_scope.

(** ** [__verify_variants!] *)

Lemma call_done parse n c m d args rs out : find_macro m the_macros = Some rs ->
  expand_all parse the_macros (S n) [C c m d args] = Done out ->
  exists o o', apply_rules parse rs args = Done o /\ expand_all parse the_macros n o = Done o'.
Proof.
  intros F H. rewrite expand_cons, expand_nil in H. cbn [expand_tk] in H. unfold the_call in H. rewrite F in H.
  destruct (apply_rules parse rs args) as [o| | |e]; [|discriminate H..]. cbn [and_then] in H.
  exists o. destruct (expand_all parse the_macros n o) as [o'| | |e]; [|discriminate H..]. exists o'. split; reflexivity.
Qed.

Theorem C67_verify : forall parse limit c d args out,
  expand_all parse the_macros limit [C c "__verify_variants" d args] <> Done out.
Proof.
  intros parse limit. induction limit as [|n IH]; intros c d args out H.
  { rewrite expand_cons, expand_nil in H. discriminate H. }
  assert (K : forall o, apply_rules parse arms_verify_variants args = Done o -> exists a, o = [C true "__verify_variants" Paren a]).
  { assert (Z : forall e o, write_seq [TCall true "__verify_variants" Paren [TRep [TVar "rest"] None]] e = Some o ->
        exists a, o = [C true "__verify_variants" Paren a]).
    { intros e o E. cbn [write_seq] in E.
      assert (Y : forall a, write (TCall true "__verify_variants" Paren [TRep [TVar "rest"] None]) e = Some a ->
          exists b, a = [C true "__verify_variants" Paren b]).
      { intros a A. cbn [write] in A.
        match type of A with option_map _ ?X = _ => destruct X as [b|]; [|discriminate A] end. injection A as <-. exists b. reflexivity. }
      destruct (write (TCall true "__verify_variants" Paren [TRep [TVar "rest"] None]) e) as [a|]; [|discriminate E].
      destruct (Y a eq_refl) as (b & ->). injection E as <-. exists b. reflexivity. }
    intros o E. unfold arms_verify_variants in E. rewrite !apply_cons in E.
    repeat match type of E with
    | context [match_all ?p ?a ?b] => destruct (match_all p a b) as [| |e]; cbn [arm] in E; try discriminate E
    | context [write_seq ?r ?e] => destruct (write_seq r e) as [o'|] eqn:Q; [|discriminate E]; injection E as <-; exact (Z _ _ Q)
    end; cbn [apply_rules] in E; try discriminate E. }
  destruct (call_done parse n c "__verify_variants" d args arms_verify_variants out eq_refl H) as (o & o' & A & X). destruct (K o A) as (a & ->). exact (IH _ _ _ _ X).
Qed.

(** ** [__generate_const_sizes!] *)

(** Its text, with a block for each type. *)
Definition size_text : list tree := Eval vm_compute in toks
  "+ { const __NUMBER_VAR_BITS: usize = core::mem::size_of::<TYPE>() * 8; __NUMBER_VAR_BITS }".
Definition sizes_text : list tree := Eval vm_compute in toks "{ 0 SIZES }".
Definition size_code (t : rty) : list tk := filled size_text [("TYPE", [FTy t])].
Definition sizes_code (tys : list rty) : list tk := filled sizes_text [("SIZES", flat_map size_code tys)].

(** No type begins with [@]. *)
Definition at_ok (parse : list tree -> ty_parse) : Prop := forall ts, parse (TAt :: ts) = NoStart.

Definition each (tys : list rty) : list tk := flat_map (fun t => [FTy t; W TComma]) tys.
Definition size_args (fin : list tk) (tys : list rty) : list tk := W TAt :: W (TId "inner") :: G Bracket fin :: each tys.

Lemma times_each parse x : forall tys n, List.length tys < n -> parser_ok parse ->
  times (match_seq parse [PVar x "ty"; PTok TComma]) None n false (each tys) = Match (map (ty_env x) tys, []).
Proof.
  induction tys as [|t tys IH]; intros [|n] Hn Hp; try (exfalso; cbn [List.length] in Hn; lia); rewrite times_S.
  - assert (N : match_seq parse [PVar x "ty"; PTok TComma] (each []) = NoMatch).
    { change (each []) with (map W []). cbn [match_seq]. cbn [match_pat]. rewrite (fragment_ty parse []), (proj1 Hp). reflexivity. }
    rewrite N. reflexivity.
  - change (match_seq parse [PVar x "ty"; PTok TComma] (each (t :: tys))) with (Match (ty_env x t, each tys) : mres (env * list tk)).
    cbv zeta beta iota. cbn [List.length] in Hn. rewrite IH by (try exact Hp; lia). reflexivity.
Qed.

Lemma length_each tys : List.length (each tys) = 2 * List.length tys.
Proof. induction tys as [|t tys IH]; [reflexivity|]. cbn [each flat_map app List.length] in *. fold (each tys). lia. Qed.

Lemma match_each parse x tys : parser_ok parse ->
  match_seq parse [PRep [PVar x "ty"; PTok TComma] None false] (each tys) = Match ([(x, tys_bnd tys)], []).
Proof.
  intros Hp. rewrite match_one, match_rep, times_each by (try exact Hp; rewrite length_each; lia).
  cbn [flat_map pat_vars app]. unfold repeated. destruct tys as [|t tys]; [reflexivity|].
  cbn [map]. change (ty_env x t :: map (ty_env x) tys) with (map (ty_env x) (t :: tys)). rewrite collect_types. reflexivity.
Qed.

Definition sizes_prefix : list pat := [PTok TAt; PTok (TId "inner"); PGroup Bracket [PRep [PVar "finished" "tt"] None false]].
Lemma match_sizes_prefix parse fin X :
  match_seq parse sizes_prefix (W TAt :: W (TId "inner") :: G Bracket fin :: X) = Match ([("finished", BMany (map BOne fin))], X).
Proof.
  unfold sizes_prefix. cbn [match_seq]. change (match_pat parse (PTok TAt) (W TAt :: ?l)) with (Match ([], l) : mres (env * list tk)).
  cbn [then_match]. change (match_pat parse (PTok (TId "inner")) (W (TId "inner") :: ?l)) with (Match ([], l) : mres (env * list tk)).
  cbn [then_match]. rewrite match_group_G. unfold in_group. cbn [delim_eqb]. rewrite match_one, match_tts. cbn [then_match match_seq app]. reflexivity.
Qed.

Definition size_tks (t : rty) : list tk := Eval vm_compute in
  [W (TOp "+"); G Brace (map W (toks "const __NUMBER_VAR_BITS: usize = core::mem::size_of::<") ++ FTy t :: W (TOp ">") :: G Paren [] ::
     map W (toks "* 8; __NUMBER_VAR_BITS"))].

(** A call with [@inner] does not fit the first arm, which begins with a type. *)
Lemma sizes_first parse X : parser_ok parse -> at_ok parse ->
  match_all parse [PRep [PVar "ty" "ty"] (Some TComma) false] (W TAt :: W (TId "inner") :: G Bracket X :: []) = NoMatch /\
  forall Y, match_all parse [PRep [PVar "ty" "ty"] (Some TComma) false] (W TAt :: W (TId "inner") :: G Bracket X :: Y) = NoMatch.
Proof.
  intros Hp Ha.
  assert (H : forall Y, match_all parse [PRep [PVar "ty" "ty"] (Some TComma) false] (W TAt :: W (TId "inner") :: G Bracket X :: Y) = NoMatch).
  { intros Y. rewrite match_all_ended, match_one, match_rep, times_S. cbn [match_seq match_pat].
    assert (N : fragment parse "ty" (W TAt :: W (TId "inner") :: G Bracket X :: Y) = NoMatch).
    { change (match parse [TAt; TId "inner"] with NoStart => NoMatch | Syntax => Fatal
              | Parsed t r => Match (FTy t, map W r ++ G Bracket X :: Y) end = (NoMatch : mres (tk * list tk))).
      rewrite (Ha [TId "inner"]). reflexivity. }
    rewrite N. reflexivity. }
  split; [apply H|exact H].
Qed.

Lemma sizes_step parse fin t tys : parser_ok parse -> at_ok parse ->
  apply_rules parse arms_generate_const_sizes (size_args fin (t :: tys)) =
  Done [C true "__generate_const_sizes" Paren (size_args (fin ++ size_tks t) tys)].
Proof.
  intros Hp Ha. unfold arms_generate_const_sizes. rewrite !apply_cons. unfold size_args. rewrite (proj2 (sizes_first parse fin Hp Ha)).
  cbn [arm].
  assert (M : match_all parse (sizes_prefix ++ [PVar "ty" "ty"; PTok TComma; PRep [PVar "rest" "ty"; PTok TComma] None false])
                (W TAt :: W (TId "inner") :: G Bracket fin :: each (t :: tys)) =
              Match [("finished", BMany (map BOne fin)); ("ty", BOne (FTy t)); ("rest", tys_bnd tys)]).
  { rewrite match_all_ended, match_seq_app, match_sizes_prefix, then_match_match.
    assert (R : match_seq parse [PVar "ty" "ty"; PTok TComma; PRep [PVar "rest" "ty"; PTok TComma] None false] (each (t :: tys)) =
                Match ([("ty", BOne (FTy t)); ("rest", tys_bnd tys)], [])).
    { change (each (t :: tys)) with (FTy t :: W TComma :: each tys).
      change (then_match (Match ([("ty", BOne (FTy t))], W TComma :: each tys))
        (match_seq parse [PTok TComma; PRep [PVar "rest" "ty"; PTok TComma] None false]) = Match ([("ty", BOne (FTy t)); ("rest", tys_bnd tys)], [])).
      rewrite then_match_match.
      change (match_seq parse [PTok TComma; PRep [PVar "rest" "ty"; PTok TComma] None false] (W TComma :: each tys)) with
        (then_match (Match ([], each tys)) (match_seq parse [PRep [PVar "rest" "ty"; PTok TComma] None false])).
      rewrite then_match_match, match_each by exact Hp. reflexivity. }
    rewrite R. reflexivity. }
  unfold sizes_prefix in M. cbn [app] in M. rewrite M. cbn [arm].
  eapply written; [write_it|]. unfold each. rewrite flat_map_concat_map, !app_nil_r. reflexivity.
Qed.

Lemma sizes_end parse fin : parser_ok parse -> at_ok parse ->
  apply_rules parse arms_generate_const_sizes (size_args fin []) = Done fin.
Proof.
  intros Hp Ha. unfold arms_generate_const_sizes. rewrite !apply_cons. unfold size_args. rewrite (proj2 (sizes_first parse fin Hp Ha)).
  cbn [arm].
  assert (M : match_all parse (sizes_prefix ++ [PVar "ty" "ty"; PTok TComma; PRep [PVar "rest" "ty"; PTok TComma] None false])
                (W TAt :: W (TId "inner") :: G Bracket fin :: each []) = NoMatch).
  { rewrite match_all_ended, match_seq_app, match_sizes_prefix, then_match_match. cbn [each flat_map match_seq match_pat].
    change (fragment parse "ty" []) with (fragment parse "ty" (map W [])). rewrite (fragment_ty parse []), (proj1 Hp). reflexivity. }
  unfold sizes_prefix in M. cbn [app] in M. rewrite M. cbn [arm]. clear M.
  assert (M := match_sizes_prefix parse fin []). unfold sizes_prefix in M. rewrite match_all_ended. cbn [each flat_map]. rewrite M. cbn [ended arm].
  eapply written; [write_it|]. rewrite app_nil_r. reflexivity.
Qed.

Lemma sizes_inner parse : parser_ok parse -> at_ok parse -> forall tys n fin o, List.length tys <= n ->
  (forall n, becomes parse n fin o) ->
  becomes parse (S n) [C true "__generate_const_sizes" Paren (size_args fin tys)] (o ++ flat_map size_code tys).
Proof.
  intros Hp Ha. induction tys as [|t tys IH]; intros n fin o Hn F.
  - eapply becomes_call; [reflexivity|apply sizes_end; assumption|]. cbn [flat_map]. rewrite app_nil_r. apply F.
  - destruct n as [|n]; [cbn [List.length] in Hn; lia|]. eapply becomes_call; [reflexivity|apply sizes_step; assumption|].
    cbn [flat_map]. rewrite app_assoc. apply IH; [cbn [List.length] in Hn; lia|].
    intros k. apply becomes_app; [apply F|]. eapply becomes_eq; [unfold size_tks; bec_list|reflexivity].
Qed.

Lemma sizes_least parse : parser_ok parse -> at_ok parse -> forall tys n fin out, 
  expand_all parse the_macros n [C true "__generate_const_sizes" Paren (size_args fin tys)] = Done out -> List.length tys < n.
Proof.
  intros Hp Ha. induction tys as [|t tys IH]; intros [|n] fin out H; try (rewrite expand_cons, expand_nil in H; discriminate H); cbn [List.length]; [lia|].
  destruct (call_done parse n true "__generate_const_sizes" Paren (size_args fin (t :: tys)) arms_generate_const_sizes out eq_refl H) as (o & o' & A & X).
  rewrite sizes_step in A by assumption. injection A as <-. specialize (IH _ _ _ X). lia.
Qed.

(** Types separated by commas, perhaps none. *)
Definition some_types (parse : list tree -> ty_parse) (ts : list tree) (tys : list rty) : Prop :=
  (ts = [] /\ tys = []) \/ types_of parse ts tys.

Lemma sizes_call parse ts : parser_ok parse ->
  (exists tys, some_types parse ts tys /\
    apply_rules parse arms_generate_const_sizes (map W ts) = Done [G Brace [C true "__generate_const_sizes" Paren (size_args [W (TLit "0")] tys)]]) \/
  (forall tys, ~ some_types parse ts tys).
Proof.
  intros Hp. destruct (m_types parse ts) as [| |tys] eqn:M.
  1, 2: right; intros tys T; apply (m_types_spec parse Hp) in T; rewrite M in T; discriminate T.
  left. exists tys. split; [apply (m_types_spec parse Hp); exact M|]. unfold arms_generate_const_sizes. rewrite apply_cons, match_all_ended, (match_types parse Hp), M.
  cbn [mmap arm]. eapply written; [write_it|]. unfold size_args, each. rewrite flat_map_concat_map, !app_nil_r. reflexivity.
Qed.

Theorem C67_sizes : forall parse limit c d ts tys, parser_ok parse -> at_ok parse -> some_types parse ts tys ->
  ((exists out, expand_all parse the_macros limit [C c "__generate_const_sizes" d (map W ts)] = Done out) <-> List.length tys + 2 <= limit) /\
  forall out, expand_all parse the_macros limit [C c "__generate_const_sizes" d (map W ts)] = Done out -> plain out = sizes_code tys.
Proof.
  intros parse limit c d ts tys Hp Ha T.
  assert (A : apply_rules parse arms_generate_const_sizes (map W ts) =
    Done [G Brace [C true "__generate_const_sizes" Paren (size_args [W (TLit "0")] tys)]]).
  { destruct (sizes_call parse ts Hp) as [(tys' & T' & A)|N]; [|destruct (N tys T)].
    apply (m_types_spec parse Hp) in T, T'. rewrite T in T'. injection T' as <-. exact A. }
  assert (B : List.length tys + 2 <= limit -> becomes parse limit [C c "__generate_const_sizes" d (map W ts)] (sizes_code tys)).
  { intros L. destruct limit as [|[|n]]; [lia|lia|]. eapply becomes_call; [reflexivity|exact A|].
    eapply becomes_eq; [apply becomes_G; apply (sizes_inner parse Hp Ha tys n [W (TLit "0")] [W (TLit "0")]); [lia|intros k; apply becomes_W]|].
    unfold sizes_code, filled, sizes_text. cbn [flat_map fill lookup]. change (String.eqb "SIZES" "SIZES") with true. cbv iota.
    rewrite !app_nil_r. reflexivity. }
  assert (L : forall out, expand_all parse the_macros limit [C c "__generate_const_sizes" d (map W ts)] = Done out -> List.length tys + 2 <= limit).
  { intros out H. destruct limit as [|n]; [rewrite expand_cons, expand_nil in H; discriminate H|].
    destruct (call_done parse n c "__generate_const_sizes" d (map W ts) arms_generate_const_sizes out eq_refl H) as (o & o' & E & X).
    rewrite A in E. injection E as <-. rewrite expand_cons, expand_nil, expand_G in X.
    destruct (expand_all parse the_macros n [C true "__generate_const_sizes" Paren (size_args [W (TLit "0")] tys)]) as [y| | |] eqn:Y; [|discriminate X..].
    apply sizes_least in Y; try assumption. lia. }
  split.
  - split; [intros [out H]; exact (L out H)|]. intros Q. destruct (B Q) as (out & H & _). exists out. exact H.
  - intros out H. destruct (B (L out H)) as (out' & H' & P). rewrite H in H'. injection H' as <-. exact P.
Qed.

(** Anything else is refused. *)
Theorem C67_sizes_only : forall parse limit c d ts out, parser_ok parse -> at_ok parse -> hd_error ts <> Some TAt ->
  expand_all parse the_macros limit [C c "__generate_const_sizes" d (map W ts)] = Done out -> exists tys, some_types parse ts tys.
Proof.
  intros parse limit c d ts out Hp Ha Hd H. destruct limit as [|n]; [rewrite expand_cons, expand_nil in H; discriminate H|].
  destruct (call_done parse n c "__generate_const_sizes" d (map W ts) arms_generate_const_sizes out eq_refl H) as (o & o' & E & X).
  destruct (sizes_call parse ts Hp) as [(tys & T & _)|N]; [exists tys; exact T|exfalso].
  revert E. unfold arms_generate_const_sizes. rewrite !apply_cons, match_all_ended, (match_types parse Hp).
  destruct (m_types parse ts) as [| |tys] eqn:M; [| |destruct (N tys); apply (m_types_spec parse Hp); exact M].
  2: discriminate.
  cbn [mmap arm].
  assert (Z : forall ps, match_all parse (PTok TAt :: ps) (map W ts) = NoMatch).
  { intros ps. rewrite match_all_ended. destruct ts as [|[] ts]; try reflexivity. contradiction Hd. reflexivity. }
  rewrite !Z. cbn [arm apply_rules]. discriminate.
Qed.

(** ** What it computes *)

Local Open Scope N_scope.

(** The value of an expression that is a block. *)
Definition const_value (width : N) (size : rty -> N) (code : list tk) : option N :=
  match code with [G Brace l] => block_value width size 2 l | _ => None end.

(** The number of bits. *)
Fixpoint bits_of (size : rty -> N) (tys : list rty) : N :=
  match tys with [] => 0 | t :: tys => 8 * size t + bits_of size tys end.

Definition size_block (t : rty) : list tk := match size_tks t with [_; G _ l] => l | _ => [] end.
Lemma size_code_block t : size_code t = [W (TOp "+"); G Brace (size_block t)].
Proof. reflexivity. Qed.

Lemma block_size width size t : block_value width size 1 (size_block t) = in_usize width (size t * 8).
Proof.
  unfold size_block, size_tks, block_value.
  match goal with |- match strip _ (?a :: ?b :: ?r) with _ => _ end = _ => change (strip const_text (a :: b :: r)) with (Some (b :: r)) end.
  cbv iota beta.
  match goal with |- match strip _ (?a :: ?b :: ?c :: ?r) with _ => _ end = _ => change (strip const_type_text (a :: b :: c :: r)) with (Some r) end.
  cbv iota beta. unfold sum, product.
  match goal with |- context [atom size ?f ?r] => change (atom size f r) with
    (Some (size t, [W (TOp "*"); W (TLit "8"); W (TOp ";"); W (TId "__NUMBER_VAR_BITS")])) end.
  cbv iota beta. cbn [List.length factors]. change (String.eqb "*" "*") with true. cbv iota.
  match goal with |- context [atom size ?f ?r] => change (atom size f r) with (Some (8, [W (TOp ";"); W (TId "__NUMBER_VAR_BITS")])) end.
  cbv iota beta. destruct (in_usize width (size t * 8)); reflexivity.
Qed.

Lemma one_size width size t : forall r, (forall o r', r = W (TOp o) :: r' -> String.eqb o "*" = false) -> forall n,
  product width size (block_value width size 1) (S n) (G Brace (size_block t) :: r) =
  if 8 * size t <? 2 ^ width then Some (8 * size t, r) else None.
Proof.
  intros r Hr n. unfold product.
  assert (A : atom size (block_value width size 1) (G Brace (size_block t) :: r) = if 8 * size t <? 2 ^ width then Some (8 * size t, r) else None).
  { cbn [atom]. rewrite block_size. unfold in_usize. rewrite (N.mul_comm (size t)). destruct (8 * size t <? 2 ^ width); reflexivity. }
  rewrite A. destruct (8 * size t <? 2 ^ width); [|reflexivity]. cbn [factors]. destruct r as [|[[]| | | |] r]; try reflexivity.
  rewrite (Hr _ _ eq_refl). reflexivity.
Qed.

Lemma more_sizes width size : forall tys n v, v < 2 ^ width -> (List.length tys < n)%nat ->
  summands width size (block_value width size 1) n v (flat_map size_code tys) =
  option_map (fun v => (v, [])) (in_usize width (v + bits_of size tys)).
Proof.
  induction tys as [|t tys IH]; intros [|n] v Hv Hn; try (cbn [List.length] in Hn; lia).
  - cbn [flat_map summands bits_of]. unfold in_usize. rewrite N.add_0_r. apply N.ltb_lt in Hv. rewrite Hv. reflexivity.
  - cbn [flat_map bits_of]. rewrite size_code_block. cbn [app summands]. change (String.eqb "+" "+") with true. cbv iota.
    rewrite one_size by (intros o r'; destruct tys; [discriminate|intros E; injection E as <-; reflexivity]).
    destruct (8 * size t <? 2 ^ width) eqn:L.
    + unfold in_usize at 1. destruct (v + 8 * size t <? 2 ^ width) eqn:K.
      * apply N.ltb_lt in K. rewrite (IH n _ K) by (cbn [List.length] in Hn; lia). rewrite N.add_assoc. reflexivity.
      * apply N.ltb_ge in K. unfold in_usize. replace (v + (8 * size t + bits_of size tys) <? 2 ^ width) with false; [reflexivity|].
        symmetry. apply N.ltb_ge. lia.
    + apply N.ltb_ge in L. unfold in_usize. replace (v + (8 * size t + bits_of size tys) <? 2 ^ width) with false; [reflexivity|].
      symmetry. apply N.ltb_ge. lia.
Qed.

Theorem C67_value : forall width size tys,
  const_value width size (sizes_code tys) =
  if bits_of size tys <? 2 ^ width then Some (bits_of size tys) else None.
Proof.
  intros width size tys.
  assert (E : sizes_code tys = [G Brace (W (TLit "0") :: flat_map size_code tys)]).
  { unfold sizes_code, filled, sizes_text. cbn [flat_map fill lookup]. change (String.eqb "SIZES" "SIZES") with true. cbv iota.
    rewrite !app_nil_r. reflexivity. }
  rewrite E. cbn [const_value].
  change (block_value width size 2 (W (TLit "0") :: flat_map size_code tys)) with
    (match match factors width size (block_value width size 1) (S (S (List.length (flat_map size_code tys)))) 0 (flat_map size_code tys) with
           | Some (v, r) => summands width size (block_value width size 1) (S (S (List.length (flat_map size_code tys)))) v r
           | None => None end
     with Some (v, []) => Some v | _ => None end).
  assert (F : factors width size (block_value width size 1) (S (S (List.length (flat_map size_code tys)))) 0 (flat_map size_code tys) =
              Some (0, flat_map size_code tys)) by (destruct tys; reflexivity).
  rewrite F, more_sizes.
  - rewrite N.add_0_l. unfold in_usize. destruct (bits_of size tys <? 2 ^ width); reflexivity.
  - apply N.neq_0_lt_0. apply N.pow_nonzero. discriminate.
  - assert (L : forall l, (List.length l <= List.length (flat_map size_code l))%nat).
    { induction l as [|t l IH]; [apply Nat.le_refl|]. cbn [flat_map]. rewrite app_length. cbn [List.length].
      change (List.length (size_code t)) with 2%nat. lia. }
    specialize (L tys). lia.
Qed.
Local Close Scope N_scope.

(** ** Nothing calls them *)

Fixpoint calls (t : tmpl) : list string :=
  match t with
  | TTok _ | TVar _ => []
  | TCall _ m _ l => m :: flat_map calls l
  | TGrp _ l | TRep l _ => flat_map calls l
  end.
Definition calls_of (rs : list rule) : list string := flat_map (fun r => flat_map calls (r_rhs r)) rs.

Theorem C67_uncalled : forall m rs x, In (m, rs) the_macros -> In x ["__verify_variants"; "__generate_const_sizes"] ->
  m <> x -> ~ In x (calls_of rs).
Proof.
  intros m rs x H X N K.
  assert (A : forallb (fun x => forallb (fun p => String.eqb (fst p) x || negb (existsb (String.eqb x) (calls_of (snd p)))) the_macros)
                ["__verify_variants"; "__generate_const_sizes"] = true) by (vm_compute; reflexivity).
  rewrite forallb_forall in A. specialize (A x X). cbv beta in A. rewrite forallb_forall in A. specialize (A (m, rs) H). cbn [fst snd] in A.
  apply String.eqb_neq in N. rewrite N in A. cbn [orb] in A. apply negb_true_iff in A.
  assert (E : existsb (String.eqb x) (calls_of rs) = true) by (apply existsb_exists; exists x; split; [exact K|apply String.eqb_refl]).
  rewrite E in A. discriminate A.
Qed.

(** ** Examples *)

Lemma demo_at : at_ok demo.
Proof. intros ts. reflexivity. Qed.

(** [__verify_variants!(A(u8), B(),)] does not expand, nor does [__verify_variants!()]. *)
Example C67_verify_example :
  expand_all demo the_macros 128 [C true "__verify_variants" Paren (map W (toks "A(u8), B(),"))] = Error /\
  expand_all demo the_macros 128 [C true "__verify_variants" Paren []] = Error /\
  expand_all demo the_macros 2 [C true "__verify_variants" Paren (map W (toks "A(u8), B(), C(),"))] = Limit.
Proof. vm_compute. auto. Qed.

(** [__generate_const_sizes!(u8, u32, u8)] is 48 on a 64-bit target; it takes five steps. *)
Definition demo_size (t : rty) : N := ty_size t.
Example C67_sizes_example : parser_ok demo /\ at_ok demo /\ exists tys, some_types demo (toks "u8, u32, u8") tys /\ List.length tys = 3 /\
  (exists out, expand_all demo the_macros 5 [C true "__generate_const_sizes" Paren (map W (toks "u8, u32, u8"))] = Done out /\
     const_value 64 demo_size (plain out) = Some 48%N) /\
  expand_all demo the_macros 4 [C true "__generate_const_sizes" Paren (map W (toks "u8, u32, u8"))] = Limit.
Proof.
  split; [exact demo_ok|]. split; [exact demo_at|]. 
  destruct (m_types demo (toks "u8, u32, u8")) as [| |tys] eqn:M; [vm_compute in M; discriminate M..|].
  exists tys. split; [apply (m_types_spec demo demo_ok); exact M|]. vm_compute in M. injection M as <-. split; [reflexivity|]. split; [|vm_compute; reflexivity].
  eexists. split; [vm_compute; reflexivity|]. vm_compute. reflexivity.
Qed.

Example C67_sizes_only_example : hd_error (toks "u8,") <> Some TAt /\
  map (fun s => match expand_all demo the_macros 9 [C true "__generate_const_sizes" Paren (map W (toks s))] with Done _ => true | _ => false end)
    ["u8,"; "u8 u8"; "f128"; ""; "u8"] = [false; false; false; true; true].
Proof. split; [discriminate|]. vm_compute. reflexivity. Qed.

(** Two types of 2^60 bytes are too many on a 64-bit target. *)
Example C67_value_example : const_value 64 (fun _ => 2 ^ 60)%N (sizes_code [ty_u8; ty_u8]) = None /\
  const_value 64 (fun _ => 2 ^ 59)%N (sizes_code [ty_u8; ty_u8]) = Some (2 ^ 63)%N /\ const_value 64 (fun _ => 0%N) (sizes_code []) = Some 0%N.
Proof. vm_compute. auto. Qed.

Example C67_uncalled_example : In ("tagged_box", arms_tagged_box) the_macros /\ In "__counter_enum" (calls_of arms_tagged_box) /\
  In "__verify_variants" (calls_of arms_verify_variants).
Proof. vm_compute. intuition. Qed.

Print Assumptions C67_verify.
Print Assumptions C67_sizes.
Print Assumptions C67_sizes_only.
Print Assumptions C67_value.
Print Assumptions C67_uncalled.
