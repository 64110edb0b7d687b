(** Property C41: the hand-written implementations of the documentation and the macro's. *)
From Coq Require Import Arith NArith String Bool List Lia.
From Verif Require Import Words Config Spec SpecMem ConfigFacts Pointer PointerFacts Mem MemFacts Box BoxFacts Bump
  Arms Macro SpecMacro MacroFacts Props_Pointer Props_Box Props_Macro Manual.
Import ListNotations.
Local Open Scope N_scope.

(** The definitions the documentation speaks of. *)
Definition guide_def : edef := Edef "Container" "Item" 4 false false
  [("Integer", KTuple [ty_i32]); ("Boolean", KTuple [ty_bool])]%string.
Definition doc_def : edef := Edef "Container" "Item" 8 false false
  [("Integer", KTuple [ty_i32]); ("Boolean", KTuple [ty_bool]); ("String", KTuple [ty_string])]%string.

Definition guide_x : expansion := Eval lazy beta iota zeta delta -[ty_i32 ty_bool ty_string] in
  match expand guide_def with Some x => x | None => item_x end.
Definition doc_x : expansion := Eval lazy beta iota zeta delta -[ty_i32 ty_bool ty_string] in
  match expand doc_def with Some x => x | None => item_x end.
Lemma guide_expand : expand guide_def = Some guide_x. Proof. vm_compute. reflexivity. Qed.
Lemma doc_expand : expand doc_def = Some doc_x. Proof. vm_compute. reflexivity. Qed.

Definition guide_value (v : guide_item) : evalue :=
  match v with GInteger b => EV "Integer" [b] | GBoolean b => EV "Boolean" [b] end.
Definition doc_value (v : doc_item) : evalue :=
  match v with DInteger b => EV "Integer" [b] | DBoolean b => EV "Boolean" [b] | DString b => EV "String" [b] end.

(** The same outcome, for values related by [f]; the message of a panic may differ. *)
Definition agree {A B} (f : A -> B) (a : res A) (b : res B) : Prop :=
  match a, b with
  | Ok x s, Ok y s' => y = f x /\ s = s'
  | Panicked _ s, Panicked _ s' => s = s'
  | UB u, UB u' => u = u'
  | _, _ => False
  end.

Lemma leaf_read t p s vs s' : read_at (leaf_hty t) p s = Ok vs s' -> vs = [only vs].
Proof.
  intros R. apply read_at_types in R. unfold hval_ok in R. cbn in R. inversion R as [|? v ? l _ F]; subst.
  inversion F. reflexivity.
Qed.

Ltac reads := repeat match goal with
  | |- context [read_at (leaf_hty ?t) ?p ?s] =>
      let R := fresh "R" in destruct (read_at (leaf_hty t) p s) eqn:R; [apply leaf_read in R; rewrite R| |]
  end.

Lemma tag_small c i : In c table -> i < 256 -> cast (disc_ty_bits c) i = i.
Proof.
  intros Hc Hi. unfold cast. apply N.mod_small.
  pose proof (proj1 (Forall_forall (fun c => 256 <= 2 ^ disc_ty_bits c) table)) as F.
  specialize (F ltac:(repeat constructor; vm_compute; discriminate) c Hc). cbn in F. lia.
Qed.

Lemma two_arms {A} x d a0 a1 body (default : M A) s :
  eval_tag x (ra_tag a0) = Some 0 -> eval_tag x (ra_tag a1) = Some 1 ->
  match_disc x d [a0; a1] body default s =
    (if d =? 0 then body a0 s else if d =? 1 then body a1 s else default s).
Proof.
  intros T0 T1. cbn [match_disc]. rewrite T0, T1. unfold bind. cbn [resolved ret].
  destruct (d =? 0); [reflexivity|]. destruct (d =? 1); reflexivity.
Qed.

Lemma three_arms {A} x d a0 a1 a2 body (default : M A) s :
  eval_tag x (ra_tag a0) = Some 0 -> eval_tag x (ra_tag a1) = Some 1 -> eval_tag x (ra_tag a2) = Some 2 ->
  match_disc x d [a0; a1; a2] body default s =
    match d with 0 => body a0 s | 1 => body a1 s | 2 => body a2 s | _ => default s end.
Proof.
  intros T0 T1 T2. cbn [match_disc]. rewrite T0, T1, T2. unfold bind. cbn [resolved ret].
  destruct d as [|[[|[]|]|[[]|[]|]|]]; reflexivity.
Qed.

Lemma if_state {A} (b : bool) (m n : M A) s : (if b then m else n) s = if b then m s else n s.
Proof. destruct b; reflexivity. Qed.

Section Guide.
Variables (E : env) (x : expansion).
Hypothesis Hx : expand guide_def = Some x.
Hypothesis Hc : In (cfg (tgt E)) table.

Lemma guide_tags : guide_tag E 0 = 0 /\ guide_tag E 1 = 1.
Proof. unfold guide_tag. split; apply tag_small; auto; lia. Qed.

Ltac start := rewrite guide_expand in Hx; injection Hx as <-; destruct guide_tags as [T0 T1].

(** Storing is the same, in every respect. *)
Theorem C41_guide_into v s : guide_into E v s = macro_into E x (guide_value v) s.
Proof. start. destruct v as [b|b]; unfold guide_into; rewrite ?T0, ?T1; reflexivity. Qed.

(** The other functions agree on every word and heap, but for the message on unknown tags. *)
Theorem C41_guide_inner w s : agree guide_value (guide_inner E w s) (macro_into_inner E x w s).
Proof.
  start. unfold macro_into_inner. cbn [x_inner guide_x]. rewrite two_arms by reflexivity.
  unfold guide_inner. rewrite T0, T1. cbn [run_build ra_build ra_variant]. rewrite !if_state. unfold bind, tb_into_inner.
  destruct (tb_discriminant E w =? 0); [reads; cbn; auto|]. destruct (tb_discriminant E w =? 1); [reads; cbn; auto|reflexivity].
Qed.

Theorem C41_guide_from w s : agree guide_value (guide_from E w s) (macro_from E x w s).
Proof.
  start. unfold macro_from. cbn [x_from guide_x doc_x]. rewrite two_arms by reflexivity.
  unfold guide_from. rewrite T0, T1. cbn [run_build ra_build ra_variant]. rewrite !if_state. unfold bind, tb_into_inner.
  destruct (tb_discriminant E w =? 0); [reads; cbn; auto|]. destruct (tb_discriminant E w =? 1); [reads; cbn; auto|reflexivity].
Qed.

Theorem C41_guide_ref S w (cb : evalue -> S -> M S) c s :
  agree (fun r => r) (guide_ref E S w (fun v => cb (guide_value v)) c s) (macro_ref E x S w cb c s).
Proof.
  start. unfold macro_ref. cbn [x_ref guide_x doc_x]. rewrite two_arms by reflexivity.
  unfold guide_ref. rewrite T0, T1. cbn [run_build ra_build ra_variant ra_guarded x_drop guide_x doc_x andb at_exit]. rewrite !if_state.
  unfold bind, at_exit. cbn [andb].
  assert (R : forall r : res S, agree (fun r => r) r r) by (intros []; cbn; auto).
  destruct (tb_discriminant E w =? 0); [reads; cbn [ret guide_value]; auto; reflexivity|].
  destruct (tb_discriminant E w =? 1); [reads; cbn [ret guide_value]; auto; reflexivity|reflexivity].
Qed.
End Guide.

Section Doc.
Variables (E : env) (x : expansion).
Hypothesis Hx : expand doc_def = Some x.

Ltac start := rewrite doc_expand in Hx; injection Hx as <-.
Ltac three := match goal with |- context [tb_discriminant E ?w] => destruct (tb_discriminant E w) as [|[[|[]|]|[[]|[]|]|]] end.

Theorem C41_doc_into v s : doc_into E v s = macro_into E x (doc_value v) s.
Proof. start. destruct v as [b|b|b]; reflexivity. Qed.

Theorem C41_doc_from w s : agree doc_value (doc_from E w s) (macro_from E x w s).
Proof.
  start. unfold macro_from. cbn [x_from guide_x doc_x]. rewrite three_arms by reflexivity.
  unfold doc_from. cbn [run_build ra_build ra_variant]. unfold bind, tb_into_inner.
  three; try reflexivity; reads; cbn; auto.
Qed.

Theorem C41_doc_ref S w (cb : evalue -> S -> M S) c s :
  agree (fun r => r) (doc_ref E S w (fun v => cb (doc_value v)) c s) (macro_ref E x S w cb c s).
Proof.
  start. unfold macro_ref. cbn [x_ref guide_x doc_x]. rewrite three_arms by reflexivity.
  unfold doc_ref. cbn [run_build ra_build ra_variant ra_guarded x_drop guide_x doc_x andb at_exit].
  unfold bind, at_exit. cbn [andb].
  assert (R : forall r : res S, agree (fun r => r) r r) by (intros []; cbn; auto).
  three; try reflexivity; reads; cbn [ret doc_value]; auto; reflexivity.
Qed.
End Doc.

(** The guide's code casts with [as _], so it also works in the settings in which the macro's output
    does not compile (C31): storing and taking out in every setting. *)
Definition guide_ok (v : guide_item) : Prop :=
  match v with GInteger b => has_type ty_i32 b | GBoolean b => has_type ty_bool b end.

Theorem C41_every_setting E v s w s1 s2 : env_ok E -> guide_ok v ->
  guide_into E v s = Ok w s1 -> keeps s1 s2 ->
  guide_inner E w s2 = Ok v s2 /\ guide_from E w s2 = Ok v s2 /\
  forall S (cb : guide_item -> S -> M S) c, guide_ref E S w cb c s2 = cb v c s2.
Proof.
  intros He Hv R K. pose proof (proj1 (eo_target _ He)) as Hc.
  destruct (guide_tags E Hc) as [T0 T1].
  assert (G : forall t i (b : leafval), wf_ty t -> has_type t b -> i <= 1 -> tb_new E (leaf_hty t) [b] i s = Ok w s1 ->
    tb_discriminant E w = i /\ read_at (leaf_hty t) (tb_as_ptr E w) s2 = Ok [b] s2 /\
    tb_into_inner E (leaf_hty t) w s2 = Ok [b] s2).
  { intros t i b Hw Hb Hi Rn.
    assert (Hd : i <= max_discriminant (cfg (tgt E))).
    { pose proof (proj1 (Forall_forall (fun c => 1 <= max_discriminant c) table)) as F.
      specialize (F ltac:(repeat constructor; vm_compute; discriminate) _ Hc). cbn in F. lia. }
    assert (Hl : layout_legal (leaf_hty t)) by (apply leaf_legal, Hw).
    assert (Hval : hval_ok (leaf_hty t) [b]) by (repeat constructor; apply Hb).
    destruct (tb_new_spec E (eo_target _ He) (eo_alloc _ He) _ _ i s (eo_fits _ He) Hl Hval Hd)
      as [(_ & w' & R' & D & _ & _ & B) | [(_ & _ & R') | (_ & p & w' & _ & R' & D & _ & _ & B)]];
      rewrite Rn in R'; try discriminate; injection R' as <- ->; (split; [exact D|]);
      eapply box_holds_keeps in B; [|exact Hl|exact K| |exact Hl|exact K]; destruct B as (_ & B1 & B2); auto. }
  assert (O1 : (1 =? 0) = false) by reflexivity.
  destruct v as [b|b]; cbn [guide_into] in R; rewrite ?T0, ?T1 in R;
    [destruct (G ty_i32 0 b wf_i32 Hv ltac:(lia) R) as (D & B1 & B2)|destruct (G ty_bool 1 b wf_bool Hv ltac:(lia) R) as (D & B1 & B2)];
    unfold guide_inner, guide_from, guide_ref; rewrite T0, T1, D; rewrite ?O1, ?N.eqb_refl; unfold bind; rewrite B1, B2; auto.
Qed.

(** Examples: a word with tag 9, which neither knows; a boolean through the guide's code in the 48-bit
    setting. *)
Example C41_example_panic :
  expand guide_def = Some guide_x /\
  panic_of (guide_inner (bump_env dbg60) (tb_dangling (bump_env dbg60) 4 9) st0) = Some (PanicUser "explicit panic") /\
  panic_of (macro_into_inner (bump_env dbg60) guide_x (tb_dangling (bump_env dbg60) 4 9) st0) = Some PanicNoVariantInto.
Proof. repeat split; vm_compute; reflexivity. Qed.
Definition dbg48 : target := Target cfg48 true 64.
Example C41_example_48 : env_ok (bump_env dbg48) /\
  result (bind (guide_into (bump_env dbg48) (GBoolean [Byte 1])) (guide_inner (bump_env dbg48)) st0) = Some (GBoolean [Byte 1]) /\
  tags_typecheck cfg48 guide_x = false.
Proof.
  split; [|split; vm_compute; reflexivity]. apply bump_env_ok. split; [cbn; tauto|right; reflexivity].
Qed.

(** ** Instances: each theorem applied to a concrete case that meets its hypotheses *)

Lemma cfg60_listed : In (cfg (tgt (bump_env dbg60))) table.
Proof. vm_compute; tauto. Qed.

Example C41_guide_into_example :
  guide_into (bump_env dbg60) (GBoolean [Byte 1]) st0 = macro_into (bump_env dbg60) guide_x (EV "Boolean" [[Byte 1]]) st0 /\
  result (guide_into (bump_env dbg60) (GBoolean [Byte 1]) st0) = Some 0x1000000000001000.
Proof. split; [apply (C41_guide_into _ _ guide_expand cfg60_listed (GBoolean [Byte 1]))|vm_compute; reflexivity]. Qed.

(** A dangling box with the tag of [Boolean] has no memory; one with tag 9 is no variant's. *)
Example C41_guide_inner_example :
  agree guide_value (guide_inner (bump_env dbg60) (tb_dangling (bump_env dbg60) 1 1) st0)
    (macro_into_inner (bump_env dbg60) guide_x (tb_dangling (bump_env dbg60) 1 1) st0) /\
  ub_of (guide_inner (bump_env dbg60) (tb_dangling (bump_env dbg60) 1 1) st0) = Some UbOutOfBlock.
Proof. split; [apply (C41_guide_inner _ _ guide_expand cfg60_listed)|vm_compute; reflexivity]. Qed.

Example C41_guide_from_example :
  agree guide_value (guide_from (bump_env dbg60) (tb_dangling (bump_env dbg60) 4 9) st0)
    (macro_from (bump_env dbg60) guide_x (tb_dangling (bump_env dbg60) 4 9) st0) /\
  panic_of (guide_from (bump_env dbg60) (tb_dangling (bump_env dbg60) 4 9) st0) <> None.
Proof. split; [apply (C41_guide_from _ _ guide_expand cfg60_listed)|vm_compute; discriminate]. Qed.

Definition a_boolean : res tagged_ptr := guide_into (bump_env dbg60) (GBoolean [Byte 1]) st0.

Example C41_guide_ref_example : exists w s, a_boolean = Ok w s /\
  agree (fun r => r) (guide_ref (bump_env dbg60) (list evalue) w (fun v seen => ret (seen ++ [guide_value v])%list) [] s)
    (macro_ref (bump_env dbg60) guide_x (list evalue) w (fun v seen => ret (seen ++ [v])%list) [] s) /\
  guide_ref (bump_env dbg60) (list evalue) w (fun v seen => ret (seen ++ [guide_value v])%list) [] s = Ok [EV "Boolean" [[Byte 1]]] s.
Proof.
  destruct a_boolean as [w s|p s|u] eqn:R; [|apply (f_equal result) in R; vm_compute in R; discriminate R..].
  exists w, s. split; [reflexivity|]. split.
  - apply (C41_guide_ref _ _ guide_expand cfg60_listed (list evalue) w (fun v seen => ret (seen ++ [v])%list)).
  - destruct (C41_every_setting _ (GBoolean [Byte 1]) st0 w s s (bump_env_ok _ (proj1 example_targets_ok))) as (_ & _ & A);
      [split; reflexivity|exact R|apply keeps_refl|]. rewrite A. reflexivity.
Qed.

Example C41_doc_into_example :
  doc_into (bump_env dbg60) (DString a_string) st0 = macro_into (bump_env dbg60) doc_x (EV "String" [a_string]) st0 /\
  result (doc_into (bump_env dbg60) (DString a_string) st0) = Some 0x2000000000001000.
Proof. split; [apply (C41_doc_into _ _ doc_expand (DString a_string))|vm_compute; reflexivity]. Qed.

Example C41_doc_from_example : exists w s, doc_into (bump_env dbg60) (DString a_string) st0 = Ok w s /\
  agree doc_value (doc_from (bump_env dbg60) w s) (macro_from (bump_env dbg60) doc_x w s).
Proof.
  destruct (doc_into (bump_env dbg60) (DString a_string) st0) as [w s|p s|u] eqn:R;
    [|apply (f_equal result) in R; vm_compute in R; discriminate R..].
  exists w, s. split; [reflexivity|]. apply (C41_doc_from _ _ doc_expand).
Qed.

Example C41_doc_ref_example : exists w s, doc_into (bump_env dbg60) (DString a_string) st0 = Ok w s /\
  agree (fun r => r) (doc_ref (bump_env dbg60) (list evalue) w (fun v seen => ret (seen ++ [doc_value v])%list) [] s)
    (macro_ref (bump_env dbg60) doc_x (list evalue) w (fun v seen => ret (seen ++ [v])%list) [] s).
Proof.
  destruct (doc_into (bump_env dbg60) (DString a_string) st0) as [w s|p s|u] eqn:R;
    [|apply (f_equal result) in R; vm_compute in R; discriminate R..].
  exists w, s. split; [reflexivity|].
  apply (C41_doc_ref _ _ doc_expand (list evalue) w (fun v seen => ret (seen ++ [v])%list)).
Qed.

(** The guide's code in the 48-bit setting. *)
Example C41_every_setting_example : exists w s, guide_into (bump_env dbg48) (GBoolean [Byte 1]) st0 = Ok w s /\
  guide_inner (bump_env dbg48) w s = Ok (GBoolean [Byte 1]) s /\ guide_from (bump_env dbg48) w s = Ok (GBoolean [Byte 1]) s.
Proof.
  destruct (guide_into (bump_env dbg48) (GBoolean [Byte 1]) st0) as [w s|p s|u] eqn:R;
    [|apply (f_equal result) in R; vm_compute in R; discriminate R..].
  exists w, s. split; [reflexivity|].
  destruct (C41_every_setting _ (GBoolean [Byte 1]) st0 w s s (proj1 C41_example_48)) as (A & B & _);
      [split; reflexivity|exact R|apply keeps_refl|]. auto.
Qed.
