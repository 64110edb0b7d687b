(** Property theorems about the code generated by [tagged_box!]. *)
From Coq Require Import Arith NArith String Bool List Lia.
From Verif Require Import Words Config Spec SpecMem ConfigFacts Pointer PointerFacts Fmt Mem MemFacts Box BoxFacts Bump
  Arms Macro SpecMacro MacroFacts Props_Pointer.
Import ListNotations.
Local Open Scope N_scope.

(** ** C31 *)

(** [tagged_box!] type-checks exactly in the settings with a [u8] discriminant. *)
Theorem C31_exact c def x : In c table -> expand def = Some x ->
  (tags_typecheck c x = true <-> 56 <= pointer_width c).
Proof.
  intros Hc Hx. apply expand_inv in Hx as X.
  assert (B : disc_ty_bits c = 8 <-> 56 <= pointer_width c).
  { pose proof (proj1 (Forall_forall (fun c => disc_ty_bits c = 8 <-> 56 <= pointer_width c) table)) as F.
    apply F; [|exact Hc]. repeat constructor; cbn; intros; try reflexivity; try discriminate; lia. }
  rewrite <- B. unfold tags_typecheck, tag_exprs. rewrite forallb_forall. split.
  - intros H. destruct (x_into x) as [|a l] eqn:Ex.
    + exfalso. destruct (gen_all_nth _ _ _ (xp_into _ _ X)) as [L _]. rewrite Ex in L.
      pose proof (xp_some _ _ X). destruct (e_variants def); [contradiction|discriminate].
    + specialize (H (ia_tag a) (or_introl eq_refl)). apply N.eqb_eq in H. rewrite <- H.
      destruct (gen_all_nth _ _ _ (xp_into _ _ X)) as [_ G]. specialize (G 0%nat). rewrite Ex in G.
      destruct (nth_error (e_variants def) 0) as [[v k]|]; [|discriminate].
      destruct G as (b & Gb & Eb). injection Eb as <-. clear -Gb.
      destruct k as [|[|t [|t2 tys]]|ms]; cbn [gen_into] in Gb; try (injection Gb as <-; reflexivity).
      destruct (find_arm _ _) as [[p q]|]; [|discriminate]. injection Gb as <-. reflexivity.
  - intros H8 te Hin. rewrite H8. apply N.eqb_eq.
    assert (R : forall g (arms : list read_arm), (forall v k a, g v k = Some a -> ra_tag a = tag_of v /\ ra_variant a = v) ->
               gen_all g (e_variants def) = Some arms -> In te (map ra_tag arms) -> tg_bits te = 8).
    { intros g arms Hg Ha Hi. apply in_map_iff in Hi as (a & <- & Hi). apply In_nth_error in Hi as [i Hi].
      destruct (gen_all_nth _ _ _ Ha) as [_ G]. specialize (G i).
      destruct (nth_error (e_variants def) i) as [[v k]|]; [|congruence].
      destruct G as (b & Gb & Eb). assert (b = a) by congruence. subst b.
      destruct (Hg _ _ _ Gb) as [-> _]. reflexivity. }
    rewrite !in_app_iff in Hin. destruct Hin as [Hin | [Hin | [Hin | Hin]]].
    + apply in_map_iff in Hin as (a & <- & Hi). apply In_nth_error in Hi as [i Hi].
      destruct (gen_all_nth _ _ _ (xp_into _ _ X)) as [_ G]. specialize (G i).
      destruct (nth_error (e_variants def) i) as [[v k]|]; [|congruence].
      destruct G as (b & Gb & Eb). assert (b = a) by congruence. subst b. clear -Gb.
      destruct k as [|[|t [|t2 tys]]|ms]; cbn [gen_into] in Gb; try (injection Gb as <-; reflexivity).
      destruct (find_arm _ _) as [[p q]|]; [|discriminate]. injection Gb as <-. reflexivity.
    + eapply (R _ _ gen_inner_tag); [apply X|exact Hin].
    + eapply (R _ _ gen_from_tag); [apply X|exact Hin].
    + eapply (R _ _ gen_ref_tag); [apply X|exact Hin].
Qed.

(** The property fails: the documented setting 48bits exists and no enum compiles in it. *)
Theorem C31_refuted : exists s w c, In (s, w) documented /\ selected (Some s) = Some c /\
  forall def x, expand def = Some x -> tags_typecheck c x = false.
Proof.
  exists "48bits"%string, 48, cfg48. split; [left; reflexivity|]. split; [reflexivity|].
  intros def x Hx. apply not_true_iff_false. rewrite (C31_exact cfg48 def x); [|cbn; tauto|exact Hx].
  cbn. lia.
Qed.

Lemma setup_u8 E def x : macro_setup E def x -> disc_ty_bits (cfg (tgt E)) = 8.
Proof.
  intros H. pose proof (ms_types _ _ _ H) as T. pose proof (proj1 (eo_target _ (ms_env _ _ _ H))) as Hc.
  apply (C31_exact _ def x Hc (ms_expand _ _ _ H)) in T. clear H.
  pose proof (proj1 (Forall_forall (fun c => 56 <= pointer_width c -> disc_ty_bits c = 8) table)) as F.
  apply F; [|exact Hc|exact T]. clear. repeat constructor; cbn; intros; try reflexivity; lia.
Qed.

(** ** An example definition *)

Definition item : edef := Edef "Container" "Item" 8 false false
  [("Integer", KTuple [ty_i32]);
   ("Boolean", KTuple [ty_bool]);
   ("Text", KTuple [ty_string]);
   ("Unit", KUnit);
   ("Empty", KTuple []);
   ("Many", KTuple [ty_u8; ty_u32; ty_u8]);
   ("Orphan", KStruct [("thing", ty_u64); ("other_thing", ty_bool)])]%string.

Definition item_x : expansion :=
  match expand item with Some x => x | None => Expansion "" "" 1 false false [] [] 0 [] [] [] [] [] end.

Definition v_integer : evalue := EV "Integer" [le_bytes 4 42].
Definition v_text : evalue := EV "Text" [a_string].
Definition v_unit : evalue := EV "Unit" [].
Definition v_many : evalue := EV "Many" [[Byte 1]; le_bytes 4 0x01020304; [Byte 9]].
Definition v_orphan : evalue := EV "Orphan" [le_bytes 8 77; [Byte 1]].

Lemma item_ok : def_ok item.
Proof.
  constructor.
  - discriminate.
  - repeat constructor; cbn; intuition discriminate.
  - intros v ms H. cbn in H. intuition try discriminate.
    match goal with H : (_, KStruct _) = _ |- _ => injection H as <- <- end. repeat constructor; cbn; intuition discriminate.
  - intros v tys H. cbn in H. intuition try discriminate;
      match goal with H : (_, KTuple _) = _ |- _ => injection H as <- <-; cbn; lia end.
  - cbn. repeat constructor; try (apply wf_i32 || apply wf_bool || apply wf_string || apply wf_u8 || apply wf_u32 || apply wf_u64);
      try reflexivity; try (exists 0; split; [lia|reflexivity]); try (exists 2; split; [lia|reflexivity]); try (exists 3; split; [lia|reflexivity]).
  - exists 3. split; [lia|reflexivity].
  - cbn. intuition discriminate.
  - discriminate.
  - cbn. repeat constructor; cbn; intros; try reflexivity; discriminate.
  - cbn. repeat constructor; cbn; intuition discriminate.
Qed.

Lemma item_setup : macro_setup (bump_env dbg60) item item_x.
Proof.
  constructor; try reflexivity.
  - apply bump_env_ok, example_targets_ok.
  - apply item_ok.
Qed.

Lemma item_values_ok : Forall (evalue_ok item) [v_integer; v_text; v_unit; v_many; v_orphan].
Proof.
  repeat constructor.
  - exists (KTuple [ty_i32]). split; [cbn; tauto|]. repeat constructor.
  - exists (KTuple [ty_string]). split; [cbn; tauto|]. repeat constructor.
  - exists KUnit. split; [cbn; tauto|]. repeat constructor.
  - exists (KTuple [ty_u8; ty_u32; ty_u8]). split; [cbn; tauto|]. repeat constructor.
  - exists (KStruct [("thing", ty_u64); ("other_thing", ty_bool)]%string). split; [cbn; tauto|]. repeat constructor.
Qed.

Lemma item_values_fit : Forall (evalue_fits (bump_env dbg60) item) [v_integer; v_text; v_unit; v_many; v_orphan].
Proof.
  eapply Forall_impl; [|exact item_values_ok]. intros v V. eapply variants_all_fit; [reflexivity| |exact V]. unfold variants_fit. vm_compute. discriminate.
Qed.

(** ** C26 *)

(** Storing succeeds, or panics because the allocator failed on exactly the variant's storage. *)
Lemma container_from_cases E def x v s : macro_setup E def x -> evalue_fits E def v ->
  (exists w s1, container_from E x v s = Ok w s1 /\ boxed E def s1 w v /\ keeps s s1) \/
  (exists k U s1, In (ev_variant v, k) (e_variants def) /\ storage k = Some U /\ h_size U <> 0 /\
     alloc_fn E s (h_size U) (h_align U) = None /\
     container_from E x v s = Panicked PanicNullAlloc s1 /\ keeps s s1).
Proof.
  intros Hs [(k & Hin & Ht) Hfit]. pose proof (setup_u8 _ _ _ Hs) as H8.
  destruct (macro_into_spec E def x (ms_def _ _ _ Hs) (ms_expand _ _ _ Hs) H8 (ms_env _ _ _ Hs)
              v k s Hin Ht Hfit) as [(_ & w & R & B) | [(U & A1 & A2 & A3 & R) | (U & p & w & A1 & A2 & A3 & R & _ & B)]].
  - left. exists w. eexists. split; [exact R|]. split; [exact B|]. apply keeps_logged.
  - right. exists k, U. eexists. split; [exact Hin|]. split; [exact A1|]. split; [exact A2|].
    split; [exact A3|]. split; [exact R|]. apply keeps_logged.
  - left. exists w. eexists. split; [exact R|]. split; [exact B|].
    destruct (storage_legal k U (kind_types_wf _ _ _ (ms_def _ _ _ Hs) Hin) A1) as [Hl Hty].
    eapply keeps_trans; [|apply keeps_logged]. eapply (stored_keeps E (eo_alloc _ (ms_env _ _ _ Hs))); auto.
    unfold hval_ok. rewrite Hty. exact Ht.
Qed.

Theorem C26_round_trip E def x v s : macro_setup E def x -> evalue_fits E def v ->
  (exists w s1, container_from E x v s = Ok w s1 /\ keeps s s1 /\
     forall s2, keeps s1 s2 -> macro_into_inner E x w s2 = Ok v s2) \/
  (exists k U s1, In (ev_variant v, k) (e_variants def) /\ storage k = Some U /\ h_size U <> 0 /\
     alloc_fn E s (h_size U) (h_align U) = None /\
     container_from E x v s = Panicked PanicNullAlloc s1).
Proof.
  intros Hs Hv. destruct (container_from_cases E def x v s Hs Hv) as [(w & s1 & R & B & K) | (k & U & s1 & H)].
  - left. exists w, s1. split; [exact R|]. split; [exact K|]. intros s2 K2.
    apply (boxed_into_inner E def x (ms_def _ _ _ Hs) (ms_expand _ _ _ Hs) (setup_u8 _ _ _ Hs)).
    eapply boxed_keeps; [apply Hs|exact K2|exact B].
  - right. exists k, U, s1. tauto.
Qed.

Example C26_example : map (fun v => result (bind (container_from (bump_env dbg60) item_x v)
    (fun w => macro_into_inner (bump_env dbg60) item_x w) st0)) [v_integer; v_text; v_unit; v_many; v_orphan] =
  map Some [v_integer; v_text; v_unit; v_many; v_orphan].
Proof. vm_compute. reflexivity. Qed.

Example C26_example_no_memory :
  panic_of (container_from (Env dbg60 no_memory reprC) item_x v_text st0) = Some PanicNullAlloc.
Proof. vm_compute. reflexivity. Qed.

(** ** C29 *)

(** The unit variants of an enum with its own [Drop] impl are the exception, see [C29_refuted]. *)
Definition no_own_drop (def : edef) (v : evalue) : Prop :=
  e_drop def = false \/ ~ In (ev_variant v, KUnit) (e_variants def).

Theorem C29_observes E def x v s w s1 s2 S (cb : evalue -> S -> M S) c :
  macro_setup E def x -> evalue_fits E def v -> no_own_drop def v ->
  container_from E x v s = Ok w s1 -> keeps s1 s2 ->
  macro_ref E x S w cb c s2 = cb v c s2.
Proof.
  intros Hs Hv Hq R K. destruct (container_from_cases E def x v s Hs Hv) as [(w' & s1' & R' & B & _) | (k & U & s1' & H)].
  - rewrite R in R'. injection R' as <- <-.
    apply (boxed_ref E def x (ms_def _ _ _ Hs) (ms_expand _ _ _ Hs) (setup_u8 _ _ _ Hs)); [|exact Hq].
    eapply boxed_keeps; [apply Hs|exact K|exact B].
  - destruct H as (_ & _ & _ & _ & H & _). congruence.
Qed.

(** In particular a closure that only looks changes nothing, and the box can be used again. *)
Theorem C29_unchanged E def x v s w s1 s2 : macro_setup E def x -> evalue_fits E def v -> no_own_drop def v ->
  container_from E x v s = Ok w s1 -> keeps s1 s2 ->
  macro_ref E x (list evalue) w (fun e seen => ret (seen ++ [e])) [] s2 = Ok [v] s2 /\
  macro_into_inner E x w s2 = Ok v s2.
Proof.
  intros Hs Hv Hq R K. split; [rewrite (C29_observes E def x v s w s1); auto|].
  destruct (C26_round_trip E def x v s Hs Hv) as [(w' & s1' & R' & _ & H) | (k & U & s1' & H)].
  - rewrite R in R'. injection R' as <- <-. apply H, K.
  - destruct H as (_ & _ & _ & _ & H). congruence.
Qed.

Example C29_example : log_of (bind (container_from (bump_env dbg60) item_x v_text) (fun w =>
    macro_ref (bump_env dbg60) item_x _ w (fun e seen => ret (seen ++ [e])) []) st0) = [EvAlloc 4096 24 8] /\
  result (bind (container_from (bump_env dbg60) item_x v_text) (fun w =>
    macro_ref (bump_env dbg60) item_x _ w (fun e seen => ret (seen ++ [e])) []) st0) = Some [v_text].
Proof. split; vm_compute; reflexivity. Qed.

(** An enum with a [Drop] impl. *)
Definition dropping : edef := Edef "Container" "Token" 1 true false [("Idle", KUnit); ("Busy", KTuple [ty_u8])]%string.
Definition dropping_x : expansion :=
  match expand dropping with Some x => x | None => item_x end.

Lemma dropping_setup : macro_setup (bump_env dbg60) dropping dropping_x.
Proof.
  constructor; try reflexivity.
  - apply bump_env_ok, example_targets_ok.
  - constructor.
    + discriminate.
    + repeat constructor; cbn; intuition discriminate.
    + intros v ms H. cbn in H. intuition discriminate.
    + intros v tys H. cbn in H. intuition try discriminate.
      match goal with H : (_, KTuple _) = _ |- _ => injection H as <- <-; cbn; lia end.
    + cbn. constructor; [apply wf_u8|constructor].
    + exists 0. split; [lia|reflexivity].
    + cbn. repeat constructor.
    + discriminate.
    + cbn. repeat constructor.
    + cbn. repeat constructor; cbn; intuition discriminate.
Qed.

(** The full claim fails: for an enum with a [Drop] impl, every look at a box holding a unit
    variant destroys a value. *)
Theorem C29_refuted : ~ (forall E def x v s w s1 S (cb : evalue -> S -> M S) c,
  macro_setup E def x -> evalue_fits E def v -> container_from E x v s = Ok w s1 ->
  macro_ref E x S w cb c s1 = cb v c s1).
Proof.
  intros H. destruct (container_from (bump_env dbg60) dropping_x (EV "Idle" []) st0) as [w s1| |] eqn:R.
  2, 3: vm_compute in R; discriminate R.
  assert (Hv : evalue_fits (bump_env dbg60) dropping (EV "Idle" [])).
  { split; [exists KUnit; split; [cbn; tauto|constructor]|]. exists 0%nat, KUnit. split; [reflexivity|discriminate]. }
  specialize (H _ _ _ _ _ _ _ unit (fun _ c => ret c) tt dropping_setup Hv R).
  assert (L : log_of (bind (container_from (bump_env dbg60) dropping_x (EV "Idle" [])) (fun w =>
      macro_ref (bump_env dbg60) dropping_x unit w (fun _ c => ret c) tt) st0) =
      [EvDrop "Token" []; EvDrop "Token" []]) by (vm_compute; reflexivity).
  assert (L1 : log_of (container_from (bump_env dbg60) dropping_x (EV "Idle" []) st0) = [EvDrop "Token" []])
    by (vm_compute; reflexivity).
  unfold bind in L. rewrite R in L, L1. rewrite H in L. cbn [log_of ret] in L, L1. congruence.
Qed.

(** What happens instead: the enum's destructor runs once more, after the closure. *)
Theorem C29_unit_drop E def x v s w s1 s2 S (cb : evalue -> S -> M S) c :
  macro_setup E def x -> e_drop def = true -> In (ev_variant v, KUnit) (e_variants def) -> ev_fields v = [] ->
  tag_fits E def (ev_variant v) -> container_from E x v s = Ok w s1 -> keeps s1 s2 ->
  macro_ref E x S w cb c s2 =
    match cb v c s2 with
    | Ok r s3 => Ok r (log (EvDrop (e_name def) []) s3)
    | Panicked p s3 => Panicked p (log (EvDrop (e_name def) []) s3)
    | UB u => UB u
    end.
Proof.
  intros Hs Hdr Hin Hf Hfit R K.
  assert (Hv : evalue_fits E def v) by (split; [exists KUnit; split; [exact Hin|rewrite Hf; constructor]|exact Hfit]).
  destruct (container_from_cases E def x v s Hs Hv) as [(w' & s1' & R' & B & _) | (k & U & s1' & H)].
  - rewrite R in R'. injection R' as <- <-.
    rewrite (boxed_ref_unit E def x (ms_def _ _ _ Hs) (ms_expand _ _ _ Hs) (setup_u8 _ _ _ Hs) s2 w v); auto.
    + rewrite Hdr. reflexivity.
    + eapply boxed_keeps; [apply Hs|exact K|exact B].
  - destruct H as (_ & _ & _ & _ & H & _). congruence.
Qed.

Example C29_unit_drop_example : macro_setup (bump_env dbg60) dropping dropping_x /\ e_drop dropping = true /\
  tag_fits (bump_env dbg60) dropping "Idle".
Proof. split; [apply dropping_setup|]. split; [reflexivity|]. exists 0%nat, KUnit. split; [reflexivity|discriminate]. Qed.

(** ** C24 *)

Theorem C24_eq E def x a b s1 s2 wa sa wb sb s eqf : macro_setup E def x -> evalue_fits E def a -> evalue_fits E def b ->
  no_own_drop def a -> no_own_drop def b ->
  container_from E x a s1 = Ok wa sa -> container_from E x b s2 = Ok wb sb -> keeps sa s -> keeps sb s ->
  tb_eq (macro_taggable E x) eqf wa wb s = eqf a b s.
Proof.
  intros Hs Ha Hb Qa Qb Ra Rb Ka Kb. unfold tb_eq. cbn [ref_from_tagged_box macro_taggable].
  rewrite (C29_observes E def x a s1 wa sa) by assumption.
  rewrite (C29_observes E def x b s2 wb sb) by assumption. reflexivity.
Qed.

Theorem C24_partial_cmp E def x a b s1 s2 wa sa wb sb s pcmp : macro_setup E def x -> evalue_fits E def a -> evalue_fits E def b ->
  no_own_drop def a -> no_own_drop def b ->
  container_from E x a s1 = Ok wa sa -> container_from E x b s2 = Ok wb sb -> keeps sa s -> keeps sb s ->
  tb_partial_cmp (macro_taggable E x) pcmp wa wb s = pcmp a b s.
Proof.
  intros Hs Ha Hb Qa Qb Ra Rb Ka Kb. unfold tb_partial_cmp. cbn [ref_from_tagged_box macro_taggable].
  rewrite (C29_observes E def x a s1 wa sa) by assumption.
  rewrite (C29_observes E def x b s2 wb sb) by assumption. reflexivity.
Qed.

Theorem C24_cmp E def x a b s1 s2 wa sa wb sb s cmpf : macro_setup E def x -> evalue_fits E def a -> evalue_fits E def b ->
  no_own_drop def a -> no_own_drop def b ->
  container_from E x a s1 = Ok wa sa -> container_from E x b s2 = Ok wb sb -> keeps sa s -> keeps sb s ->
  tb_cmp (macro_taggable E x) cmpf wa wb s = cmpf a b s.
Proof.
  intros Hs Ha Hb Qa Qb Ra Rb Ka Kb. unfold tb_cmp. cbn [ref_from_tagged_box macro_taggable].
  rewrite (C29_observes E def x a s1 wa sa) by assumption.
  rewrite (C29_observes E def x b s2 wb sb) by assumption. reflexivity.
Qed.

(** A user's equality: same variant and same bytes. *)
Definition byte_eqb (a b : mbyte) : bool :=
  match a, b with Undef, Undef => true | Byte x, Byte y => x =? y | _, _ => false end.
Fixpoint list_eqb {A} (f : A -> A -> bool) (a b : list A) : bool :=
  match a, b with
  | [], [] => true
  | x :: a, y :: b => f x y && list_eqb f a b
  | _, _ => false
  end.
Definition derived_eq (a b : evalue) : M bool :=
  ret (String.eqb (ev_variant a) (ev_variant b) && list_eqb (list_eqb byte_eqb) (ev_fields a) (ev_fields b)).

Definition compare_two (a b : evalue) : M bool :=
  bind (container_from (bump_env dbg60) item_x a) (fun wa =>
  bind (container_from (bump_env dbg60) item_x b) (fun wb =>
  tb_eq (macro_taggable (bump_env dbg60) item_x) derived_eq wa wb)).

Example C24_example : result (compare_two v_text v_text st0) = Some true /\
  result (compare_two v_text v_integer st0) = Some false /\
  result (compare_two v_integer (EV "Integer" [le_bytes 4 43]) st0) = Some false.
Proof. repeat split; vm_compute; reflexivity. Qed.

(** ** C25 *)

Theorem C25_debug E def x v s w s1 s2 dbg o out : macro_setup E def x -> evalue_fits E def v -> no_own_drop def v ->
  container_from E x v s = Ok w s1 -> keeps s1 s2 ->
  tb_debug (macro_taggable E x) dbg o w out s2 = dbg default_opts v out s2.
Proof.
  intros Hs Hv Q R K. unfold tb_debug. cbn [ref_from_tagged_box macro_taggable].
  rewrite (C29_observes E def x v s w s1) by assumption. reflexivity.
Qed.

Theorem C25_display E def x v s w s1 s2 disp o out : macro_setup E def x -> evalue_fits E def v -> no_own_drop def v ->
  container_from E x v s = Ok w s1 -> keeps s1 s2 ->
  tb_display (macro_taggable E x) disp o w out s2 = disp default_opts v out s2.
Proof.
  intros Hs Hv Q R K. unfold tb_display. cbn [ref_from_tagged_box macro_taggable].
  rewrite (C29_observes E def x v s w s1) by assumption. reflexivity.
Qed.

(** A user's Debug that reacts to [{:#?}]. *)
Definition pretty_debug : fmt_impl (V := evalue) := fun o v out =>
  ret ((out ++ ev_variant v ++ (if f_alternate o then " {..}" else ""))%string, true).

Definition pretty_opts : fmt_opts := FmtOpts (f_fill default_opts) None false true false None None None.

Example C25_example : result (bind (container_from (bump_env dbg60) item_x v_text) (fun w =>
    tb_debug (macro_taggable (bump_env dbg60) item_x) pretty_debug pretty_opts w "> "%string) st0)
  = Some ("> Text"%string, true) /\
  result (pretty_debug pretty_opts v_text "> "%string st0) = Some ("> Text {..}"%string, true).
Proof. split; vm_compute; reflexivity. Qed.

(** ** C34 *)

(** A tag with no variant: nothing is read, the closure is not called, the message data is right. *)
Theorem C34_unknown E def x w s : def_ok def -> expand def = Some x -> tags_typecheck (cfg (tgt E)) x = true ->
  env_ok E -> N.of_nat (length (e_variants def)) <= tb_discriminant E w ->
  macro_into_inner E x w s = Panicked PanicNoVariantInto s /\
  macro_from E x w s = Panicked (PanicNoVariantFrom (N.of_nat (length (e_variants def))) (tb_discriminant E w)) s /\
  forall S (cb : evalue -> S -> M S) c,
    macro_ref E x S w cb c s =
      Panicked (PanicNoVariantRef (N.of_nat (length (e_variants def))) (tb_discriminant E w)) s.
Proof.
  intros Hd Hx Ht He Hw.
  assert (H8 : disc_ty_bits (cfg (tgt E)) = 8).
  { apply (C31_exact _ def x (proj1 (eo_target _ He)) Hx) in Ht.
    pose proof (proj1 (Forall_forall (fun c => 56 <= pointer_width c -> disc_ty_bits c = 8) table)) as F.
    apply F; [|apply (eo_target _ He)|exact Ht]. clear. repeat constructor; cbn; intros; try reflexivity; lia. }
  assert (Nn : nth_error (e_variants def) (N.to_nat (tb_discriminant E w)) = None) by (apply nth_error_None; lia).
  split; [|split].
  - rewrite (macro_into_inner_eq E def x Hd Hx w s H8), Nn. reflexivity.
  - rewrite (macro_from_eq E def x Hd Hx w s H8 (eo_tuples _ He)), Nn. reflexivity.
  - intros S cb c. rewrite (macro_ref_eq E def x Hd Hx S w cb c s H8), Nn. reflexivity.
Qed.

Example C34_example : panic_of (macro_from (bump_env dbg60) item_x (tb_dangling (bump_env dbg60) 8 9) st0)
  = Some (PanicNoVariantFrom 7 9).
Proof. vm_compute. reflexivity. Qed.

(** ** C33 *)

Theorem C33_limit def : (exists x, expand def = Some x) <->
  e_variants def <> [] /\ forall v tys, In (v, KTuple tys) (e_variants def) -> (length tys <= 32)%nat.
Proof.
  rewrite expand_some. split; intros [H1 H2]; (split; [exact H1|]).
  - intros v tys Hin. exact (H2 v (KTuple tys) Hin).
  - intros v [|tys|ms] Hin; cbn; auto. eapply H2, Hin.
Qed.

(** A tuple variant is stored field by field in declaration order (two fields or more: as a C struct;
    one: as itself; none: nothing). *)
Theorem C33_store E def x i v tys vs s : def_ok def -> expand def = Some x -> e_drop def = false ->
  nth_error (e_variants def) i = Some (v, KTuple tys) -> length vs = length tys ->
  container_from E x (EV v vs) s =
    match tys with
    | [] => ret (tb_dangling E (e_align def) (N.of_nat i mod 256)) s
    | [t] => tb_new E (leaf_hty t) vs (N.of_nat i mod 256) s
    | _ => tb_new E (reprC tys) vs (N.of_nat i mod 256) s
    end.
Proof.
  intros Hd Hx Hdr Hi Hl. unfold container_from. rewrite (macro_into_eq E def x Hd Hx i v (KTuple tys) vs s Hi Hl).
  rewrite Hdr. unfold at_exit, store_kind. destruct tys as [|t [|t2 tys]]; reflexivity.
Qed.

(** Each arm of [__expand_tuple!] hands over every field once, in order. *)
Theorem C33_expand (tys : list rty) (vals : hval) : length vals = length tys ->
  match expand_tuple tys with
  | Some idx => project vals idx = Some vals /\ (length tys <= 32)%nat
  | None => (32 < length tys)%nat
  end.
Proof.
  intros Hl. destruct (expand_tuple tys) as [idx|] eqn:Ex.
  - split; [|apply expand_tuple_arms_all; eexists; exact Ex].
    apply expand_tuple_seq in Ex. subst idx. apply project_all, Hl.
  - apply Nat.nle_gt. intros Hle. apply expand_tuple_arms_all in Hle as [a Ha]. unfold expand_tuple in Ex. congruence.
Qed.

Definition wide (n : nat) : edef :=
  Edef "C" "I" 1 false false [("W"%string, KTuple (repeat ty_u8 n))].
Example C33_example : map (fun n => match expand (wide n) with Some _ => true | None => false end)
  [0; 1; 2; 31; 32; 33; 34]%nat = [true; true; true; true; true; false; false].
Proof. reflexivity. Qed.

(** ** C30 *)

Theorem C30_builds E def x v tys : def_ok def -> expand def = Some x -> In (v, KTuple tys) (e_variants def) ->
  exists f, In f (x_froms x) /\
    from_source f = match tys with [t] => ty_name t | _ => tuple_name (map ty_name tys) end /\
    forall vals s, length vals = length tys ->
      container_from_payload E x f vals s = container_from E x (EV v vals) s.
Proof.
  intros Hd Hx Hin. apply expand_inv in Hx as X. destruct (xp_froms _ _ X) as (l & G & El).
  destruct (In_nth_error _ _ Hin) as [i Hi]. destruct (gen_all_nth _ _ _ G) as [_ Gn]. specialize (Gn i).
  rewrite Hi in Gn. destruct Gn as (a & Ga & Ha). apply nth_error_In in Ha. rewrite El.
  destruct tys as [|t [|t2 tys]].
  - injection Ga as <-. exists (FromTuple [] v []). split; [apply in_concat; eexists; split; [exact Ha|left; reflexivity]|].
    split; [reflexivity|]. intros [|] s Hl; [reflexivity|discriminate].
  - injection Ga as <-. exists (FromLeaf t v). split; [apply in_concat; eexists; split; [exact Ha|left; reflexivity]|].
    split; reflexivity.
  - cbn [gen_from_impl] in Ga. destruct (expand_tuple (t :: t2 :: tys)) as [idx|] eqn:Ex; [|discriminate].
    injection Ga as <-. exists (FromTuple (t :: t2 :: tys) v idx).
    split; [apply in_concat; eexists; split; [exact Ha|left; reflexivity]|].
    split; [reflexivity|]. intros vals s Hl. cbn [container_from_payload].
    apply expand_tuple_seq in Ex. rewrite Ex, project_all by exact Hl. reflexivity.
Qed.

(** Every generated impl comes from a tuple variant, and no two take the same type, nor the enum's or
    the container's. *)
Lemma from_sources def l : gen_all gen_from_impl (e_variants def) = Some l ->
  map from_source (concat l) = concat (map (fun vk => from_keys (snd vk)) (e_variants def)).
Proof.
  revert l. induction (e_variants def) as [|[v k] vs IH]; cbn [gen_all]; intros l.
  - intros E. injection E as <-. reflexivity.
  - destruct (gen_from_impl v k) as [a|] eqn:Ga; [|discriminate]. destruct (gen_all gen_from_impl vs); [|discriminate].
    intros E. injection E as <-. cbn [concat map snd]. rewrite map_app, (IH _ eq_refl). f_equal.
    destruct k as [|[|t [|t2 tys]]|ms]; cbn [gen_from_impl] in Ga; try (injection Ga as <-; reflexivity).
    destruct (expand_tuple _); [|discriminate]. injection Ga as <-. reflexivity.
Qed.

Theorem C30_unambiguous def x : def_ok def -> expand def = Some x ->
  NoDup (e_container def :: e_name def :: map from_source (x_froms x)) /\
  forall f g, In f (x_froms x) -> In g (x_froms x) -> from_source f = from_source g -> f = g.
Proof.
  intros Hd Hx. apply expand_inv in Hx as X. destruct (xp_froms _ _ X) as (l & G & El).
  pose proof (do_from _ Hd) as N. rewrite <- (from_sources _ _ G), <- El in N. split; [exact N|].
  inversion N as [|? ? _ N1]; subst. inversion N1 as [|? ? _ N2]; subst. revert N2. clear.
  induction (x_froms x) as [|h r IH]; cbn [In map]; [tauto|]. intros N f g Hf Hg E. inversion N as [|? ? Hn N']; subst.
  destruct Hf as [->|Hf], Hg as [->|Hg]; auto.
  - exfalso. apply Hn. rewrite E. apply in_map, Hg.
  - exfalso. apply Hn. rewrite <- E. apply in_map, Hf.
Qed.

Example C30_example : map from_source (x_froms item_x) = ["i32"; "bool"; "String"; "()"; "(u8, u32, u8)"]%string.
Proof. reflexivity. Qed.

(** ** Instances: each theorem applied to a concrete case that meets its hypotheses *)

Lemma text_fits : evalue_fits (bump_env dbg60) item v_text.
Proof. exact (proj1 (Forall_forall _ _) item_values_fit v_text (or_intror (or_introl eq_refl))). Qed.
Lemma integer_fits : evalue_fits (bump_env dbg60) item v_integer.
Proof. exact (proj1 (Forall_forall _ _) item_values_fit v_integer (or_introl eq_refl)). Qed.

(** A text and an integer stored one after the other. *)
Lemma two_boxes : exists wa sa wb sb, container_from (bump_env dbg60) item_x v_text st0 = Ok wa sa /\
  container_from (bump_env dbg60) item_x v_integer sa = Ok wb sb /\ keeps sa sb.
Proof.
  assert (O : forall (r : res tagged_ptr), result r <> None -> exists w s, r = Ok w s).
  { intros [w s|p s|u] H; [eauto|elim H; reflexivity..]. }
  assert (R : result (bind (container_from (bump_env dbg60) item_x v_text) (fun _ => container_from (bump_env dbg60) item_x v_integer) st0) <> None)
    by (vm_compute; discriminate).
  destruct (C26_round_trip _ _ _ _ st0 item_setup text_fits) as [(wa & sa & Ha & _)|(k & U & s1 & _ & _ & _ & F & H)].
  - unfold bind in R. rewrite Ha in R. destruct (O _ R) as (wb & sb & Hb).
    destruct (C26_round_trip _ _ _ _ sa item_setup integer_fits) as [(w & s & H & K & _)|(k & U & s1 & _ & _ & _ & _ & H)].
    + rewrite Hb in H. injection H as <- <-. exists wa, sa, wb, sb. auto.
    + rewrite H in Hb. discriminate Hb.
  - unfold bind in R. rewrite H in R. elim R. reflexivity.
Qed.

Example C26_round_trip_example : exists w s, container_from (bump_env dbg60) item_x v_text st0 = Ok w s /\
  macro_into_inner (bump_env dbg60) item_x w s = Ok v_text s.
Proof.
  destruct (C26_round_trip _ _ _ _ st0 item_setup text_fits) as [(w & s & H & _ & K)|(k & U & s1 & _ & _ & _ & _ & H)].
  - exists w, s. split; [exact H|]. apply K, keeps_refl.
  - destruct two_boxes as (wa & sa & _ & _ & H2 & _). rewrite H in H2. discriminate H2.
Qed.

Example C29_observes_example : exists w s, container_from (bump_env dbg60) item_x v_text st0 = Ok w s /\
  macro_ref (bump_env dbg60) item_x nat w (fun e n => raise (PanicUser "x")) 0%nat s = Panicked (PanicUser "x") s.
Proof.
  destruct two_boxes as (w & s & _ & _ & H & _). exists w, s. split; [exact H|].
  rewrite (C29_observes _ _ _ _ _ _ _ s nat _ _ item_setup text_fits (or_introl eq_refl) H (keeps_refl s)). reflexivity.
Qed.

Example C29_unchanged_example : exists w s, container_from (bump_env dbg60) item_x v_text st0 = Ok w s /\
  macro_ref (bump_env dbg60) item_x (list evalue) w (fun e seen => ret (seen ++ [e])) [] s = Ok [v_text] s.
Proof.
  destruct two_boxes as (w & s & _ & _ & H & _). exists w, s. split; [exact H|].
  apply (C29_unchanged _ _ _ _ _ _ _ s item_setup text_fits (or_introl eq_refl) H (keeps_refl s)).
Qed.

Example C29_unit_drop_instance : exists w s, container_from (bump_env dbg60) dropping_x (EV "Idle" []) st0 = Ok w s /\
  macro_ref (bump_env dbg60) dropping_x unit w (fun _ => ret) tt s = Ok tt (log (EvDrop "Token" []) s).
Proof.
  assert (F : tag_fits (bump_env dbg60) dropping "Idle") by apply C29_unit_drop_example.
  assert (V : evalue_fits (bump_env dbg60) dropping (EV "Idle" [])).
  { split; [|exact F]. exists KUnit. split; [left; reflexivity|constructor]. }
  destruct (C26_round_trip _ _ _ _ st0 dropping_setup V) as [(w & s & H & _)|(k & U & s1 & I & S & _ & _ & _)].
  - exists w, s. split; [exact H|].
    rewrite (C29_unit_drop _ _ _ (EV "Idle" []) _ _ _ s unit _ _ dropping_setup eq_refl (or_introl eq_refl) eq_refl F H (keeps_refl s)).
    reflexivity.
  - destruct I as [I|[I|[]]]; [|discriminate I]. injection I as <-. discriminate S.
Qed.

Example C24_eq_example : exists wa sa wb sb, container_from (bump_env dbg60) item_x v_text st0 = Ok wa sa /\
  container_from (bump_env dbg60) item_x v_integer sa = Ok wb sb /\
  tb_eq (macro_taggable (bump_env dbg60) item_x) derived_eq wa wb sb = Ok false sb.
Proof.
  destruct two_boxes as (wa & sa & wb & sb & Ha & Hb & K). exists wa, sa, wb, sb. split; [exact Ha|]. split; [exact Hb|].
  rewrite (C24_eq _ _ _ _ _ _ _ _ _ _ _ sb derived_eq item_setup text_fits integer_fits (or_introl eq_refl) (or_introl eq_refl) Ha Hb K (keeps_refl sb)).
  reflexivity.
Qed.

Example C24_partial_cmp_example : exists wa sa wb sb, container_from (bump_env dbg60) item_x v_text st0 = Ok wa sa /\
  container_from (bump_env dbg60) item_x v_integer sa = Ok wb sb /\
  tb_partial_cmp (macro_taggable (bump_env dbg60) item_x) (fun _ _ => ret (Some Gt)) wa wb sb = Ok (Some Gt) sb.
Proof.
  destruct two_boxes as (wa & sa & wb & sb & Ha & Hb & K). exists wa, sa, wb, sb. split; [exact Ha|]. split; [exact Hb|].
  exact (C24_partial_cmp _ _ _ _ _ _ _ _ _ _ _ sb (fun _ _ => ret (Some Gt)) item_setup text_fits integer_fits (or_introl eq_refl) (or_introl eq_refl) Ha Hb K (keeps_refl sb)).
Qed.

Example C24_cmp_example : exists wa sa wb sb, container_from (bump_env dbg60) item_x v_text st0 = Ok wa sa /\
  container_from (bump_env dbg60) item_x v_integer sa = Ok wb sb /\
  tb_cmp (macro_taggable (bump_env dbg60) item_x) (fun _ _ => raise (PanicUser "x")) wa wb sb = Panicked (PanicUser "x") sb.
Proof.
  destruct two_boxes as (wa & sa & wb & sb & Ha & Hb & K). exists wa, sa, wb, sb. split; [exact Ha|]. split; [exact Hb|].
  exact (C24_cmp _ _ _ _ _ _ _ _ _ _ _ sb (fun _ _ => raise (PanicUser "x")) item_setup text_fits integer_fits (or_introl eq_refl) (or_introl eq_refl) Ha Hb K (keeps_refl sb)).
Qed.

Example C25_debug_example : exists w s, container_from (bump_env dbg60) item_x v_text st0 = Ok w s /\
  tb_debug (macro_taggable (bump_env dbg60) item_x) pretty_debug pretty_opts w "> "%string s = Ok ("> Text"%string, true) s.
Proof.
  destruct two_boxes as (w & s & _ & _ & H & _). exists w, s. split; [exact H|].
  exact (C25_debug _ _ _ _ _ _ _ s pretty_debug pretty_opts "> "%string item_setup text_fits (or_introl eq_refl) H (keeps_refl s)).
Qed.

Example C25_display_example : exists w s, container_from (bump_env dbg60) item_x v_text st0 = Ok w s /\
  tb_display (macro_taggable (bump_env dbg60) item_x) pretty_debug pretty_opts w "> "%string s = Ok ("> Text"%string, true) s.
Proof.
  destruct two_boxes as (w & s & _ & _ & H & _). exists w, s. split; [exact H|].
  exact (C25_display _ _ _ _ _ _ _ s pretty_debug pretty_opts "> "%string item_setup text_fits (or_introl eq_refl) H (keeps_refl s)).
Qed.

Example C31_exact_example : expand item = Some item_x /\ tags_typecheck cfg60 item_x = true /\ tags_typecheck cfg48 item_x <> true.
Proof.
  assert (H : expand item = Some item_x) by reflexivity. split; [exact H|]. split.
  - apply (C31_exact _ _ _ (proj1 (proj1 example_targets_ok)) H). vm_compute. discriminate.
  - intros T. apply (C31_exact cfg48 _ _ (proj1 (proj1 (proj2 (proj2 example_targets_ok)))) H) in T. vm_compute in T. apply T. reflexivity.
Qed.

Example C34_unknown_example : tb_discriminant (bump_env dbg60) (tb_dangling (bump_env dbg60) 8 9) = 9 /\
  macro_from (bump_env dbg60) item_x (tb_dangling (bump_env dbg60) 8 9) st0 = Panicked (PanicNoVariantFrom 7 9) st0.
Proof.
  assert (D : tb_discriminant (bump_env dbg60) (tb_dangling (bump_env dbg60) 8 9) = 9) by (vm_compute; reflexivity).
  split; [exact D|]. set (w := tb_dangling (bump_env dbg60) 8 9) in *. clearbody w.
  destruct (C34_unknown (bump_env dbg60) item item_x w st0 item_ok (ms_expand _ _ _ item_setup) (ms_types _ _ _ item_setup) (ms_env _ _ _ item_setup))
    as (_ & H & _).
  - rewrite D. vm_compute. discriminate.
  - rewrite H, D. reflexivity.
Qed.

Example C33_limit_example : ~ exists x, expand (wide 33) = Some x.
Proof.
  rewrite C33_limit. intros [_ H]. specialize (H "W"%string (repeat ty_u8 33) (or_introl eq_refl)).
  rewrite repeat_length in H. lia.
Qed.

Example C33_store_example : container_from (bump_env dbg60) item_x v_many st0 =
  tb_new (bump_env dbg60) (reprC [ty_u8; ty_u32; ty_u8]) [[Byte 1]; le_bytes 4 0x01020304; [Byte 9]] 5 st0.
Proof.
  exact (C33_store (bump_env dbg60) item item_x 5 "Many" [ty_u8; ty_u32; ty_u8] [[Byte 1]; le_bytes 4 0x01020304; [Byte 9]] st0
    item_ok eq_refl eq_refl eq_refl eq_refl).
Qed.

Example C33_expand_example : match expand_tuple [ty_u8; ty_u32; ty_u8] with
  | Some idx => project [[Byte 1]; le_bytes 4 7; [Byte 9]] idx = Some [[Byte 1]; le_bytes 4 7; [Byte 9]] | None => False end.
Proof.
  pose proof (C33_expand [ty_u8; ty_u32; ty_u8] [[Byte 1]; le_bytes 4 7; [Byte 9]] eq_refl) as H.
  destruct (expand_tuple [ty_u8; ty_u32; ty_u8]) as [idx|]; [apply H|cbn [length] in H; lia].
Qed.

Example C30_builds_example : exists f, In f (x_froms item_x) /\ from_source f = "i32"%string /\
  container_from_payload (bump_env dbg60) item_x f [le_bytes 4 42] st0 = container_from (bump_env dbg60) item_x v_integer st0.
Proof.
  destruct (C30_builds (bump_env dbg60) item item_x "Integer" [ty_i32] item_ok eq_refl (or_introl eq_refl)) as (f & H1 & H2 & H3).
  exists f. split; [exact H1|]. split; [exact H2|]. apply H3. reflexivity.
Qed.

Example C30_unambiguous_example : NoDup ("Container"%string :: "Item"%string :: map from_source (x_froms item_x)).
Proof. exact (proj1 (C30_unambiguous item item_x item_ok eq_refl)). Qed.
