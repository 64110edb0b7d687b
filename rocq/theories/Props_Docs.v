(** Property C50: in which settings the examples in the documentation work. *)
From Coq Require Import Arith NArith String Bool List Lia.
From Verif Require Import Words Config Spec SpecMem ConfigFacts Pointer PointerFacts Mem MemFacts Box BoxFacts Bump Rustc
  Macro SpecMacro MacroFacts Session SpecSession SessionFacts Containers SpecContainers
  Props_Pointer Props_Box Props_Macro Props_Variants Props_Session Props_Containers Manual Names Tests Props_Tests Docs.
Import ListNotations.
Local Open Scope N_scope.

(** ** What is assumed of the surroundings *)

(** Values made alike have the same contents. *)
Record doc_ok (D : doc_data) : Prop := {
  dk_foobar : has_type ty_string (foobar D) /\ doc_text D (foobar D) = "Foobar is a timeless classic"%string;
  dk_greeting : has_type ty_string (greeting D) /\ doc_text D (greeting D) = doc_text D (greeting' D);
  dk_numbers : has_type ty_vec_usize (numbers D) /\ doc_items D (numbers D) = doc_items D (numbers' D);
  dk_empty : has_type ty_string (empty D)
}.

(** The allocator has memory for the blocks an example needs. *)
Definition doc_lasts (E : env) (t : doc_test) (s : st) : Prop := ~ In true (shortages E (dt_prog t) [] s).

Record doc_memory (E : env) (D : doc_data) (I1 I2 : impls) (s : st) : Prop := {
  dm_untagged : Forall (fun t => doc_lasts E t s) (docs_untagged D);
  dm_tagged : Forall (fun t => doc_lasts E t s) (docs_tagged D);
  dm_discriminant : doc_lasts E (doc_discriminant 11) s;
  dm_readme : forall x, expand readme_enum = Some x -> macro_lasts E readme_enum x I1 (doc_readme D) s;
  dm_docs : forall x, expand docs_enum = Some x ->
    macro_lasts E docs_enum x I2 (doc_greeting D) s /\ macro_lasts E docs_enum x I2 (doc_works D) s
}.

(** ** Programs: it is enough to look at the run without failures *)

Inductive psteps (E : env) : prog -> astate -> list obs -> Prop :=
| ps_stop a : psteps E Stop a []
| ps_call o k a x a' seen : contract E a o -> astep false o a = Some (x, a') -> not_panic x = true ->
    psteps E (k x) a' seen -> psteps E (call o k) a (x :: seen).

Lemma psteps_facts E p a seen : psteps E p a seen ->
  follows E p a /\ fst (arun p [] a) = seen /\ forallb not_panic seen = true.
Proof.
  induction 1 as [a|o k a x a' seen C A P H (IH1 & IH2 & IH3)]; [cbn; auto|].
  unfold call. cbn [follows arun hd tl forallb]. rewrite A, P.
  assert (G : (match x with SawPanic _ => Stop | _ => k x end) = k x) by (destruct x; [| | |discriminate P]; reflexivity).
  rewrite !G. split; [split; [exact C|]|split; [|exact IH3]].
  - intros []; [|rewrite A, G; exact IH1].
    destruct (astep_fail o a) as [->|(p & b & ->)]; [rewrite A, G; exact IH1|exact I].
  - destruct (arun (k x) [] a') as [l e]. cbn [fst] in *. subst l. reflexivity.
Qed.

Lemma doc_test_passes E t s seen : env_ok E -> doc_lasts E t s -> psteps E (dt_prog t) a0 seen ->
  dt_asserts t seen = true -> doc_passes E t s.
Proof.
  intros He Hm S H. destruct (psteps_facts _ _ _ _ S) as (Fo & A & P).
  destruct (C38_no_failure E _ s He Fo Hm) as (c & s' & R). rewrite A in R. exists seen, c, s'. auto.
Qed.

(** An example begins by making a box of a value [v] that takes up memory. *)
Lemma new_steps E ty v d k seen : wf_ty ty -> ty_size ty <> 0 -> has_type ty v -> d <= max_discriminant (cfg (tgt E)) ->
  psteps E (k SawNothing) (AState [ABox (leaf_hty ty) 0 [v] d] 1 [] 1 0) seen ->
  psteps E (call (NewBox false (leaf_hty ty) [v] d) k) a0 (SawNothing :: seen).
Proof.
  intros Hw Hz Hv Hd H. apply ps_call with (a' := AState [ABox (leaf_hty ty) 0 [v] d] 1 [] 1 0);
    [|cbn; destruct (N.eqb_spec (ty_size ty) 0); [contradiction|reflexivity]|reflexivity|exact H].
  split; [apply leaf_legal, Hw|]. split; [constructor; [exact Hv|constructor]|exact Hd].
Qed.

Ltac doc_step := cbn [calls]; eapply ps_call; [try exact I|reflexivity|reflexivity|]; cbn [set put kill free cells next dead made freed].

(** ** Tags that do not fit *)

(** Without debug assertions the bits of a tag that do not fit are lost. *)
Lemma new_truncated E U v d s : target_ok (tgt E) -> debug_assertions (tgt E) = false ->
  tb_new E U v d s = tb_new E U v (d mod 2 ^ discriminant_bits (cfg (tgt E))) s.
Proof.
  intros Ht Hr.
  assert (S : forall p, store_discriminant (tgt E) p d = store_discriminant (tgt E) p (d mod 2 ^ discriminant_bits (cfg (tgt E)))).
  { intros p. rewrite !store_eq by assumption. rewrite N.mod_mod by (apply N.pow_nonzero; discriminate). reflexivity. }
  unfold tb_new. destruct (h_size U =? 0).
  - unfold tb_dangling, tp_dangling. rewrite S. reflexivity.
  - unfold bind. destruct (alloc (alloc_fn E) (h_size U) (h_align U) s) as [[p|] s1|q s1|u]; try reflexivity.
    destruct (write_at U p v s1); try reflexivity. rewrite !(tp_new_cases (tgt E)), Hr, S. reflexivity.
Qed.

Lemma run_truncated E U v d k s : target_ok (tgt E) -> debug_assertions (tgt E) = false ->
  let d' := d mod 2 ^ discriminant_bits (cfg (tgt E)) in
  run E (call (NewBox false U v d) k) [] s = run E (call (NewBox false U v d') k) [] s /\
  shortages E (call (NewBox false U v d) k) [] s = shortages E (call (NewBox false U v d') k) [] s.
Proof.
  intros Ht Hr d'. unfold call. cbn [run shortages step starved]. unfold bind. rewrite (new_truncated E U v d s Ht Hr). fold d'.
  destruct (tb_new E U v d' s); auto.
Qed.

(** With them, making the box panics. *)
Lemma new_oversized E U v d s w s' : debug_assertions (tgt E) = true -> h_size U <> 0 ->
  max_discriminant (cfg (tgt E)) < d -> tb_new E U v d s <> Ok w s'.
Proof.
  intros Hd Hz Hm. unfold tb_new. destruct (N.eqb_spec (h_size U) 0); [contradiction|]. unfold bind.
  destruct (alloc (alloc_fn E) (h_size U) (h_align U) s) as [[p|] s1|q s1|u]; try discriminate.
  destruct (write_at U p v s1); try discriminate. unfold tp_new. rewrite Hd, (proj2 (N.leb_gt _ _) Hm). discriminate.
Qed.

Lemma oversized_fails E U v d k asserts s : debug_assertions (tgt E) = true -> h_size U <> 0 ->
  max_discriminant (cfg (tgt E)) < d -> ~ doc_passes E (DocTest (call (NewBox false U v d) k) asserts) s.
Proof.
  intros Hd Hz Hm (seen & c & s' & R & P & _). cbn [dt_prog] in R. unfold call in R. cbn [run step] in R. unfold bind in R.
  destruct (tb_new E U v d s) as [w s1|q s1|u] eqn:N; [exact (new_oversized _ _ _ _ _ _ _ Hd Hz Hm N)| |discriminate R].
  cbn in R. injection R as <- _ _. discriminate P.
Qed.

(** The tags of the examples fit up to 60 bits; beyond, none does. *)
Lemma doc_tags c : In c table -> (pointer_width c <= 60 -> 11 <= max_discriminant c) /\
  (60 < pointer_width c -> max_discriminant c < 8 /\ forall d, d mod 2 ^ discriminant_bits c <= max_discriminant c).
Proof.
  intros Hc. split.
  { revert c Hc. apply (in_table (fun c => pointer_width c <= 60 -> 11 <= max_discriminant c)).
    repeat (constructor; [vm_compute; intuition (congruence || discriminate)|]). constructor. }
  intros L. assert (H : max_discriminant c < 8 /\ max_discriminant c = 2 ^ discriminant_bits c - 1).
  { revert c Hc L. apply (in_table (fun c => 60 < pointer_width c -> max_discriminant c < 8 /\ max_discriminant c = 2 ^ discriminant_bits c - 1)).
    repeat (constructor; [vm_compute; intuition (congruence || discriminate)|]). constructor. }
  destruct H as [H1 H2]. split; [exact H1|]. intros d.
  pose proof (N.mod_lt d (2 ^ discriminant_bits c) ltac:(apply N.pow_nonzero; discriminate)). lia.
Qed.

(** ** Examples of [TaggedBox] *)

Lemma wf_bytes10 : wf_ty ty_bytes10. Proof. split; [exists 0; split; [lia|reflexivity]|reflexivity]. Qed.

Theorem C50_untagged : forall E D s, env_ok E -> doc_ok D -> Forall (fun t => doc_lasts E t s) (docs_untagged D) ->
  Forall (fun t => doc_passes E t s) (docs_untagged D).
Proof.
  intros E D s He [[F1 F2] _ _ _] Hm. rewrite Forall_forall in *. intros t Hin. specialize (Hm t Hin).
  pose proof (N.le_0_l (max_discriminant (cfg (tgt E)))) as M0.
  assert (V : forall n, hval_ok (leaf_hty ty_usize) [usize n]) by (intros; constructor; [apply usize_ok|constructor]).
  cbn [docs_untagged In] in Hin. destruct Hin as [<-|[<-|[<-|[<-|[<-|[<-|[<-|[]]]]]]]];
    (eapply doc_test_passes; [exact He|exact Hm| |]);
    try (cbn [dt_prog calls doc_new doc_new_read doc_as_ref doc_as_mut_ref doc_into_inner doc_as_ptr doc_as_mut_ptr];
         apply new_steps; [auto with wf|discriminate|first [exact F1|apply usize_ok]|exact M0|]).
  all: try (repeat first [apply ps_stop|doc_step]; try apply V).
  all: cbn [dt_asserts doc_new doc_new_read doc_as_ref doc_as_mut_ref doc_into_inner doc_as_ptr doc_as_mut_ptr];
    rewrite ?F2; reflexivity.
Qed.

(** A box with a tag from 8 to 11, in an example that would pass with any tag that fits. *)
Lemma tagged_doc E ty v k asserts d s : env_ok E -> ty_size ty <> 0 -> 8 <= d <= 11 ->
  let doc e := DocTest (call (NewBox false (leaf_hty ty) [v] e) k) asserts in
  doc_lasts E (doc d) s ->
  (forall e, e <= max_discriminant (cfg (tgt E)) -> doc_lasts E (doc e) s -> doc_passes E (doc e) s) ->
  (doc_passes E (doc d) s <-> pointer_width (cfg (tgt E)) <= 60 \/ debug_assertions (tgt E) = false).
Proof.
  intros He Hz Hd doc Hm H. pose proof (eo_target _ He) as Ht. destruct (doc_tags _ (proj1 Ht)) as [D1 D2].
  destruct (N.le_gt_cases (pointer_width (cfg (tgt E))) 60) as [L|L].
  - specialize (D1 L). split; [auto|]. intros _. apply H; [lia|exact Hm].
  - destruct (D2 L) as [D3 D4]. destruct (debug_assertions (tgt E)) eqn:Dbg.
    + split; [|intros [?|?]; [lia|discriminate]]. intros P. exfalso. revert P. apply oversized_fails; [exact Dbg|exact Hz|lia].
    + split; [auto|]. intros _. destruct (run_truncated E (leaf_hty ty) [v] d k s Ht Dbg) as [R1 R2].
      unfold doc_lasts, doc_passes, doc in *. cbn [dt_prog dt_asserts] in *. rewrite R1. rewrite R2 in Hm. apply H; [apply D4|exact Hm].
Qed.

Theorem C50_tagged : forall E D s, env_ok E -> doc_ok D -> Forall (fun t => doc_lasts E t s) (docs_tagged D) ->
  Forall (fun t => doc_passes E t s <-> pointer_width (cfg (tgt E)) <= 60 \/ debug_assertions (tgt E) = false) (docs_tagged D).
Proof.
  intros E D s He [_ _ [N1 N2] _] Hm. rewrite Forall_forall in *. intros t Hin. specialize (Hm t Hin).
  assert (T : has_type ty_bytes10 tens) by (split; reflexivity).
  cbn [docs_tagged In] in Hin. destruct Hin as [<-|[<-|[<-|[]]]].
  - apply tagged_doc; [exact He|discriminate|lia|exact Hm|]. intros e Hle Hl. eapply doc_test_passes; [exact He|exact Hl| |].
    + cbn [dt_prog]. apply new_steps; [apply wf_bytes10|discriminate|exact T|exact Hle|]. repeat first [apply ps_stop|doc_step].
    + reflexivity.
  - apply tagged_doc; [exact He|discriminate|lia|exact Hm|]. intros e Hle Hl. eapply doc_test_passes; [exact He|exact Hl| |].
    + cbn [dt_prog]. apply new_steps; [apply wf_bytes10|discriminate|exact T|exact Hle|]. repeat first [apply ps_stop|doc_step].
    + reflexivity.
  - unfold doc_from_raw in *. apply tagged_doc; [exact He|discriminate|lia|exact Hm|].
    intros e Hle Hl. eapply doc_test_passes; [exact He|exact Hl| |].
    + cbn [dt_prog]. apply new_steps; [exact wf_string|discriminate|exact N1|exact Hle|].
      repeat first [apply ps_stop|doc_step]. exact Hle.
    + cbn [dt_asserts]. rewrite N2, list_eqb_refl by (apply N.eqb_refl). reflexivity.
Qed.

(** The example that looks at the tag. *)
Theorem C50_discriminant : forall E s, env_ok E -> doc_lasts E (doc_discriminant 11) s ->
  (doc_passes E (doc_discriminant 11) s <-> pointer_width (cfg (tgt E)) <= 60).
Proof.
  intros E s He Hm. pose proof (eo_target _ He) as Ht. destruct (doc_tags _ (proj1 Ht)) as [D1 D2].
  assert (S : forall e, e <= max_discriminant (cfg (tgt E)) ->
    psteps E (dt_prog (doc_discriminant e)) a0 [SawNothing; SawTag e; SawNothing]).
  { intros e Hle. cbn [dt_prog doc_discriminant calls]. apply new_steps; [apply wf_i32|discriminate|apply i32_ok|exact Hle|].
    repeat first [apply ps_stop|doc_step]. }
  split.
  - intros P. destruct (N.le_gt_cases (pointer_width (cfg (tgt E))) 60) as [L|L]; [exact L|exfalso].
    destruct (D2 L) as [D3 D4]. destruct (debug_assertions (tgt E)) eqn:Dbg.
    + revert P. apply oversized_fails; [exact Dbg|discriminate|lia].
    + set (d' := 11 mod 2 ^ discriminant_bits (cfg (tgt E))).
      assert (R : run E (dt_prog (doc_discriminant 11)) [] s = run E (dt_prog (doc_discriminant d')) [] s /\
                  shortages E (dt_prog (doc_discriminant 11)) [] s = shortages E (dt_prog (doc_discriminant d')) [] s).
      { cbn [dt_prog doc_discriminant calls]. apply run_truncated; assumption. }
      destruct R as [R1 R2]. unfold doc_lasts in Hm. rewrite R2 in Hm.
      destruct (psteps_facts _ _ _ _ (S d' (D4 11))) as (Fo & A & _).
      destruct (C38_no_failure E _ s He Fo Hm) as (c & s' & R). rewrite A, <- R1 in R.
      destruct P as (seen & c2 & s2 & R' & _ & As). rewrite R in R'. injection R' as <- _ _.
      cbn [dt_asserts doc_discriminant] in As. apply N.eqb_eq in As. specialize (D4 11). fold d' in D4. lia.
  - intros L. eapply doc_test_passes; [exact He|exact Hm|apply S; exact (D1 L)|reflexivity].
Qed.

(** The example of undefined behaviour: it panics, as its own last line asks, if the bits of the string
    are a [Vec<Paper>] (or if there is no memory for the string); otherwise it is undefined. *)
Theorem C50_misread : forall E D s, env_ok E -> doc_ok D ->
  (should_panic (doc_misread E D) s <-> papers D (foobar D) = true \/ no_block E (leaf_hty ty_string) s = true) /\
  (papers D (foobar D) = false -> no_block E (leaf_hty ty_string) s = false -> exists u, doc_misread E D s = UB u).
Proof.
  intros E D s He [[F1 _] _ _ _]. unfold should_panic, doc_misread, no_block. cbn [h_size h_align leaf_hty ty_size ty_align ty_string N.eqb negb andb].
  assert (Hv : hval_ok (leaf_hty ty_string) [foobar D]) by (constructor; [exact F1|constructor]).
  destruct (tb_new_spec E (eo_target _ He) (eo_alloc _ He) (leaf_hty ty_string) [foobar D] 0 s (eo_fits _ He)
    (leaf_legal _ wf_string) Hv (N.le_0_l _)) as [(Z & _)|[(_ & A & R)|(_ & p & w & A & R & _ & P & _ & B)]]; [discriminate Z| |];
    cbn [h_size h_align leaf_hty ty_size ty_align ty_string] in A; rewrite A; unfold bind; rewrite R.
  - split; [split; [auto|]|discriminate]. intros _. eexists _, _. reflexivity.
  - destruct B as (_ & _ & B). unfold tb_into_inner in *. apply read_at_inv in B as (_ & Ca & Rf).
    assert (Ca' : can_access (stored (leaf_hty ty_string) p [foobar D] s) (leaf_hty (ty_papers D)) (tb_as_mut_ptr E w)) by exact Ca.
    rewrite read_at_eq by exact Ca'. cbn [read_fields h_fields leaf_hty ty_size ty_valid ty_string ty_papers] in *.
    set (v := load _ _ _) in *. destruct (str_valid v); [|discriminate Rf]. injection Rf as Rf. rewrite Rf.
    destruct (papers D (foobar D)).
    + split; [split; [auto|]|discriminate]. intros _. eexists _, _. reflexivity.
    + split; [|eauto]. split; [|intros [|]; discriminate]. intros (q & s' & C). discriminate C.
Qed.

(** ** Examples of [tagged_box!] *)

Lemma readme_enum_ok : def_ok readme_enum. Proof. def_ok_tac. Qed.
Lemma docs_enum_ok : def_ok docs_enum. Proof. def_ok_tac. Qed.

Lemma two_tags c : In c table -> 1 <= max_discriminant c /\ (2 <= max_discriminant c <-> pointer_width c <= 62) /\
  (62 < pointer_width c -> discriminant_bits c = 1).
Proof.
  revert c. apply (in_table (fun c => 1 <= max_discriminant c /\ (2 <= max_discriminant c <-> pointer_width c <= 62) /\
    (62 < pointer_width c -> discriminant_bits c = 1))).
  repeat (constructor; [vm_compute; intuition (congruence || discriminate)|]). constructor.
Qed.

Theorem C50_compiles : forall c, In c table ->
  Forall (fun def => doc_compiles c def <-> 56 <= pointer_width c) [readme_enum; docs_enum; usage_enum; guide_doc_enum].
Proof.
  intros c Hc. apply Forall_forall. intros def Hd.
  assert (X : exists x, expand def = Some x /\ names_accepted imported spelled (e_container def) (e_name def) x).
  { cbn in Hd. destruct Hd as [<-|[<-|[<-|[<-|[]]]]]; (eexists; split; [vm_compute; reflexivity|]; split; [discriminate|]);
      vm_compute; repeat constructor. }
  destruct X as (x & Hx & Hn). split.
  - intros (x' & Hx' & T & _). exact (proj1 (C31_exact _ _ _ Hc Hx') T).
  - intros H. exists x. split; [exact Hx|]. split; [exact (proj2 (C31_exact _ _ _ Hc Hx) H)|exact Hn].
Qed.

Theorem C50_readme : forall E D x I F s, env_ok E -> doc_ok D -> macro_lasts E readme_enum x I (doc_readme D) s ->
  implements keeps readme_enum I F -> expand readme_enum = Some x -> 56 <= pointer_width (cfg (tgt E)) ->
  macro_passes E x I (doc_readme D) s.
Proof.
  intros E D x I F s He [_ [G1 G2] _ _] Hm Hi Hx H8.
  destruct (two_tags _ (proj1 (eo_target _ He))) as (M1 & _).
  eapply macro_test_passes; [exact (tests_setup _ _ _ He readme_enum_ok Hx H8)|exact Hi|exact Hm|].
  cbn [mt_calls doc_readme].
  kcall ltac:(split; [eexists; split; [left; reflexivity|constructor; [exact G1|constructor]]|eapply (fits_by _ _ _ 0); [reflexivity|lia]]).
  kcall ltac:(exact Logic.I). kcall ltac:(exact Logic.I).
  kcall ltac:(split; [eexists; split; [right; left; reflexivity|constructor; [apply i32_ok|constructor; [apply f32_ok|constructor]]]|
    eapply (fits_by _ _ _ 1); [reflexivity|exact M1]]).
  kcall ltac:(exact Logic.I). kcall ltac:(exact Logic.I).
  cbn -[f32 u32 String.eqb value_eqb]. rewrite G2, String.eqb_refl. reflexivity.
Qed.

Theorem C50_works : forall E D x I F s, env_ok E -> doc_ok D -> macro_lasts E docs_enum x I (doc_works D) s ->
  implements keeps docs_enum I F -> expand docs_enum = Some x -> 56 <= pointer_width (cfg (tgt E)) <= 62 ->
  macro_passes E x I (doc_works D) s.
Proof.
  intros E D x I F s He [_ _ _ E1] Hm Hi Hx [H8 L].
  destruct (two_tags _ (proj1 (eo_target _ He))) as (_ & M2 & _). apply M2 in L.
  eapply macro_test_passes; [exact (tests_setup _ _ _ He docs_enum_ok Hx H8)|exact Hi|exact Hm|].
  cbn [mt_calls doc_works].
  kcall ltac:(split; [eexists; split; [left; reflexivity|constructor; [apply i32_ok|constructor]]|eapply (fits_by _ _ _ 0); [reflexivity|lia]]).
  kcall ltac:(split; [eexists; split; [right; right; left; reflexivity|constructor; [exact E1|constructor]]|eapply (fits_by _ _ _ 2); [reflexivity|exact L]]).
  kcall ltac:(exact Logic.I). kcall ltac:(exact Logic.I). reflexivity.
Qed.

Theorem C50_does_not_work : forall E x I v c, expand docs_enum = Some x -> kstep E x I (doc_does_not_work v) c = None.
Proof. intros E x I v c Hx. vm_compute in Hx. injection Hx as <-. reflexivity. Qed.

(** The third variant does not fit 63 bits: the container reads as the first. *)
Theorem C50_greeting : forall E D x I F s, env_ok E -> doc_ok D -> macro_lasts E docs_enum x I (doc_greeting D) s ->
  implements keeps docs_enum I F -> expand docs_enum = Some x -> 56 <= pointer_width (cfg (tgt E)) ->
  (macro_passes E x I (doc_greeting D) s <-> pointer_width (cfg (tgt E)) <= 62).
Proof.
  intros E D x I F s He [_ [G1 G2] _ _] Hm Hi Hx H8.
  destruct (two_tags _ (proj1 (eo_target _ He))) as (_ & M2 & B). pose proof (tests_setup _ _ _ He docs_enum_ok Hx H8) as Hs.
  destruct (N.le_gt_cases (pointer_width (cfg (tgt E))) 62) as [L|L].
  - split; [auto|]. intros _. apply M2 in L. eapply macro_test_passes; [exact Hs|exact Hi|exact Hm|].
    cbn [mt_calls doc_greeting].
    kcall ltac:(split; [eexists; split; [right; right; left; reflexivity|constructor; [exact G1|constructor]]|eapply (fits_by _ _ _ 2); [reflexivity|exact L]]).
    kcall ltac:(exact Logic.I). kcall ltac:(exact Logic.I).
    cbn -[String.eqb value_eqb]. rewrite G2, String.eqb_refl. reflexivity.
  - split; [|lia]. intros (seen & c & s' & R & _ & P & As). exfalso. specialize (B L).
    assert (M : max_discriminant (cfg (tgt E)) < 2) by (destruct (N.le_gt_cases 2 (max_discriminant (cfg (tgt E)))) as [Q|Q]; [apply M2 in Q; lia|exact Q]).
    assert (Hi2 : nth_error (e_variants docs_enum) 2 = Some ("String"%string, KTuple [ty_string])) by reflexivity.
    assert (Ft : Forall2 has_type [ty_string] [greeting D]) by (constructor; [exact G1|constructor]).
    cbn [mt_calls mt_asserts doc_greeting kstraight krun] in R, As.
    assert (K : kstep E x I (KFromPayload "String" [greeting D]) [] =
      Some (bind (container_from E x (EV "String" [greeting D])) (fun w => ret (KNothing, [KBox w])))).
    { clear - Hx. vm_compute in Hx. injection Hx as <-. reflexivity. }
    rewrite K in R. unfold bind in R.
    destruct (alloc_fn E s 24 8) as [p|] eqn:A.
    + destruct (debug_assertions (tgt E)) eqn:Dbg.
      * destruct (C27_debug_panics E docs_enum x 2 "String" _ _ [greeting D] p s Hs Dbg Hi2 Ft eq_refl ltac:(discriminate) A) as [s1 Q];
          [exact M|]. rewrite Q in R. injection R as <- _ _. discriminate P.
      * destruct (C27_confused E docs_enum x 2 "String" _ _ [greeting D] p s Hs Hi2 Ft eq_refl ltac:(discriminate) A) as (w & s1 & Q & Tg & _);
          [rewrite Dbg; discriminate|]. rewrite Q in R. cbn [ret] in R. rewrite B in Tg. change (tb_discriminant E w = 0) in Tg.
        cbn [krun kstep nth_error] in R. unfold bind in R.
        rewrite (macro_into_inner_eq E docs_enum x docs_enum_ok Hx w s1 (accepted_u8 _ _ _ Hs)), Tg in R.
        cbn [N.to_nat nth_error docs_enum e_variants] in R. unfold read_kind, bind in R. cbn [storage] in R.
        destruct (tb_into_inner E _ w s1) as [vs s2|q s2|u]; cbn [ret] in R.
        -- destruct (krun E x I _ _ s2) as [l e]. injection R as <- _. cbn in As. discriminate As.
        -- cbn in R. injection R as <- _ _. discriminate As.
        -- discriminate R.
    + assert (Q : exists s1, container_from E x (EV "String" [greeting D]) s = Panicked PanicNullAlloc s1).
      { unfold container_from. rewrite (macro_into_eq E docs_enum x docs_enum_ok Hx 2 _ _ [greeting D] s Hi2 eq_refl), at_exit_eq.
        unfold store_kind. cbn [storage]. unfold tb_new, alloc, bind.
        cbn [h_size h_align leaf_hty ty_size ty_align ty_string N.eqb]. rewrite A. eexists. reflexivity. }
      destruct Q as [s1 Q]. rewrite Q in R. injection R as <- _ _. discriminate P.
Qed.

(** ** All examples *)

Theorem C50_docs : forall E D I1 I2 F1 F2 s, env_ok E -> doc_ok D -> doc_memory E D I1 I2 s ->
  papers D (foobar D) = true -> implements keeps readme_enum I1 F1 -> implements keeps docs_enum I2 F2 ->
  (docs_hold E D I1 I2 s <-> 56 <= pointer_width (cfg (tgt E)) <= 60).
Proof.
  intros E D I1 I2 F1 F2 s He Hd [Mu Mt Mi Mr Md] Hp H1 H2. pose proof (proj1 (eo_target _ He)) as Hc.
  pose proof (C50_compiles _ Hc) as Cc. rewrite Forall_forall in Cc. unfold docs_hold. cbn zeta. split.
  - intros (_ & _ & P & _ & Q & _). apply (C50_discriminant E s He Mi) in P. split; [|exact P].
    inversion Q as [|d l Q1 _]. subst. apply (Cc readme_enum); [left; reflexivity|exact Q1].
  - intros [L1 L2]. split; [apply C50_untagged; assumption|]. split; [|split; [|split; [|split; [|split]]]].
    + pose proof (C50_tagged E D s He Hd Mt) as T. revert T. apply Forall_impl. intros t T. apply T. left. exact L2.
    + apply C50_discriminant; assumption.
    + apply C50_misread; auto.
    + apply Forall_forall. intros def Hin. apply (Cc def Hin), L1.
    + intros x Hx. eapply C50_readme; eauto.
    + intros x Hx. destruct (Md x Hx) as [Mg Mw]. split; [eapply C50_greeting; eauto; lia|]. split; [eapply C50_works; eauto; lia|].
      intros v c. apply C50_does_not_work, Hx.
Qed.

(** ** Surroundings that meet the assumptions: every table row, both profiles *)

Definition plain_docs : doc_data :=
  DocData (fun v => match number (skipn 16 v) with 28 => "Foobar is a timeless classic" | 22 => "Hello from tagged-box!" | _ => "" end)%string
    (fun v => match number (skipn 16 v) with 3 => [100; 200; 300] | _ => [] end)
    (three_words 0x7000 28) (three_words 0x7100 22) (three_words 0x7200 22) (three_words 0x7300 3) (three_words 0x7400 3)
    (three_words 0x7500 0) str_valid.

Lemma plain_docs_ok : doc_ok plain_docs.
Proof. constructor; vm_compute; repeat split; reflexivity. Qed.

Definition docs_plenty (E : env) : bool :=
  let D := plain_docs in let I := pure_impls item_meaning in
  (forallb (fun t => none_true (shortages E (dt_prog t) [] st0)) (doc_discriminant 11 :: docs_untagged D ++ docs_tagged D) &&
   expanded readme_enum (fun x => none_true (kshortages E readme_enum x I (kstraight (mt_calls (doc_readme D))) [] st0)) &&
   expanded docs_enum (fun x => none_true (kshortages E docs_enum x I (kstraight (mt_calls (doc_greeting D))) [] st0) &&
     none_true (kshortages E docs_enum x I (kstraight (mt_calls (doc_works D))) [] st0)))%bool.

Lemma docs_plenty_everywhere t : In (cfg t) table -> ptr_bits t = 64 -> docs_plenty (bump_env t) = true.
Proof.
  destruct t as [c d b]. cbn [cfg ptr_bits]. intros Hc ->.
  assert (H : forallb (fun c => docs_plenty (bump_env (Target c true 64)) && docs_plenty (bump_env (Target c false 64))) table = true)
    by (vm_compute; reflexivity).
  rewrite forallb_forall in H. specialize (H c Hc). apply andb_true_iff in H. destruct d; apply H.
Qed.

Theorem C50_surroundings : forall t, In (cfg t) table -> ptr_bits t = 64 ->
  let E := bump_env t in let I := pure_impls item_meaning in
  env_ok E /\ doc_ok plain_docs /\ doc_memory E plain_docs I I st0 /\ papers plain_docs (foobar plain_docs) = true /\
  implements keeps readme_enum I (fun _ => item_meaning) /\ implements keeps docs_enum I (fun _ => item_meaning).
Proof.
  intros t Hc H64 E I. pose proof (docs_plenty_everywhere t Hc H64) as H. unfold docs_plenty in H. cbn zeta in H.
  apply andb_true_iff in H. destruct H as [H H2]. apply andb_true_iff in H. destruct H as [H H1].
  rewrite forallb_forall in H.
  assert (L : forall d, In d (doc_discriminant 11 :: docs_untagged plain_docs ++ docs_tagged plain_docs) -> doc_lasts E d st0)
    by (intros d Hd; apply none_true_sound, H, Hd).
  split; [apply bump_env_ok; split; [exact Hc|right; exact H64]|]. split; [apply plain_docs_ok|].
  split; [constructor|split; [reflexivity|split; apply identity_implements]].
  - apply Forall_forall. intros d Hd. apply L. right. apply in_or_app. auto.
  - apply Forall_forall. intros d Hd. apply L. right. apply in_or_app. auto.
  - apply L. left. reflexivity.
  - intros x Hx. apply none_true_sound, (expanded_sound _ _ x H1 Hx).
  - intros x Hx. pose proof (expanded_sound _ _ x H2 Hx) as G. cbn beta in G. apply andb_true_iff in G.
    split; apply none_true_sound, G.
Qed.

(** In the default setting all examples hold, in both profiles; with 48 bits those of the macro do not
    compile; with 63 bits box examples fail, in a release build only the one about the tag, and the third
    variant of an enum is misread. *)
Example C50_example : let D := plain_docs in let I := pure_impls item_meaning in
  docs_hold (bump_env dbg60) D I I st0 /\ docs_hold (bump_env rel60) D I I st0 /\
  ~ docs_hold (bump_env (Target cfg48 true 64)) D I I st0 /\
  ~ doc_passes (bump_env (Target cfg63 true 64)) (doc_into_raw 8) st0 /\
  doc_passes (bump_env (Target cfg63 false 64)) (doc_into_raw 8) st0 /\
  ~ doc_passes (bump_env (Target cfg63 false 64)) (doc_discriminant 11) st0 /\
  (forall x, expand docs_enum = Some x -> ~ macro_passes (bump_env (Target cfg63 false 64)) x I (doc_greeting D) st0).
Proof.
  intros D I.
  assert (H60 : In cfg60 table) by (cbn; tauto). assert (H48 : In cfg48 table) by (cbn; tauto).
  assert (H63 : In cfg63 table) by (cbn; tauto).
  assert (S : forall c d, In c table -> docs_hold (bump_env (Target c d 64)) D I I st0 <-> 56 <= pointer_width c <= 60).
  { intros c d Hc. destruct (C50_surroundings (Target c d 64) Hc eq_refl) as (S1 & S2 & S3 & S4 & S5 & S6).
    exact (C50_docs _ _ _ _ _ _ _ S1 S2 S3 S4 S5 S6). }
  split; [apply (S _ true H60); cbn; lia|]. split; [apply (S _ false H60); cbn; lia|].
  split; [rewrite (S _ true H48); cbn; lia|].
  assert (T : forall d, let E := bump_env (Target cfg63 d 64) in (doc_passes E (doc_into_raw 8) st0 <-> d = false) /\
    ~ doc_passes E (doc_discriminant 11) st0 /\
    forall x, expand docs_enum = Some x -> ~ macro_passes E x I (doc_greeting D) st0).
  { intros d E. destruct (C50_surroundings (Target cfg63 d 64) H63 eq_refl) as (S1 & S2 & [_ S3 S4 _ S5] & _ & _ & S6).
    pose proof (C50_tagged E D st0 S1 S2 S3) as T. inversion T as [|t l T1 _]. subst. split; [|split].
    - rewrite T1. cbn. split; [intros [L|L]; [lia|exact L]|auto].
    - rewrite (C50_discriminant E st0 S1 S4). cbn. lia.
    - intros x Hx P. apply (C50_greeting E D x I _ st0 S1 S2 (proj1 (S5 x Hx)) S6 Hx) in P; [cbn in P; lia|cbn; lia]. }
  destruct (T true) as [T1 _], (T false) as (T2 & T3 & T4).
  split; [rewrite T1; discriminate|]. split; [apply T2; reflexivity|]. split; [exact T3|exact T4].
Qed.

(** The misreading example is undefined if a [Vec<Paper>] cannot have the bits of the string. *)
Example C50_misread_example : let D := plain_docs in
  let D' := DocData (doc_text D) (doc_items D) (foobar D) (greeting D) (greeting' D) (numbers D) (numbers' D) (empty D) (fun _ => false) in
  env_ok (bump_env dbg60) /\ doc_ok D /\ doc_ok D' /\ no_block (bump_env dbg60) (leaf_hty ty_string) st0 = false /\
  should_panic (doc_misread (bump_env dbg60) D) st0 /\ doc_misread (bump_env dbg60) D' st0 = UB UbInvalidValue.
Proof.
  intros D D'. split; [apply bump_env_ok, example_targets_ok|]. split; [exact plain_docs_ok|].
  split; [constructor; apply plain_docs_ok|]. split; [reflexivity|]. split; [eexists _, _; vm_compute; reflexivity|vm_compute; reflexivity].
Qed.

(** ** Instances: each theorem applied to a concrete case that meets its hypotheses *)

Lemma docs_at t : In (cfg t) table -> ptr_bits t = 64 -> env_ok (bump_env t) /\ doc_ok plain_docs /\
  doc_memory (bump_env t) plain_docs (pure_impls item_meaning) (pure_impls item_meaning) st0 /\
  implements keeps readme_enum (pure_impls item_meaning) (fun _ => item_meaning) /\
  implements keeps docs_enum (pure_impls item_meaning) (fun _ => item_meaning).
Proof. intros H H64. destruct (C50_surroundings t H H64) as (A & B & C & _ & D & F). auto. Qed.

Lemma docs60 : env_ok (bump_env dbg60) /\ doc_ok plain_docs /\
  doc_memory (bump_env dbg60) plain_docs (pure_impls item_meaning) (pure_impls item_meaning) st0 /\
  implements keeps readme_enum (pure_impls item_meaning) (fun _ => item_meaning) /\
  implements keeps docs_enum (pure_impls item_meaning) (fun _ => item_meaning).
Proof. apply docs_at; [cbn; tauto|reflexivity]. Qed.

Example C50_tagged_example : doc_passes (bump_env dbg60) (doc_into_raw 8) st0.
Proof.
  destruct docs60 as (A & B & C & _). pose proof (C50_tagged _ _ _ A B (dm_tagged _ _ _ _ _ C)) as H.
  apply (proj1 (Forall_forall _ _) H); [cbn; tauto|left; vm_compute; discriminate].
Qed.

Example C50_untagged_example : Forall (fun t => doc_passes (bump_env dbg60) t st0) (docs_untagged plain_docs) /\ docs_untagged plain_docs <> [].
Proof.
  destruct docs60 as (A & B & C & _). split; [exact (C50_untagged _ _ _ A B (dm_untagged _ _ _ _ _ C))|discriminate].
Qed.

Example C50_discriminant_example : doc_passes (bump_env dbg60) (doc_discriminant 11) st0 /\
  ~ doc_passes (bump_env (Target cfg61 false 64)) (doc_discriminant 11) st0.
Proof.
  destruct docs60 as (A & B & C & _). destruct (docs_at (Target cfg61 false 64)) as (A' & _ & C' & _); [cbn; tauto|reflexivity|].
  split; [apply (C50_discriminant _ _ A (dm_discriminant _ _ _ _ _ C)); vm_compute; discriminate|].
  intros H. apply (C50_discriminant _ _ A' (dm_discriminant _ _ _ _ _ C')) in H. vm_compute in H. elim H. reflexivity.
Qed.

Example C50_misread_instance : should_panic (doc_misread (bump_env dbg60) plain_docs) st0.
Proof. destruct docs60 as (A & B & _). apply (C50_misread _ _ _ A B). left. vm_compute. reflexivity. Qed.

Example C50_compiles_example : doc_compiles cfg60 readme_enum /\ ~ doc_compiles cfg48 readme_enum.
Proof.
  pose proof (C50_compiles cfg60 ltac:(cbn; tauto)) as H. pose proof (C50_compiles cfg48 ltac:(cbn; tauto)) as H'.
  inversion H as [|? ? P _]. inversion H' as [|? ? P' _]. rewrite P, P'. vm_compute. split; [discriminate|intros F; apply F; reflexivity].
Qed.

Example C50_readme_example : exists x, expand readme_enum = Some x /\
  macro_passes (bump_env dbg60) x (pure_impls item_meaning) (doc_readme plain_docs) st0.
Proof.
  destruct (some_expansion readme_enum) as [x X]; [vm_compute; discriminate|]. exists x. split; [exact X|].
  destruct docs60 as (A & B & C & R & _). apply (C50_readme _ _ _ _ _ _ A B (dm_readme _ _ _ _ _ C x X) R X). vm_compute. discriminate.
Qed.

Example C50_works_example : exists x, expand docs_enum = Some x /\
  macro_passes (bump_env dbg60) x (pure_impls item_meaning) (doc_works plain_docs) st0.
Proof.
  destruct (some_expansion docs_enum) as [x X]; [vm_compute; discriminate|]. exists x. split; [exact X|].
  destruct docs60 as (A & B & C & _ & R). apply (C50_works _ _ _ _ _ _ A B (proj2 (dm_docs _ _ _ _ _ C x X)) R X). vm_compute. split; discriminate.
Qed.

Example C50_greeting_example : exists x, expand docs_enum = Some x /\
  macro_passes (bump_env dbg60) x (pure_impls item_meaning) (doc_greeting plain_docs) st0 /\
  ~ macro_passes (bump_env (Target cfg63 true 64)) x (pure_impls item_meaning) (doc_greeting plain_docs) st0.
Proof.
  destruct (some_expansion docs_enum) as [x X]; [vm_compute; discriminate|]. exists x. split; [exact X|].
  destruct docs60 as (A & B & C & _ & R). destruct (docs_at (Target cfg63 true 64)) as (A' & _ & C' & _); [cbn; tauto|reflexivity|].
  split; [apply (C50_greeting _ _ _ _ _ _ A B (proj1 (dm_docs _ _ _ _ _ C x X)) R X); vm_compute; discriminate|].
  intros H. assert (W : 56 <= pointer_width (cfg (tgt (bump_env (Target cfg63 true 64))))) by (vm_compute; discriminate).
  apply (proj1 (C50_greeting _ _ _ _ _ _ A' B (proj1 (dm_docs _ _ _ _ _ C' x X)) R X W)) in H. vm_compute in H. elim H. reflexivity.
Qed.

Example C50_does_not_work_example : exists x, expand docs_enum = Some x /\
  kstep (bump_env dbg60) x (pure_impls item_meaning) (doc_does_not_work (greeting plain_docs)) [] = None.
Proof.
  destruct (some_expansion docs_enum) as [x X]; [vm_compute; discriminate|]. exists x. split; [exact X|].
  apply C50_does_not_work, X.
Qed.

Print Assumptions C50_untagged.
Print Assumptions C50_tagged.
Print Assumptions C50_discriminant.
Print Assumptions C50_misread.
Print Assumptions C50_greeting.
Print Assumptions C50_docs.
Print Assumptions C50_surroundings.
