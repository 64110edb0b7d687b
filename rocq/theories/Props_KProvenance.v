(** Property C69: programs using containers on a machine whose pointers know their blocks. *)
From Coq Require Import Arith NArith String Bool List Lia.
From Verif Require Import Words Config Spec ConfigFacts Pointer PointerFacts Fmt Mem SpecMem MemFacts Box BoxFacts Bump
  Arms Macro SpecMacro MacroFacts Props_Pointer Props_Box Props_Macro Props_Layout Props_Clone Session SpecSession SessionFacts
  Containers SpecContainers Props_Containers Provenance SpecProvenance ProvenanceFacts Props_Provenance KProvenance KProvenanceFacts.
Import ListNotations.
Local Open Scope N_scope.
Local Open Scope list_scope.

(** ** C69 The same for the containers of [tagged_box!] *)

Lemma pk_run_sim E def x I F : macro_setup E def x -> implements separate def I F ->
  forall p c s0 ps a, kinv E def s0 (p_mem ps) c a -> kfollows E def F p a -> good ps -> KProvenanceFacts.cells_ok E def ps c ->
  exists seen c' ps', pk_run E x false I p c ps = (seen, PKFinished c' ps') /\
    krun E x I p c (p_mem ps) = (seen, KFinished c' (p_mem ps')) /\ good ps'.
Proof.
  intros Hs HI p. induction p as [|o k IH]; intros c s0 ps a Hi Hf G C; cbn [kfollows] in Hf.
  - exists [], c, ps. auto.
  - destruct (Hf (p_mem ps)) as [Hc Hf'].
    assert (Hn : kastep def (F (p_mem ps)) false o a <> None)
      by (specialize (Hf' false); destruct (kastep def (F (p_mem ps)) false o a); [discriminate|contradiction]).
    destruct (kstep_sim E def x I F separate Hs HI (fun _ _ S => proj1 S) s0 (p_mem ps) c a o Hi Hc Hn)
      as (fail & m & r & a' & c' & s' & H1 & H2 & H3 & H4 & _ & _).
    destruct (pk_step_sim E def x Hs I F HI s0 ps c a o Hi Hc Hn G C) as (pm & m' & S1 & S2 & S3).
    rewrite H2 in S2. injection S2 as <-. specialize (Hf' fail). rewrite H1 in Hf'. unfold pk_ok in S3.
    destruct H3 as [R|(q & -> & R & ->)]; rewrite R in S3; destruct S3 as (ps' & P1 & <- & P3 & P4).
    + destruct (IH r c' s0 ps' a' H4 Hf' P3 P4) as (seen & c2 & ps2 & Q1 & Q2 & Q3).
      exists (r :: seen), c2, ps2. cbn [pk_run krun]. rewrite S1, P1, H2, R, Q1, Q2. auto.
    + destruct (IH (KSawPanic q) _ s0 ps' a' H4 Hf' P3 P4) as (seen & c2 & ps2 & Q1 & Q2 & Q3).
      exists (KSawPanic q :: seen), c2, ps2. cbn [pk_run krun]. rewrite S1, P1, H2, R, Q1, Q2. auto.
Qed.

(** The machine takes the same calls as the one of C35. *)
Theorem C69_calls : forall E x strict I o c, pk_step E x strict I o c = None <-> kstep E x I o c = None.
Proof.
  intros E x strict I o c. destruct o; cbn [pk_step kstep];
    repeat match goal with |- context [match ?y with _ => _ end] => destruct y end; split; intros H; first [reflexivity | discriminate H].
Qed.
Example C69_calls_example : pk_step (bump_env dbg60) item_x false (buffer_impls (bump_env dbg60)) (KCopy 0) [KBox 0] = None /\
  pk_step (bump_env dbg60) item_x false (buffer_impls (bump_env dbg60)) (KClone 0) [KBox 0] <> None.
Proof. split; [reflexivity|discriminate]. Qed.

(** A program that keeps the contract sees and leaves behind exactly what it does on the machine of C35, whatever blocks are live
    at the start and however they are numbered, and whatever the impls of the enum do with memory of their own. *)
Theorem C69_exposed : forall E def x I F p ps, macro_setup E def x -> implements separate def I F -> kfollows E def F p ka0 ->
  numbered ps -> tidy (blocks (p_mem ps)) ->
  exists seen c ps', pk_run E x false I p [] ps = (seen, PKFinished c ps') /\
    krun E x I p [] (p_mem ps) = (seen, KFinished c (p_mem ps')) /\ numbered ps' /\ tidy (blocks (p_mem ps')).
Proof.
  intros E def x I F p ps Hs HI Hf N T.
  destruct (pk_run_sim E def x I F Hs HI p [] (p_mem ps) ps ka0 (kinv0 E def (p_mem ps)) Hf (conj N T)) as (seen & c & ps' & R1 & R2 & G1 & G2).
  - intros i w H. destruct i; discriminate H.
  - exists seen, c, ps'. auto.
Qed.

(** *** Without exposing *)

Lemma pk_hit x {A} d arms (b : read_arm -> PM A) df a s : hit x d arms = Some a -> pk_match x d arms b df s = b a s.
Proof.
  induction arms as [|c arms IH]; cbn [hit pk_match]; [discriminate|]. unfold pbind at 1, under.
  destruct (eval_tag x (ra_tag c)) as [t|]; [|discriminate]. cbn [resolved ret]. rewrite mem_id. destruct (d =? t); [|exact IH].
  intros H. injection H as <-. reflexivity.
Qed.

Lemma pk_build_lost E x rd v b H s : build_type E b = Some H -> rd H s = PUB NoProvenance -> pk_build E x rd v b s = PUB NoProvenance.
Proof.
  intros Hb R. destruct b; cbn [build_type] in Hb; try discriminate Hb; injection Hb as <-; cbn [pk_build]; unfold pbind at 1; rewrite R; reflexivity.
Qed.

Lemma into_lost E H w s : h_size H <> 0 -> p_into_inner E true H w s = PUB NoProvenance.
Proof. intros Z. unfold p_into_inner, p_as_mut_ptr, to_ptr, pbind. apply no_read; [exact Z|reflexivity]. Qed.
Lemma ref_lost E H w s : h_size H <> 0 -> pbind (p_as_ptr E true w) (fun p => p_read H p) s = PUB NoProvenance.
Proof. intros Z. unfold p_as_ptr, to_ptr, pbind. apply no_read; [exact Z|reflexivity]. Qed.

Lemma hit_variant E def x g arms w n k : macro_setup E def x -> (forall v k a, g v k = Some a -> ra_tag a = tag_of v /\ ra_variant a = v) ->
  gen_all g (e_variants def) = Some arms -> nth_error (e_variants def) (N.to_nat (tb_discriminant E w)) = Some (n, k) ->
  exists a, hit x (tb_discriminant E w) arms = Some a /\ g n k = Some a.
Proof.
  intros Hs Hg Ga Hn.
  pose proof (match_disc_nth def x (ms_def _ _ _ Hs) (ms_expand _ _ _ Hs) g arms (fun a => ret (Some a)) (ret None) (tb_discriminant E w)
    (St (fun _ => Undef) [] []) Hg Ga (disc_u8 E w (setup_u8 _ _ _ Hs))) as Mn.
  destruct (gen_all_nth _ _ _ Ga) as [_ Nt]. specialize (Nt (N.to_nat (tb_discriminant E w))). rewrite Hn in Nt.
  destruct Nt as (a & B1 & B2). exists a. split; [|exact B1]. rewrite B2 in Mn. exact (hit_runs x _ _ _ _ Mn).
Qed.

(** If integers give pointers for no block (strict provenance), no container of a variant that takes up memory gives its value:
    neither [into_inner] nor [from_tagged_box], and no closure given to [ref_from_tagged_box] is ever called; so there is no cloning,
    comparing or printing either. *)
Theorem C69_strict : forall E def x w n k U ps, macro_setup E def x ->
  nth_error (e_variants def) (N.to_nat (tb_discriminant E w)) = Some (n, k) -> storage k = Some U -> h_size U <> 0 ->
  pk_into_inner E x true w ps = PUB NoProvenance /\
  (forall S (f : evalue -> S -> PM S) c, pk_ref E x true w f c ps = PUB NoProvenance) /\
  (several_fields k -> h_size (tuple_layout E (kind_types k)) <> 0 -> pk_from E x true w ps = PUB NoProvenance) /\
  (~ several_fields k -> pk_from E x true w ps = PUB NoProvenance) /\
  (forall I, pk_clone E x true I w ps = PUB NoProvenance).
Proof.
  intros E def x w n k U ps Hs Hn Hu Z. pose proof (expand_inv _ _ (ms_expand _ _ _ Hs)) as X.
  assert (Rf : forall S (f : evalue -> S -> PM S) c, pk_ref E x true w f c ps = PUB NoProvenance).
  { intros S f c. unfold pk_ref. destruct (hit_variant E def x gen_ref _ w n k Hs gen_ref_tag (xp_ref _ _ X) Hn) as (a & Ha & Ga).
    rewrite (pk_hit _ _ _ _ _ _ _ Ha). unfold pbind at 1.
    rewrite (pk_build_lost E x _ _ _ U ps); [reflexivity|rewrite (ref_type E n k a Ga); exact Hu|apply ref_lost, Z]. }
  assert (Fr : forall H, from_storage E k = Some H -> h_size H <> 0 -> pk_from E x true w ps = PUB NoProvenance).
  { intros H Hk ZH. unfold pk_from. destruct (hit_variant E def x gen_from _ w n k Hs gen_from_tag (xp_from _ _ X) Hn) as (a & Ha & Ga).
    rewrite (pk_hit _ _ _ _ _ _ _ Ha). apply (pk_build_lost E x _ _ _ H); [rewrite (from_type E n k a Ga); exact Hk|apply into_lost, ZH]. }
  split; [|split; [exact Rf|split; [|split]]].
  - unfold pk_into_inner. destruct (hit_variant E def x gen_inner _ w n k Hs gen_inner_tag (xp_inner _ _ X) Hn) as (a & Ha & Ga).
    rewrite (pk_hit _ _ _ _ _ _ _ Ha). apply (pk_build_lost E x _ _ _ U); [rewrite (inner_type E n k a Ga); exact Hu|apply into_lost, Z].
  - intros Sv Zt. destruct k as [|[|t [|t2 tys]]|ms]; cbn [several_fields] in Sv; cbn in Sv; try lia. apply (Fr _ eq_refl Zt).
  - intros Sv. destruct k as [|[|t [|t2 tys]]|ms]; cbn [storage] in Hu; try discriminate Hu; try (apply (Fr U); [exact Hu|exact Z]).
    exfalso. apply Sv. cbn. lia.
  - intros I. unfold pk_clone. unfold pbind at 1. rewrite Rf. reflexivity.
Qed.

(** *** Examples *)

Lemma ps0_tidy : tidy (blocks (p_mem ps0)).
Proof. constructor; repeat constructor. discriminate. Qed.

Lemma also_tidy {A} s (m : M A) r : computes keeps s m r -> (forall t, m s = ends r t -> tidy (blocks s) -> tidy (blocks t)) ->
  computes separate s m r.
Proof. intros (t & H1 & H2) T. exists t. split; [exact H1|]. split; [exact H2|exact (T t H1)]. Qed.

Lemma same_tidy {A} s (r : outcome A) t : of_outcome r s = ends r t -> tidy (blocks s) -> tidy (blocks t).
Proof. destruct r; cbn; intros H; injection H as <-; auto. Qed.

(** Cloning keeps a buffer of its own. *)
Lemma buffered_separate E : env_ok E -> implements separate item (buffer_impls E) (buffered E).
Proof.
  intros He. destruct (buffered_implements E He) as [A B C D G H].
  constructor; intros s; intros; try (apply also_tidy; [auto|intros t; apply same_tidy]).
  destruct (A s v H0) as [A1 A2]. split; [|exact A2]. apply also_tidy; [exact A1|]. intros t.
  cbn [buffer_impls buffered i_clone m_clone]. destruct (String.eqb (ev_variant v) "Text"); [|intros R; injection R as <-; auto].
  unfold bind, alloc. destruct (alloc_fn E s 5 1) as [p|] eqn:Hp; intros R; injection R as <-; [|auto].
  intros [T1 T2]. destruct (eo_alloc _ He s 5 1 p ltac:(lia) (proj1 wf_u8) Hp) as (_ & _ & _ & K).
  constructor; cbn [blocks]; constructor; auto; [discriminate|]. apply Forall_forall. intros b Hb. cbn [b_base b_size]. auto.
Qed.

Example C69_exposed_meets : let E := bump_env dbg60 in
  macro_setup E item item_x /\ implements separate item (buffer_impls E) (buffered E) /\ kfollows E item (buffered E) clones_twice ka0 /\
  numbered ps0 /\ tidy (blocks (p_mem ps0)).
Proof.
  cbv zeta. split; [apply item_setup|]. split; [apply buffered_separate, bump_env_ok, example_targets_ok|].
  split; [apply clones_twice_follows|]. split; [exact ps0_numbered|exact ps0_tidy].
Qed.

(** The container's block is number 8; the two clones make buffers, numbers 9 and 11, which are not exposed, and blocks for
    their containers, which are. Block 7 was there before. *)
Example C69_exposed_example : let E := bump_env dbg60 in exists c ps,
  pk_run E item_x false (buffer_impls E) clones_twice [] ps0
    = ([KNothing; KNothing; KNothing; KNothing; KSawValues [v_text]; KSawValues [in_buffer 4144]; KSawValues [in_buffer 4176];
        KSawBool true], PKFinished c ps) /\
  map fst (p_blocks ps) = [12; 11; 10; 9; 8; 7]%nat /\ nodup Nat.eq_dec (p_exposed ps) = [12; 10; 8]%nat.
Proof. cbv zeta. do 2 eexists. split; [vm_compute; reflexivity|]. split; reflexivity. Qed.

(** A text cannot be taken out, viewed or cloned; a unit variant can, as nothing is read. *)
Example C69_strict_example : let E := bump_env dbg60 in let I := buffer_impls E in
  (exists w c ps, pk_run E item_x true I (kgo [KNew v_text; KFrom 0; KTag 0]) [] ps0 = ([KNothing; KNothing; KSawTag 2], PKFinished c ps) /\
     c = [KBox w] /\ nth_error (e_variants item) (N.to_nat (tb_discriminant E w)) = Some ("Text"%string, KTuple [ty_string])) /\
  pk_run E item_x true I (kgo [KNew v_text; KFrom 0; KIntoInner 0]) [] ps0 = ([KNothing; KNothing], PKUndefined NoProvenance) /\
  pk_run E item_x true I (kgo [KNew v_text; KFrom 0; KView 0]) [] ps0 = ([KNothing; KNothing], PKUndefined NoProvenance) /\
  pk_run E item_x true I (kgo [KNew v_text; KFrom 0; KClone 0]) [] ps0 = ([KNothing; KNothing], PKUndefined NoProvenance) /\
  exists c ps, pk_run E item_x true I (kgo [KNew v_unit; KFrom 0; KView 0; KIntoInner 0]) [] ps0
    = ([KNothing; KNothing; KSawValues [v_unit]; KSawValues [v_unit]], PKFinished c ps).
Proof.
  cbv zeta. split; [do 3 eexists; split; [vm_compute; reflexivity|]; split; [reflexivity|vm_compute; reflexivity]|].
  split; [vm_compute; reflexivity|]. split; [vm_compute; reflexivity|]. split; [vm_compute; reflexivity|].
  do 2 eexists. vm_compute. reflexivity.
Qed.

Print Assumptions C69_exposed.
Print Assumptions C69_strict.
Print Assumptions C69_calls.
