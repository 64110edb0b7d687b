(** Property C73: programs using the code generated by [tagged_box!] with destructors that do things. *)
From Coq Require Import Arith NArith String Bool List Lia.
From Verif Require Import Words Config Spec ConfigFacts Pointer PointerFacts Fmt Mem SpecMem MemFacts Box BoxFacts Bump
  Macro SpecMacro MacroFacts Session SpecSession SessionFacts Containers SpecContainers
  Props_Pointer Props_Box Props_Session Props_Macro Props_Clone Props_Containers
  DropPanics SpecDropPanics DropPanicsFacts Props_DropPanics KDropPanics SpecKDropPanics KDropPanicsFacts Props_KDropPanics
  Destructors SpecDestructors DestructorsFacts Props_Destructors KDestructors SpecKDestructors KDestructorsFacts.
Import ListNotations.
Local Open Scope N_scope.

(** ** C73 Generated containers and destructors that do things *)

(** The values destroyed, and the log, when storing destroys nothing. *)
Definition klogs (def : edef) (act : string -> leafval -> st -> st * bool) (s : st) (a : kastate) (s' : st) (a' : kastate) : Prop :=
  (forall v k, In (v, k) (e_variants def) -> no_zst_drop def k) -> lonely act ->
  exists l, kdead a' = kdead a ++ l /\ destroyed (events s') = destroyed (events s) ++ kdead_destructors def l.

Lemma klogs_trans def act s a s1 a1 s2 a2 : klogs def act s a s1 a1 -> klogs def act s1 a1 s2 a2 -> klogs def act s a s2 a2.
Proof.
  intros T1 T2 Hz Lo. destruct (T1 Hz Lo) as (l1 & D1 & D2), (T2 Hz Lo) as (l2 & D3 & D4). exists (l1 ++ l2).
  rewrite D3, D1, D4, D2, kdead_destructors_app, !app_assoc. auto.
Qed.

Lemma ke_run_sim E def x I F R act : macro_setup E def x -> implements R def I F -> (forall s s', R s s' -> keeps s s') -> Macro.e_drop def = false ->
  forall p c s0 s a, kinv E def s0 s c a -> kd_follows def E F p a -> kpolite E def x I act s0 p c s ->
  exists calls seen q b, kd_goes def (panics act) F p a calls seen q b /\
    ((q = KDStop /\ calls = ke_calls E def x I act p c s /\ exists c' s', ke_run E x I act p c s = (seen, KDFinished c' s') /\
        kinv E def s0 s' c' b /\ (e_copy def = false -> kcounted a -> kcounted b) /\
        ((forall t t', R t t' -> harmless t t') -> klogs def act s a s' b)) \/
     (exists o k s1 fail s', q = KDDo o k /\ ke_calls E def x I act p c s = calls ++ [(s1, fail)] /\
        ke_run E x I act p c s = (seen, KDAborted s') /\ kmay_abort def (panics act) (F s1) fail o b)).
Proof.
  intros Hs HI HR Hno p. induction p as [|o k IH]; intros c s0 s a Hi Hf Hp.
  - exists [], [], KDStop, a. split; [constructor|]. left. split; [reflexivity|]. split; [reflexivity|]. exists c, s. split; [reflexivity|].
    split; [exact Hi|]. split; [auto|]. intros _ _ _. exists []. rewrite !app_nil_r. auto.
  - cbn [kd_follows] in Hf. destruct (Hf s) as [Hc Hf']. cbn [kpolite] in Hp. destruct Hp as [P Hp].
    assert (Hn : kastep def (F s) false o a <> None) by (specialize (Hf' false); destruct (kastep def (F s) false o a); [discriminate|contradiction]).
    destruct (ke_step_sim E def x I F R act Hs HI HR Hno s0 s c a o Hi Hc Hn P) as (r & a' & c' & s' & t' & dm & H1 & H2 & H3 & [H4 H5] & H6 & H).
    assert (Tr : (forall t t', R t t' -> harmless t t') -> klogs def act s a t' a').
    { intros Hh Hz Lo.
      assert (D : destroyed (events (kcalled I o a s)) = destroyed (events s)).
      { destruct H4 as [H4|H4]; [|rewrite H4; auto]. destruct (Hh _ _ H4) as (_ & _ & D). exact D. }
      destruct H5 as [_ T]. destruct (T Hz) as (l & D1 & D2). exists l. rewrite (H6 Lo), D2, D. auto. }
    assert (Cn : e_copy def = false -> kcounted a -> kcounted a') by (intros Ec C; exact (kcounted_step _ _ _ _ _ _ _ Ec C H1)).
    cbn [ke_run ke_calls]. rewrite H2 in Hp |- *. set (fail := kstarved E def x I o c s) in *.
    destruct H as [[M Me]|[(n & v & Nf & M & V & Fs & I')|(s2 & M & A)]].
    + specialize (Hf' fail). rewrite H1 in Hf'. destruct Hf' as [Hf' _].
      assert (Hp' : kpolite E def x I act s0 (k (KSaw r)) c' t').
      { destruct M as [M|(pq & Er & M & Ec)]; rewrite M in Hp; [exact Hp|]. subst r c'. exact Hp. }
      destruct (IH (KSaw r) c' s0 t' a' H3 Hf' Hp') as (calls & seen & q & b & G & K).
      exists ((s, fail) :: calls), (KSaw r :: seen), q, b. split; [eapply kgoes_on; eassumption|].
      assert (Rn : forall e, ke_run E x I act (k (KSaw r)) c' t' = (seen, e) ->
         (match dm false s with
          | DOk (r0, c'0) s'0 => let (l, e0) := ke_run E x I act (k (KSaw r0)) c'0 s'0 in (KSaw r0 :: l, e0)
          | DPanic q0 s'0 => let (l, e0) := ke_run E x I act (k (kcaught q0)) (kd_after_panic o c) s'0 in (kcaught q0 :: l, e0)
          | DAbort s'0 => ([], KDAborted s'0)
          | DUB u => ([], KDUndefined u)
          end) = (KSaw r :: seen, e)).
      { intros e Re. destruct M as [M|(pq & Er & M & Ec)]; rewrite M; [|subst r; rewrite Ec in Re; cbn [kcaught]]; rewrite Re; reflexivity. }
      assert (Cs : (match dm false s with
          | DOk (r0, c'0) s'0 => ke_calls E def x I act (k (KSaw r0)) c'0 s'0
          | DPanic q0 s'0 => ke_calls E def x I act (k (kcaught q0)) (kd_after_panic o c) s'0
          | DAbort _ | DUB _ => []
          end) = ke_calls E def x I act (k (KSaw r)) c' t').
      { destruct M as [M|(pq & Er & M & Ec)]; rewrite M; [|subst r; rewrite Ec]; reflexivity. }
      rewrite Cs. destruct K as [(Eq & Ecalls & c2 & s2 & K1 & K2 & K3 & K4)|(o2 & k2 & s1 & f2 & s2 & Eq & Ecalls & K1 & K2)]; rewrite (Rn _ K1).
      * left. split; [exact Eq|]. split; [rewrite Ecalls; reflexivity|]. exists c2, s2. split; [reflexivity|]. split; [exact K2|]. split; [auto|].
        intros Hh. eapply klogs_trans; [apply Tr, Hh|apply K4, Hh].
      * right. exists o2, k2, s1, f2, s2. split; [exact Eq|]. split; [rewrite Ecalls; reflexivity|]. split; [reflexivity|exact K2].
    + specialize (Hf' false). rewrite Nf in H1. rewrite H1 in Hf'. destruct Hf' as [_ Hf']. specialize (Hf' n v eq_refl V).
      rewrite M in Hp. cbn [kcaught] in Hp.
      destruct (IH (KSawDropPanic n v) (kd_after_panic o c) s0 t' (kblown o a a') I' Hf' Hp) as (calls & seen & q & b & G & K).
      exists ((s, fail) :: calls), (KSawDropPanic n v :: seen), q, b. split; [rewrite Nf; eapply kgoes_blown; eassumption|]. rewrite M. cbn [kcaught].
      destruct K as [(Eq & Ecalls & c2 & s2 & K1 & K2 & K3 & K4)|(o2 & k2 & s1 & f2 & s2 & Eq & Ecalls & K1 & K2)]; rewrite K1.
      * left. split; [exact Eq|]. split; [rewrite Ecalls; reflexivity|]. exists c2, s2. split; [reflexivity|]. split; [exact K2|].
        split; [intros Ec C; apply K3; [exact Ec|]; apply kcounted_blown; auto|].
        intros Hh. eapply klogs_trans; [apply Tr, Hh|]. intros Hz.
        rewrite <- (kblown_dead def (F s) o a r a' n v (ms_def _ _ _ Hs) Hz V H1). exact (K4 Hh Hz).
      * right. exists o2, k2, s1, f2, s2. split; [exact Eq|]. split; [rewrite Ecalls; reflexivity|]. split; [reflexivity|exact K2].
    + rewrite M. exists [], [], (KDDo o k), a. split; [constructor|]. right. exists o, k, s, fail, s2. auto.
Qed.

Lemma kinv_start E def s0 s : keeps s0 s -> kinv E def s0 s [] ka0.
Proof. intros K. constructor; [constructor| |exact K]. intros [|i] j y1 z1 y2 z2 A; discriminate. Qed.

(** Whatever destructors do - allocate, free, write, panic -, if they leave alone the blocks behind the program's containers, a program that
    keeps the contracts of the generated code never runs into undefined behaviour. It sees what the program on plain values sees; every
    container holds the value that program has there, and blocks of [others] are not touched. Without [Copy] no value is destroyed twice and
    none destroyed is still held. The program is aborted only in a call that destroys something with a panicking destructor while there is
    another panic: out of memory, or another destructor's. *)
Theorem C73_history : forall E def x I F act others p s, macro_setup E def x -> Macro.e_drop def = false -> implements keeps def I F ->
  kd_follows def E F p ka0 -> keeps others s -> kpolite E def x I act others p [] s ->
  exists calls seen q a, kd_goes def (panics act) F p ka0 calls seen q a /\
    ((q = KDStop /\ calls = ke_calls E def x I act p [] s /\ exists c s', ke_run E x I act p [] s = (seen, KDFinished c s') /\
        keeps others s' /\ Forall2 (kshows E x s') c (kcells a) /\
        (e_copy def = false -> NoDup (klive_ids a ++ map fst (kdead a)))) \/
     (exists o k s1 fail s', q = KDDo o k /\ ke_calls E def x I act p [] s = calls ++ [(s1, fail)] /\
        ke_run E x I act p [] s = (seen, KDAborted s') /\ kmay_abort def (panics act) (F s1) fail o a)).
Proof.
  intros E def x I F act s0 p s Hs Hno HI Hf K0 Hp.
  destruct (ke_run_sim E def x I F keeps act Hs HI (fun _ _ H => H) Hno p [] s0 s ka0 (kinv_start E def s0 s K0) Hf Hp) as (calls & seen & q & a & G & K).
  exists calls, seen, q, a. split; [exact G|]. destruct K as [(Eq & Ec & c & s' & K1 & K2 & K3 & _)|K]; [left|right; exact K].
  split; [exact Eq|]. split; [exact Ec|]. exists c, s'. split; [exact K1|]. split; [exact (ki_base _ _ _ _ _ _ K2)|]. split.
  - eapply Forall2_weak; [|exact (ki_rel _ _ _ _ _ _ K2)]. intros [w|v|] [id loc v'|id v'|]; cbn [krel kshows]; try tauto.
    intros (B & _). apply (boxed_into_inner E def x (ms_def _ _ _ Hs) (ms_expand _ _ _ Hs) (setup_u8 _ _ _ Hs) s' w v' B).
  - intros Hc. apply (NoDup_count_occ Nat.eq_dec). intros n.
    assert (C : kcounted a) by (apply K3; [exact Hc|]; intros m; cbn; destruct (m <? 0)%nat; lia).
    specialize (C n). unfold occ in C. rewrite count_occ_app. destruct (n <? knext a)%nat; lia.
Qed.

(** When neither the user's impls nor the destructors run destructors of their own, those of the values destroyed ran, in this order. *)
Theorem C73_destroyed : forall E def x I F act others p s c s' seen, macro_setup E def x -> implements harmless def I F ->
  (forall v k, In (v, k) (e_variants def) -> no_zst_drop def k) -> lonely act ->
  kd_follows def E F p ka0 -> keeps others s -> kpolite E def x I act others p [] s -> ke_run E x I act p [] s = (seen, KDFinished c s') ->
  exists a, kd_goes def (panics act) F p ka0 (ke_calls E def x I act p [] s) seen KDStop a /\
    Forall2 (kshows E x s') c (kcells a) /\
    destroyed (events s') = destroyed (events s) ++ kdead_destructors def (kdead a).
Proof.
  intros E def x I F act s0 p s c s' seen Hs HI Hz Lo Hf K0 Hp Hr.
  assert (Hno : Macro.e_drop def = false).
  { pose proof (do_some _ (ms_def _ _ _ Hs)) as Ne. destruct (e_variants def) as [|[v k] l] eqn:Ev; [contradiction|].
    exact (proj1 (Hz v k (or_introl eq_refl))). }
  destruct (ke_run_sim E def x I F harmless act Hs HI (fun _ _ H => proj1 H) Hno p [] s0 s ka0 (kinv_start E def s0 s K0) Hf Hp) as (calls & seen' & q & a & G & K).
  destruct K as [(Eq & Ec & c' & s2 & K1 & K2 & _ & K4)|(o & k & s1 & fail & s2 & _ & _ & K1 & _)]; rewrite Hr in K1; [|discriminate K1].
  injection K1 as <- <- <-. subst q calls. exists a. split; [exact G|]. split.
  - eapply Forall2_weak; [|exact (ki_rel _ _ _ _ _ _ K2)]. intros [w|v|] [id loc v'|id v'|]; cbn [krel kshows]; try tauto.
    intros (B & _). apply (boxed_into_inner E def x (ms_def _ _ _ Hs) (ms_expand _ _ _ Hs) (setup_u8 _ _ _ Hs) s' w v' B).
  - destruct (K4 (fun _ _ H => H) Hz Lo) as (l & D1 & D2). cbn in D1. subst l. exact D2.
Qed.

(** With at most one destructor per variant and memory for every call, no panicking destructor ends the program. *)
Theorem C73_no_abort : forall E def x I F act others p s, macro_setup E def x -> Macro.e_drop def = false -> implements keeps def I F ->
  kd_follows def E F p ka0 -> keeps others s -> kpolite E def x I act others p [] s ->
  ksimple def -> (forall s1, ~ In (s1, true) (ke_calls E def x I act p [] s)) ->
  exists seen c s', ke_run E x I act p [] s = (seen, KDFinished c s').
Proof.
  intros E def x I F act s0 p s Hs Hno HI Hf K0 Hp Hq Hm.
  destruct (C73_history E def x I F act s0 p s Hs Hno HI Hf K0 Hp)
    as (calls & seen & q & a & _ & [(_ & _ & c & s' & K & _)|(o & k & s1 & fail & s' & _ & Ec & _ & _ & [A|A])]); [eauto| |].
  - exfalso. subst fail. apply (Hm s1). rewrite Ec. apply in_or_app. right. left. reflexivity.
  - exfalso. pose proof (kloses_simple def (F s1) fail o a Hq). lia.
Qed.

(** Destructors that do nothing but panic are those of C71, and leave everything alone. *)
Theorem C73_still : forall E def x I fussy p c s, let act := fun n v s => (s, fussy s n v) in
  ke_run E x I act p c s = kd_run E x I fussy p c s /\ (forall others, kpolite E def x I act others p c s) /\ lonely act.
Proof.
  intros E def x I fussy p c s act. split; [|split; [|intros n v t; reflexivity]].
  - revert c s. induction p as [|o k IH]; intros c s; [reflexivity|]. cbn [ke_run kd_run]. change (ke_step E x I act o c) with (kd_step E x I fussy o c).
    destruct (kd_step E x I fussy o c) as [m|]; [|reflexivity]. destruct (m false s) as [[r c'] s'|q s'|s'|u]; try rewrite IH; reflexivity.
  - intros others. revert c s. induction p as [|o k IH]; intros c s; [exact Logic.I|]. cbn [kpolite]. split; [intros; apply kspares_refl|].
    destruct (ke_step E x I act o c) as [m|]; [|exact Logic.I]. destruct (m false s) as [[r c'] s'|q s'|s'|u]; auto.
Qed.

(** *** Enough for being polite *)

Lemma kits_sizes E def y p n : kits_block E def y = Some (p, n) -> ksizes def n.
Proof.
  destruct y as [w|v|]; cbn [kits_block]; try discriminate. destruct (nth_error _ _) as [[v k]|] eqn:Hn; [|discriminate].
  destruct (storage k) as [U|] eqn:Es; [|discriminate]. destruct (N.eqb_spec (h_size U) 0) as [|Z]; [discriminate|].
  intros H. injection H as <- <-. exists v, k, U. split; [eapply nth_error_In, Hn|]. auto.
Qed.

(** Destructors that never touch a block of a size the enum's values have are polite. *)
Theorem C73_by_size : forall E def x I act others p c s, minds_sizes act (ksizes def) -> (forall b, In b (blocks others) -> ksizes def (b_size b)) ->
  kpolite E def x I act others p c s.
Proof.
  intros E def x I act s0 p c s Hm Ho. revert c s. induction p as [|o k IH]; intros c s; [exact Logic.I|]. cbn [kpolite]. split.
  - intros n v t _ _. split.
    + intros i y q m al Hy Hq Hb. destruct (Hm n v t _ Hb) as [M1 M2]; [eapply kits_sizes, Hq|]. split; [exact M1|]. intros _. exact M2.
    + intros b Hb Ht. apply Hm; auto.
  - destruct (ke_step E x I act o c) as [m|]; [|exact Logic.I]. destruct (m false s) as [[r c'] s'|q s'|s'|u]; auto.
Qed.

(** *** What destructors do is done *)

Lemma store_back E def x act dm m v s s' : macro_setup E def x -> Macro.e_drop def = false -> shaped E act dm m -> m s = macro_into E x v s ->
  evalue_fits E def v -> needs_block def v = false \/ no_room E def v s = true -> back dm false s s' -> s' = after act (value_destructors def v) s.
Proof.
  intros Hs Hno Sh Hm [(k & Hin & Ht) Hfit] Hb K. pose proof (ms_def _ _ _ Hs) as Hd.
  rewrite (value_destructors_eq E def x Hs v k Hin).
  assert (Nb : needs_block def v = match storage k with Some U => negb (h_size U =? 0) | None => false end).
  { unfold needs_block. rewrite (assoc_in _ _ _ (do_names _ Hd) Hin). reflexivity. }
  assert (Nr : no_room E def v s = match storage k with Some U => no_block E U s | None => false end).
  { unfold no_room. rewrite (assoc_in _ _ _ (do_names _ Hd) Hin). reflexivity. }
  assert (El : exit_log def (ev_fields v) = []) by (unfold exit_log; rewrite Hno; reflexivity).
  pose proof (macro_into_spec E def x Hd (ms_expand _ _ _ Hs) (setup_u8 _ _ _ Hs) (ms_env _ _ _ Hs) v k s Hin Ht Hfit) as Sp.
  cbv zeta in Sp. rewrite El, app_nil_r, <- !Hm in Sp. unfold logged in Sp.
  destruct Sp as [(Hz & w & M & B) | [(U & Hu & Hz & A & M) | (U & p & w & Hu & Hz & A & M & _)]].
  - destruct Sh as [(U & vs & d & M1 & D1)|[(w1 & W1)|(e & W1)]].
    + rewrite M1 in M. unfold tb_new in M. assert (K' : back (e_new E act U vs d) false s s') by (unfold back in *; rewrite D1 in K; exact K).
      unfold e_new in K'. destruct (N.eqb_spec (h_size U) 0) as [Z|Z].
      * unfold bind, drop_hval, ret in M. injection M as _ M3. apply app_inv_head in M3. rewrite <- M3. apply (e_drop_after act (h_types U) vs false).
        unfold back, finally, dret, dbind in *. fold (Destructors.e_drop act U vs).
        destruct (Destructors.e_drop act U vs false s); destruct K' as [[r' K']|[q' K']]; try discriminate K'; injection K'; intros; subst; eauto.
      * exfalso. unfold bind, alloc in M. destruct (alloc_fn E s (h_size U) (h_align U)) as [q|]; [|discriminate M].
        unfold write_at, bind in M. set (s1 := St _ _ _) in M. destruct (check_access U q s1) as [[] s2|pq s2|e] eqn:C; try discriminate M.
        apply check_access_inv in C as [-> _]. unfold of_outcome in M. destruct (tp_new (tgt E) q d); [|discriminate M].
        unfold ret in M. injection M as _ _ M3 _. unfold s1 in M3. cbn [blocks] in M3. exact (blocks_more _ _ M3).
    + destruct (W1 s) as [W2 W3]. rewrite W2 in M. injection M as _ M3.
      assert (Nil : drop_events (kind_types k) (ev_fields v) = []).
      { apply (f_equal events) in M3. cbn [events] in M3. symmetry. eapply app_inv_head. rewrite app_nil_r. exact M3. }
      rewrite Nil. destruct K as [[r K]|[q K]]; rewrite W3 in K; [injection K as _ <-; reflexivity|discriminate K].
    + rewrite W1 in M. discriminate M.
  - destruct Sh as [(U1 & vs & d & M1 & D1)|[(w1 & W1)|(e & W1)]];
      [|destruct (W1 s) as [W2 _]; rewrite W2 in M; discriminate M|rewrite W1 in M; discriminate M].
    rewrite M1 in M. assert (K' : back (e_new E act U1 vs d) false s s') by (unfold back in *; rewrite D1 in K; exact K).
    unfold tb_new in M. unfold e_new in K'. destruct (N.eqb_spec (h_size U1) 0) as [Z|Z]; [discriminate M|].
    unfold bind, alloc in M. unfold back, dbind, plainly, alloc in K'. destruct (alloc_fn E s (h_size U1) (h_align U1)) as [q|].
    { exfalso. unfold write_at, bind in M. set (s1 := St _ _ _) in M. destruct (check_access U1 q s1) as [[] s2|pq s2|e] eqn:C; try discriminate M.
      - apply check_access_inv in C as [-> _]. unfold of_outcome in M. destruct (tp_new (tgt E) q d); [discriminate M|].
        unfold raise in M. injection M as _ _ M3 _. unfold s1 in M3. cbn [blocks] in M3. exact (blocks_more _ _ M3).
      - unfold check_access in C. repeat (match type of C with (if ?b then _ else _) = _ => destruct b end; try discriminate C). }
    unfold drop_hval, raise in M. injection M as M3. apply app_inv_head in M3. rewrite <- M3. apply (e_drop_after act (h_types U1) vs true).
    unfold finally, draise in K'. unfold back. fold (Destructors.e_drop act U1 vs).
    destruct (Destructors.e_drop act U1 vs true s); destruct K' as [[r' K']|[q' K']]; try discriminate K'; injection K'; intros; subst; eauto.
  - exfalso. rewrite Nb, Nr, Hu in Hb. unfold no_block in Hb. rewrite (proj2 (N.eqb_neq _ _) Hz), A in Hb. destruct Hb as [Hb|Hb]; discriminate Hb.
Qed.

(** A call that destroys something and comes back, with or without a panic of theirs, has run the destructors one after the other, each in
    the state left by the one before: of a value dropped, of one overwritten (the new one is then put in place), and of one that does not get
    into a heap block. *)
Theorem C73_effects : forall E def x I act o c s m s', macro_setup E def x -> Macro.e_drop def = false -> ke_step E x I act o c = Some m ->
  (exists r, m false s = DOk r s') \/ (exists q, m false s = DPanic q s') ->
  match o with
  | KDropVal i => forall v, nth_error c i = Some (KVal v) -> evalue_ok def v -> s' = after act (value_destructors def v) s
  | KAssign i n new => forall w t v s1, nth_error c i = Some (KBox w) -> only_field def n = Some t ->
      read_at (leaf_hty t) (tp_as_ptr (tgt E) w) s = Ok v s1 ->
      write_at (leaf_hty t) (tp_as_ptr (tgt E) w) [new] (after act (destructors (leaf_hty t) v) s) = Ok tt s'
  | KFrom i => forall v, nth_error c i = Some (KVal v) -> evalue_fits E def v ->
      needs_block def v = false \/ no_room E def v s = true -> s' = after act (value_destructors def v) s
  | KFromPayload src vals => forall n, payload_variant def src = Some n -> evalue_fits E def (EV n vals) ->
      needs_block def (EV n vals) = false \/ no_room E def (EV n vals) s = true -> s' = after act (value_destructors def (EV n vals)) s
  | KClone i => forall w v s1, nth_error c i = Some (KBox w) ->
      macro_ref E x (option evalue) w (fun v _ => bind (i_clone I v) (fun c => ret (Some c))) None s = Ok (Some v) s1 -> evalue_fits E def v ->
      needs_block def v = false \/ no_room E def v s1 = true -> s' = after act (value_destructors def v) s1
  | _ => True
  end.
Proof.
  intros E def x I act o c s m s' Hs Hno H K. fold (back m false s s') in K. pose proof (x_no_drop E def x Hs Hno) as Xd.
  destruct o as [v|i|src vals|i|i|i j|i j|i j|i o out|i o out|i o out|i|i|i n f|i n val|i|i|i|i]; try exact Logic.I; cbn [ke_step] in H.
  - intros v Hi Hv Hb. rewrite Hi in H. injection H as <-. apply back_ret in K.
    eapply (store_back E def x act (ke_into E x act v) (macro_into E x v)); [exact Hs|exact Hno|apply into_shaped, Xd|reflexivity|exact Hv|exact Hb|exact K].
  - intros n Pv Hv Hb. destruct (payload_found E def x Hs src n vals Pv (proj1 Hv)) as (f & Ff & Hf). rewrite Ff in H. injection H as <-. apply back_ret in K.
    eapply (store_back E def x act (ke_from_payload E x act f vals) (container_from_payload E x f vals));
      [exact Hs|exact Hno|apply payload_shaped, Xd|apply Hf|exact Hv|exact Hb|exact K].
  - intros w v s1 Hi Hm Hv Hb. rewrite Hi in H. injection H as <-. apply back_ret in K.
    assert (D1 : ke_clone E x I act w false s = ke_into E x act v false s1) by (unfold ke_clone, dbind, plainly; rewrite Hm; reflexivity).
    assert (K' : back (ke_into E x act v) false s1 s') by (unfold back in *; rewrite D1 in K; exact K).
    eapply (store_back E def x act (ke_into E x act v) (macro_into E x v)); [exact Hs|exact Hno|apply into_shaped, Xd|reflexivity|exact Hv|exact Hb|exact K'].
  - intros w t v s1 Hi Of Rd. destruct (only_field_leaf E def x Hs n t Of) as [_ Lt]. rewrite Hi, Lt in H. injection H as <-. apply back_ret in K.
    pose proof (read_at_inv _ _ _ _ _ Rd) as (-> & _).
    assert (Q : back (finally (Destructors.e_drop act (leaf_hty t) v) (plainly (write_at (leaf_hty t) (tp_as_ptr (tgt E) w) [val]))) false s s').
    { unfold back, e_assign, dbind in K. unfold plainly at 1 3 in K. change (tp_mut_ref_addr (tgt E) w) with (tp_as_ptr (tgt E) w) in K. rewrite Rd in K. exact K. }
    apply e_drop_then in Q as [u Q].
    + unfold plainly in Q. destruct (write_at _ _ _ (after act (destructors (leaf_hty t) v) s)) as [[] t2|q t2|e]; try (destruct u; discriminate Q).
      injection Q as ->. reflexivity.
    + intros u t0 q t'. unfold plainly, write_at, bind, check_access. destruct (tp_as_ptr (tgt E) w =? 0); [discriminate|].
      destruct (negb (tp_as_ptr (tgt E) w mod h_align (leaf_hty t) =? 0)); [discriminate|]. destruct (negb (accessible t0 (tp_as_ptr (tgt E) w) (h_size (leaf_hty t)))); discriminate.
  - intros v Hi (k & Hin & _). rewrite Hi in H. injection H as <-. apply back_ret in K. unfold ke_drop_evalue in K. rewrite Xd in K.
    rewrite (xp_enum _ _ (expand_inv _ _ (ms_expand _ _ _ Hs))), (assoc_in _ _ _ (do_names _ (ms_def _ _ _ Hs)) Hin) in K.
    rewrite (value_destructors_eq E def x Hs v k Hin). eapply e_drop_after, K.
Qed.

(** *** Examples *)

(** The destructor of a string frees its buffer, of five bytes, and then panics. The program is that of C71. *)
Definition frees_five (bad : bool) (n : string) (v : leafval) (s : st) : st * bool :=
  (match dealloc (buffer v) 5 1 s with Ok _ s' => s' | _ => s end, bad).
Definition st_fives : st := St (bytes st0) [Block (buffer a_string) 5 1; Block (buffer b_string) 5 1] [].

Lemma fives_mind bad : minds_sizes (frees_five bad) (ksizes item).
Proof.
  intros n v t b B H. unfold frees_five, dealloc. destruct (existsb _ _); [|split; [exact B|reflexivity]]. split; [|reflexivity]. cbn [fst blocks].
  apply remove_block_other; [exact B|]. intros ->. cbn [b_size] in H. destruct H as (m & k & U & Hin & Es & Hz & _).
  cbn in Hin. repeat (destruct Hin as [Hin|Hin]; [injection Hin as <- <-; cbn in Es; try discriminate Es; injection Es as <-; vm_compute in Hz; discriminate Hz|]).
  destruct Hin.
Qed.

Lemma fives_lonely bad : lonely (frees_five bad).
Proof.
  intros n v s. unfold frees_five, dealloc. destruct (existsb _ _); [|reflexivity]. cbn [fst events]. rewrite destroyed_app. cbn. apply app_nil_r.
Qed.

Lemma fives_polite bad others I p s : (forall b, In b (blocks others) -> ksizes item (b_size b)) ->
  kpolite (bump_env dbg60) item item_x I (frees_five bad) others p [] s.
Proof. intros H. apply C73_by_size; [apply fives_mind|exact H]. Qed.

Example C73_example : let E := bump_env dbg60 in let I := pure_impls item_meaning in
  macro_setup E item item_x /\ implements harmless item I (fun _ => item_meaning) /\ kd_follows item E (fun _ => item_meaning) kfussy_prog ka0 /\
  keeps st0 st_fives /\ kpolite E item item_x I (frees_five true) st0 kfussy_prog [] st_fives /\
  ksimple item /\ (forall s1, ~ In (s1, true) (ke_calls E item item_x I (frees_five true) kfussy_prog [] st_fives)) /\
  fst (ke_run E item_x I (frees_five true) kfussy_prog [] st_fives)
    = [KSaw KNothing; KSaw KNothing; KSawDropPanic "String" a_string; KSaw (KSawValues [v_text2]); KSaw (KSawValues [v_text2]);
       KSawDropPanic "String" b_string] /\
  match snd (ke_run E item_x I (frees_five true) kfussy_prog [] st_fives) with
  | KDFinished c s => c = [KGone] /\ map b_size (blocks s) = [24] /\ destroyed (events s) = [("String", a_string); ("String", b_string)]%string
  | _ => False
  end.
Proof.
  destruct C71_example as (H1 & H2 & H3 & H4 & _). do 3 (split; [assumption|]). split; [intros b []|].
  split; [apply fives_polite; intros b []|]. split; [exact H4|]. split.
  { assert (M : existsb snd (ke_calls (bump_env dbg60) item item_x (pure_impls item_meaning) (frees_five true) kfussy_prog [] st_fives) = false)
      by (vm_compute; reflexivity).
    intros s1 H. assert (T : exists y, In y (ke_calls (bump_env dbg60) item item_x (pure_impls item_meaning) (frees_five true) kfussy_prog [] st_fives) /\ snd y = true)
      by (exists (s1, true); auto). apply existsb_exists in T. rewrite M in T. discriminate T. }
  vm_compute. intuition reflexivity.
Qed.

(** A destructor that frees the containers' blocks, which is not polite: the assignment that runs it then writes to memory that is gone. *)
Example C73_needs : exists u, ke_run (bump_env dbg60) item_x (pure_impls item_meaning) frees_all kfussy_prog [] st0
     = ([KSaw KNothing; KSaw KNothing], KDUndefined u).
Proof. eexists. vm_compute. reflexivity. Qed.

(** ** Instances: each theorem applied to a concrete case that meets its hypotheses *)

Example C73_history_example : exists calls a, kd_goes item (panics (frees_five true)) (fun _ => item_meaning) kfussy_prog ka0 calls kfussy_seen KDStop a /\
  NoDup (klive_ids a ++ map fst (kdead a)).
Proof.
  destruct C73_example as (HS & HI & F & K & P & _ & _ & R1 & R2).
  destruct (C73_history _ item _ _ _ (frees_five true) st0 _ st_fives HS eq_refl (implements_weak harmless keeps _ _ _ (fun _ _ H => proj1 H) HI) F K P)
    as (calls & seen & q & a & G & [(-> & _ & c & s & R & _ & _ & N)|(o & k & s1 & fail & s & _ & _ & R & _)]);
    rewrite R in R1, R2; cbn [fst snd] in R1, R2; [|contradiction].
  subst seen. exists calls, a. split; [exact G|exact (N eq_refl)].
Qed.

Example C73_destroyed_example : exists c s a, ke_run (bump_env dbg60) item_x (pure_impls item_meaning) (frees_five true) kfussy_prog [] st_fives
    = (kfussy_seen, KDFinished c s) /\ kdead_destructors item (kdead a) = [("String", a_string); ("String", b_string)]%string /\
  Forall2 (kshows (bump_env dbg60) item_x s) c (kcells a).
Proof.
  destruct C73_example as (HS & HI & F & K & P & _ & _ & R1 & R2).
  destruct (ke_run (bump_env dbg60) item_x (pure_impls item_meaning) (frees_five true) kfussy_prog [] st_fives) as [seen [c s| | |]] eqn:R;
    cbn [fst snd] in R1, R2; try contradiction. subst seen. destruct R2 as (R3 & R4 & R5).
  destruct (C73_destroyed _ item _ _ _ (frees_five true) _ _ st_fives c s _ HS HI item_no_zst_drop (fives_lonely true) F K P R) as (a & _ & K1 & K2).
  exists c, s, a. split; [reflexivity|]. rewrite R5 in K2. cbn in K2. auto.
Qed.

Example C73_no_abort_example : exists seen c s,
  ke_run (bump_env dbg60) item_x (pure_impls item_meaning) (frees_five true) kfussy_prog [] st_fives = (seen, KDFinished c s).
Proof.
  destruct C73_example as (HS & HI & F & K & P & Q & A & _).
  exact (C73_no_abort _ item _ _ _ _ _ _ _ HS eq_refl (implements_weak harmless keeps _ _ _ (fun _ _ H => proj1 H) HI) F K P Q A).
Qed.

Example C73_still_example : ke_run (bump_env dbg60) item_x (pure_impls item_meaning) (fun n v s => (s, true)) kfussy_prog [] st0
  = kd_run (bump_env dbg60) item_x (pure_impls item_meaning) all_fussy kfussy_prog [] st0.
Proof. exact (proj1 (C73_still (bump_env dbg60) item item_x (pure_impls item_meaning) all_fussy kfussy_prog [] st0)). Qed.

Example C73_by_size_example : kpolite (bump_env dbg60) item item_x (pure_impls item_meaning) (frees_five false) st0 kfussy_prog [] st_fives.
Proof. apply C73_by_size; [exact (fives_mind false)|intros b []]. Qed.

(** Dropping a text frees its buffer, although its destructor panics. *)
Example C73_effects_example : exists m s', ke_step (bump_env dbg60) item_x (pure_impls item_meaning) (frees_five true) (KDropVal 0) [KVal v_text] = Some m /\
  m false st_fives = DPanic (InDrop "String" a_string) s' /\ s' = after (frees_five true) [("String", a_string)]%string st_fives /\
  blocks s' = [Block (buffer b_string) 5 1].
Proof.
  eexists _, _. split; [reflexivity|]. split; [reflexivity|]. split; [|vm_compute; reflexivity].
  assert (V : evalue_ok item v_text) by (pose proof item_values_ok as H; rewrite Forall_forall in H; apply H; cbn; tauto).
  refine (C73_effects (bump_env dbg60) item item_x (pure_impls item_meaning) (frees_five true) (KDropVal 0) [KVal v_text] st_fives _ _ item_setup eq_refl eq_refl _ v_text eq_refl V).
  right. eexists. reflexivity.
Qed.

Print Assumptions C73_history.
Print Assumptions C73_destroyed.
Print Assumptions C73_no_abort.
Print Assumptions C73_effects.
Print Assumptions C73_by_size.
Print Assumptions C73_still.
