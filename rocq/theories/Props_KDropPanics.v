(** Property C71: programs using the code generated by [tagged_box!] with destructors that panic. *)
From Coq Require Import Arith NArith String Bool List Lia.
From Verif Require Import Words Config Spec ConfigFacts Pointer PointerFacts Fmt Mem SpecMem MemFacts Box BoxFacts Bump
  Macro SpecMacro MacroFacts Session SpecSession SessionFacts Containers SpecContainers
  Props_Pointer Props_Box Props_Session Props_Macro Props_Clone Props_Containers
  DropPanics SpecDropPanics DropPanicsFacts Props_DropPanics KDropPanics SpecKDropPanics KDropPanicsFacts.
Import ListNotations.
Local Open Scope N_scope.

(** ** C71 Generated containers and destructors that panic *)

Lemma kcounted_burst j a : kcounted a -> kcounted (kburst j a).
Proof.
  intros C. unfold kburst. destruct (nth_error (kcells a) j) as [[id loc v|id v|]|] eqn:Hy; try exact C.
  intros n. specialize (C n). unfold klive_ids in *. cbn [kcells kdead knext].
  pose proof (klive_put n KAGone _ _ _ Hy) as P. cbn [kcell_id] in P. change (occ n []) with 0%nat in P. rewrite occ_kdead. lia.
Qed.

Lemma kcounted_blown o a a' : kcounted a' -> kcounted (kblown o a a').
Proof. intros C. destruct o; try exact C; apply kcounted_burst, C. Qed.

Lemma kburst_made j a : kmade (kburst j a) = kmade a.
Proof. unfold kburst. destruct (nth_error (kcells a) j) as [[]|]; reflexivity. Qed.

Lemma kblown_made o a a' : kmade (kblown o a a') = kmade a'.
Proof. destruct o; try reflexivity; apply kburst_made. Qed.

Lemma no_destructors tys vs : Forall (fun t => ty_drop t = false) tys -> filter (fun y : rty * leafval => ty_drop (fst y)) (combine tys vs) = [].
Proof.
  intros H. revert vs. induction H as [|t ts Ht _ IH]; intros [|f fs]; cbn [combine filter fst]; try reflexivity. rewrite Ht. apply IH.
Qed.

(** When storing destroys nothing, no container being made is lost. *)
Lemma kblown_dead def G o a r a' n v : def_ok def -> (forall u k, In (u, k) (e_variants def) -> no_zst_drop def k) ->
  In (n, v) (kloses def G false o a) -> kastep def G false o a = Some (r, a') -> kblown o a a' = a'.
Proof.
  intros Hd Hz Hl Ha.
  assert (U : forall v0, In (n, v) (unstored def false v0) -> False).
  { intros v0. unfold unstored, needs_block, value_destructors. destruct (assoc (ev_variant v0) (e_variants def)) as [k|] eqn:As; [|destruct 1].
    apply assoc_some in As. destruct (Hz _ _ As) as [_ Z]. cbn [negb]. rewrite andb_true_r.
    assert (Q : Forall (fun t => ty_drop t = false) (kind_types k) -> filter (fun y => ty_drop (fst y)) (combine (kind_types k) (ev_fields v0)) = [])
      by (apply no_destructors).
    destruct (storage k) as [S|] eqn:St.
    - destruct (N.eqb_spec (h_size S) 0) as [Z0|Z0]; cbn [negb]; [|destruct 1]. rewrite Q by (apply Z, Z0). destruct 1.
    - rewrite Q by (rewrite (storage_none _ St); constructor). destruct 1. }
  destruct o; try reflexivity; exfalso; cbn [kloses] in Hl.
  - destruct (nth_error (kcells a) i) as [[]|]; try contradiction; eapply U, Hl.
  - destruct (payload_variant def src); [eapply U, Hl|contradiction].
  - destruct (nth_error (kcells a) i) as [[]|]; try contradiction. destruct (m_clone G v0); [eapply U, Hl|contradiction].
Qed.

Lemma ktracks_trans def s a s1 a1 s2 a2 : ktracks def s a s1 a1 -> ktracks def s1 a1 s2 a2 -> ktracks def s a s2 a2.
Proof.
  intros [B1 T1] [B2 T2]. split; [lia|]. intros Hz. destruct (T1 Hz) as (l1 & D1 & D2), (T2 Hz) as (l2 & D3 & D4). exists (l1 ++ l2).
  rewrite D3, D1, D4, D2, kdead_destructors_app, !app_assoc. auto.
Qed.

Lemma kd_run_sim E def x I F R fussy : macro_setup E def x -> implements R def I F -> (forall s s', R s s' -> keeps s s') -> e_drop def = false ->
  forall p c s0 s a, kinv E def s0 s c a -> kd_follows def E F p a ->
  exists calls seen q b, kd_goes def fussy F p a calls seen q b /\
    ((q = KDStop /\ calls = kd_calls E def x I fussy p c s /\ exists c' s', kd_run E x I fussy p c s = (seen, KDFinished c' s') /\
        kinv E def s0 s' c' b /\ (e_copy def = false -> kcounted a -> kcounted b) /\
        ((forall t t', R t t' -> harmless t t') -> ktracks def s a s' b)) \/
     (exists o k s1 fail s', q = KDDo o k /\ kd_calls E def x I fussy p c s = calls ++ [(s1, fail)] /\
        kd_run E x I fussy p c s = (seen, KDAborted s') /\ kmay_abort def fussy (F s1) fail o b)).
Proof.
  intros Hs HI HR Hno p. induction p as [|o k IH]; intros c s0 s a Hi Hf.
  - exists [], [], KDStop, a. split; [constructor|]. left. split; [reflexivity|]. split; [reflexivity|]. exists c, s. split; [reflexivity|].
    split; [exact Hi|]. split; [auto|]. intros _. split; [reflexivity|]. intros _. exists []. rewrite !app_nil_r. auto.
  - cbn [kd_follows] in Hf. destruct (Hf s) as [Hc Hf'].
    assert (Hn : kastep def (F s) false o a <> None) by (specialize (Hf' false); destruct (kastep def (F s) false o a); [discriminate|contradiction]).
    destruct (kd_step_sim E def x I F R fussy Hs HI HR Hno s0 s c a o Hi Hc Hn) as (r & a' & c' & s' & dm & H1 & H2 & H3 & [H4 H5] & H).
    assert (Tr : (forall t t', R t t' -> harmless t t') -> ktracks def s a s' a').
    { intros Hh.
      assert (Hm : List.length (blocks (kcalled I o a s)) = List.length (blocks s) /\
                   destroyed (events (kcalled I o a s)) = destroyed (events s)).
      { destruct H4 as [H4|H4]; [|rewrite H4; auto]. destruct (Hh _ _ H4) as (_ & L & D). auto. }
      destruct Hm as [L D], H5 as [B T]. split; [lia|]. intros Hz. destruct (T Hz) as (l & D1 & D2). exists l. rewrite D2, D. auto. }
    assert (Cn : e_copy def = false -> kcounted a -> kcounted a') by (intros Ec C; exact (kcounted_step _ _ _ _ _ _ _ Ec C H1)).
    cbn [kd_run kd_calls]. rewrite H2. set (fail := kstarved E def x I o c s) in *.
    destruct H as [[M Me]|[(n & v & Nf & M & V & Fs & I')|(s2 & M & A)]].
    + specialize (Hf' fail). rewrite H1 in Hf'. destruct Hf' as [Hf' _].
      destruct (IH (KSaw r) c' s0 s' a' H3 Hf') as (calls & seen & q & b & G & K).
      exists ((s, fail) :: calls), (KSaw r :: seen), q, b. split; [eapply kgoes_on; eassumption|].
      assert (Rn : forall e, kd_run E x I fussy (k (KSaw r)) c' s' = (seen, e) ->
         (match dm false s with
          | DOk (r0, c'0) s'0 => let (l, e0) := kd_run E x I fussy (k (KSaw r0)) c'0 s'0 in (KSaw r0 :: l, e0)
          | DPanic q0 s'0 => let (l, e0) := kd_run E x I fussy (k (kcaught q0)) (kd_after_panic o c) s'0 in (kcaught q0 :: l, e0)
          | DAbort s'0 => ([], KDAborted s'0)
          | DUB u => ([], KDUndefined u)
          end) = (KSaw r :: seen, e)).
      { intros e Re. destruct M as [M|(pq & Er & M & Ec)]; rewrite M; [|subst r; rewrite Ec in Re; cbn [kcaught]]; rewrite Re; reflexivity. }
      assert (Cs : (match dm false s with
          | DOk (r0, c'0) s'0 => kd_calls E def x I fussy (k (KSaw r0)) c'0 s'0
          | DPanic q0 s'0 => kd_calls E def x I fussy (k (kcaught q0)) (kd_after_panic o c) s'0
          | DAbort _ | DUB _ => []
          end) = kd_calls E def x I fussy (k (KSaw r)) c' s').
      { destruct M as [M|(pq & Er & M & Ec)]; rewrite M; [|subst r; rewrite Ec]; reflexivity. }
      rewrite Cs. destruct K as [(Eq & Ecalls & c2 & s2 & K1 & K2 & K3 & K4)|(o2 & k2 & s1 & f2 & s2 & Eq & Ecalls & K1 & K2)]; rewrite (Rn _ K1).
      * left. split; [exact Eq|]. split; [rewrite Ecalls; reflexivity|]. exists c2, s2. split; [reflexivity|]. split; [exact K2|]. split; [auto|].
        intros Hh. eapply ktracks_trans; [apply Tr, Hh|apply K4, Hh].
      * right. exists o2, k2, s1, f2, s2. split; [exact Eq|]. split; [rewrite Ecalls; reflexivity|]. split; [reflexivity|exact K2].
    + specialize (Hf' false). rewrite Nf in H1. rewrite H1 in Hf'. destruct Hf' as [_ Hf']. specialize (Hf' n v eq_refl V).
      destruct (IH (KSawDropPanic n v) (kd_after_panic o c) s0 s' (kblown o a a') I' Hf') as (calls & seen & q & b & G & K).
      exists ((s, fail) :: calls), (KSawDropPanic n v :: seen), q, b. split; [rewrite Nf; eapply kgoes_blown; eassumption|]. rewrite M. cbn [kcaught].
      destruct K as [(Eq & Ecalls & c2 & s2 & K1 & K2 & K3 & K4)|(o2 & k2 & s1 & f2 & s2 & Eq & Ecalls & K1 & K2)]; rewrite K1.
      * left. split; [exact Eq|]. split; [rewrite Ecalls; reflexivity|]. exists c2, s2. split; [reflexivity|]. split; [exact K2|].
        split; [intros Ec C; apply K3; [exact Ec|]; apply kcounted_blown; auto|].
        intros Hh. eapply ktracks_trans; [apply Tr, Hh|]. destruct (K4 Hh) as [B T]. rewrite kblown_made in B. split; [exact B|].
        intros Hz. rewrite (kblown_dead def (F s) o a r a' n v (ms_def _ _ _ Hs) Hz V H1) in T. exact (T Hz).
      * right. exists o2, k2, s1, f2, s2. split; [exact Eq|]. split; [rewrite Ecalls; reflexivity|]. split; [reflexivity|exact K2].
    + rewrite M. exists [], [], (KDDo o k), a. split; [constructor|]. right. exists o, k, s, fail, s2. auto.
Qed.

(** Whatever destructors panic, a program that keeps the contracts of the generated code never runs into undefined behaviour. It sees what
    the program on plain values sees; every container holds the value that program has there, and other memory is not touched. A call in
    which a destructor panics has still done all of its work, but for a container being made, whose value is destroyed. Without [Copy] no
    value is destroyed twice and none destroyed is still held. The program is aborted only in a call that destroys something with a
    panicking destructor while there is another panic: out of memory, or another destructor's. *)
Theorem C71_history : forall E def x I F fussy p s, macro_setup E def x -> e_drop def = false -> implements keeps def I F ->
  kd_follows def E F p ka0 ->
  exists calls seen q a, kd_goes def fussy F p ka0 calls seen q a /\
    ((q = KDStop /\ calls = kd_calls E def x I fussy p [] s /\ exists c s', kd_run E x I fussy p [] s = (seen, KDFinished c s') /\
        keeps s s' /\ Forall2 (kshows E x s') c (kcells a) /\
        (e_copy def = false -> NoDup (klive_ids a ++ map fst (kdead a)))) \/
     (exists o k s1 fail s', q = KDDo o k /\ kd_calls E def x I fussy p [] s = calls ++ [(s1, fail)] /\
        kd_run E x I fussy p [] s = (seen, KDAborted s') /\ kmay_abort def fussy (F s1) fail o a)).
Proof.
  intros E def x I F fussy p s Hs Hno HI Hf.
  destruct (kd_run_sim E def x I F keeps fussy Hs HI (fun _ _ H => H) Hno p [] s s ka0 (kinv0 E def s) Hf) as (calls & seen & q & a & G & K).
  exists calls, seen, q, a. split; [exact G|]. destruct K as [(Eq & Ec & c & s' & K1 & K2 & K3 & _)|K]; [left|right; exact K].
  split; [exact Eq|]. split; [exact Ec|]. exists c, s'. split; [exact K1|]. split; [exact (ki_base _ _ _ _ _ _ K2)|]. split.
  - eapply Forall2_weak; [|exact (ki_rel _ _ _ _ _ _ K2)]. intros [w|v|] [id loc v'|id v'|]; cbn [krel kshows]; try tauto.
    intros (B & _). apply (boxed_into_inner E def x (ms_def _ _ _ Hs) (ms_expand _ _ _ Hs) (setup_u8 _ _ _ Hs) s' w v' B).
  - intros Hc. apply (NoDup_count_occ Nat.eq_dec). intros n.
    assert (C : kcounted a) by (apply K3; [exact Hc|]; intros m; cbn; destruct (m <? 0)%nat; lia).
    specialize (C n). unfold occ in C. rewrite count_occ_app. destruct (n <? knext a)%nat; lia.
Qed.

(** When the user's impls keep no block and destroy nothing of their own: heap blocks and destructors that ran, despite the panics. *)
Theorem C71_accounting : forall E def x I F fussy p s c s' seen, macro_setup E def x -> implements harmless def I F ->
  (forall v k, In (v, k) (e_variants def) -> no_zst_drop def k) ->
  kd_follows def E F p ka0 -> kd_run E x I fussy p [] s = (seen, KDFinished c s') ->
  exists a, kd_goes def fussy F p ka0 (kd_calls E def x I fussy p [] s) seen KDStop a /\
    Forall2 (kshows E x s') c (kcells a) /\
    destroyed (events s') = destroyed (events s) ++ kdead_destructors def (kdead a) /\
    List.length (blocks s') = (List.length (blocks s) + kmade a)%nat.
Proof.
  intros E def x I F fussy p s c s' seen Hs HI Hz Hf Hr.
  assert (Hno : e_drop def = false).
  { pose proof (do_some _ (ms_def _ _ _ Hs)) as Ne. destruct (e_variants def) as [|[v k] l] eqn:Ev; [contradiction|].
    exact (proj1 (Hz v k (or_introl eq_refl))). }
  destruct (kd_run_sim E def x I F harmless fussy Hs HI (fun _ _ H => proj1 H) Hno p [] s s ka0 (kinv0 E def s) Hf) as (calls & seen' & q & a & G & K).
  destruct K as [(Eq & Ec & c' & s2 & K1 & K2 & _ & K4)|(o & k & s1 & fail & s2 & _ & _ & K1 & _)]; rewrite Hr in K1; [|discriminate K1].
  injection K1 as <- <- <-. subst q calls. exists a. split; [exact G|]. split.
  - eapply Forall2_weak; [|exact (ki_rel _ _ _ _ _ _ K2)]. intros [w|v|] [id loc v'|id v'|]; cbn [krel kshows]; try tauto.
    intros (B & _). apply (boxed_into_inner E def x (ms_def _ _ _ Hs) (ms_expand _ _ _ Hs) (setup_u8 _ _ _ Hs) s' w v' B).
  - destruct (K4 (fun _ _ H => H)) as [B T]. cbn [ka0 kmade] in B. split; [|lia].
    destruct (T Hz) as (l & D1 & D2). cbn in D1. subst l. exact D2.
Qed.

(** *** No abort *)

Lemma value_destructors_simple def v : ksimple def -> (List.length (value_destructors def v) <= 1)%nat.
Proof.
  intros H. unfold value_destructors. destruct (assoc (ev_variant v) (e_variants def)) as [k|] eqn:As; [|cbn; lia].
  apply assoc_some in As. specialize (H _ _ As). rewrite map_length. etransitivity; [|exact H]. clear.
  generalize (ev_fields v). induction (kind_types k) as [|t ts IH]; intros [|f fs]; cbn [combine filter fst List.length]; try lia.
  specialize (IH fs). destruct (ty_drop t); cbn [List.length]; lia.
Qed.

Lemma kloses_simple def G fail o a : ksimple def -> (List.length (kloses def G fail o a) <= 1)%nat.
Proof.
  intros H. pose proof (fun v => value_destructors_simple def v H) as V.
  assert (U : forall v, (List.length (unstored def fail v) <= 1)%nat) by (intros v; unfold unstored; destruct (_ && _); [cbn; lia|apply V]).
  destruct o; cbn [kloses]; try (cbn; lia).
  - destruct (nth_error (kcells a) i) as [[]|]; try (cbn; lia). apply U.
  - destruct (payload_variant def src); [apply U|cbn; lia].
  - destruct (nth_error (kcells a) i) as [[]|]; try (cbn; lia). destruct (m_clone G v); [apply U|cbn; lia].
  - destruct (nth_error (kcells a) i) as [[]|]; try (cbn; lia). apply V.
  - destruct (nth_error (kcells a) i) as [[]|]; try (cbn; lia). apply V.
Qed.

(** With at most one destructor per variant and memory for every call, no panicking destructor ends the program. *)
Theorem C71_no_abort : forall E def x I F fussy p s, macro_setup E def x -> e_drop def = false -> implements keeps def I F ->
  kd_follows def E F p ka0 -> ksimple def -> (forall s1, ~ In (s1, true) (kd_calls E def x I fussy p [] s)) ->
  exists seen c s', kd_run E x I fussy p [] s = (seen, KDFinished c s').
Proof.
  intros E def x I F fussy p s Hs Hno HI Hf Hq Hm.
  destruct (C71_history E def x I F fussy p s Hs Hno HI Hf)
    as (calls & seen & q & a & _ & [(_ & _ & c & s' & K & _)|(o & k & s1 & fail & s' & _ & Ec & _ & _ & [A|A])]); [eauto| |].
  - exfalso. subst fail. apply (Hm s1). rewrite Ec. apply in_or_app. right. left. reflexivity.
  - exfalso. pose proof (kloses_simple def (F s1) fail o a Hq). lia.
Qed.

(** *** Destructors that do not panic *)

Lemma calm_fields fussy : (forall s n v, fussy s n v = false) -> forall tys vs u s,
  d_drop_fields fussy tys vs u s = DOk tt (St (bytes s) (blocks s) (events s ++ drop_events tys vs)).
Proof.
  intros Q. induction tys as [|t tys IH]; intros [|v vs] u s0; cbn [d_drop_fields drop_events];
    try (unfold dret; rewrite app_nil_r; destruct s0; reflexivity).
  unfold finally, d_drop_leaf, dbind. destruct (ty_drop t); [rewrite Q|]; rewrite IH; cbn [log bytes blocks events app]; [|reflexivity].
  rewrite <- app_assoc. reflexivity.
Qed.

Lemma calm_new E fussy : (forall s n v, fussy s n v = false) -> forall U val d s,
  d_new E fussy U val d false s = plainly (tb_new E U val d) false s.
Proof.
  intros Q U val d s. pose proof (calm_fields fussy Q) as D. unfold d_new, tb_new, d_drop. destruct (h_size U =? 0).
  - unfold finally, dret, dbind. rewrite D. reflexivity.
  - unfold dbind, plainly, bind. unfold alloc. destruct (alloc_fn E s (h_size U) (h_align U)) as [p0|].
    + set (s1 := St _ _ _). destruct (write_at U p0 val s1) as [[] ?|? ?|?]; reflexivity.
    + unfold finally, draise. rewrite D. reflexivity.
Qed.

Lemma calm_resolved {A B} (o : option A) (f : A -> DM B) (g : A -> M B) s : (forall a, f a false s = plainly (g a) false s) ->
  dbind (plainly (resolved o)) f false s = plainly (bind (resolved o) g) false s.
Proof. intros H. destruct o as [a|]; [exact (H a)|reflexivity]. Qed.

Lemma calm_into E x fussy : (forall s n v, fussy s n v = false) -> forall v s,
  d_into E x fussy v false s = plainly (macro_into E x v) false s.
Proof.
  intros Q v s. unfold d_into, macro_into, d_at_exit.
  match goal with |- (if _ then finally ?dm _ else _) false s = plainly (at_exit _ _ ?m) false s => assert (B : dm false s = plainly m false s) end.
  { apply (calm_resolved (find_into (ev_variant v) (x_into x)) _ _ s). intros a.
    apply (calm_resolved (bind_pattern x (ia_pat a) v) _ _ s). intros binds.
    apply (calm_resolved (eval_tag x (ia_tag a)) _ _ s). intros tag.
    destruct (ia_body a) as [t arg|tys args|ms lit|]; cbn [d_into_body run_into_body].
    - apply calm_resolved. intros vs. apply calm_new, Q.
    - apply calm_resolved. intros vs. apply calm_new, Q.
    - apply calm_resolved. intros vals. apply calm_resolved. intros vs. apply calm_new, Q.
    - reflexivity. }
  unfold at_exit. destruct (x_drop x); [|exact B]. unfold finally. rewrite B. unfold plainly.
  match goal with |- context [bind (resolved ?o) ?k s] => destruct (bind (resolved o) k s) as [w s1|q s1|u] end; try reflexivity;
    unfold dbind, d_enum_drop, dret; rewrite Q; reflexivity.
Qed.

(** Then nothing is different from [Containers.v]. *)
Theorem C71_calm : forall E x I fussy p c s, (forall s n v, fussy s n v = false) ->
  kd_run E x I fussy p c s =
    (map KSaw (fst (krun E x I (kwithout_panics p) c s)),
     match snd (krun E x I (kwithout_panics p) c s) with
     | KFinished c' s' => KDFinished c' s'
     | KUndefined u => KDUndefined u
     | KDoesNotCompile => KDDoesNotCompile
     end).
Proof.
  intros E x I fussy p c s Q. revert c s.
  assert (B : forall A C (dm : DM A) (m : M A) (f : A -> C) s, dm false s = plainly m false s ->
              dbind dm (fun a => dret (f a)) false s = plainly (bind m (fun a => ret (f a))) false s).
  { intros A C dm m f s H. unfold dbind. rewrite H. unfold plainly, bind, ret, dret. destruct (m s); reflexivity. }
  assert (S : forall o c s, match kd_step E x I fussy o c, kstep E x I o c with
              | Some dm, Some m => dm false s = plainly m false s /\ forall q s', m s = Panicked q s' -> kd_after_panic o c = kafter_panic o c
              | None, None => True | _, _ => False end).
  { intros o c s.
    destruct o as [v|i|src vals|i|i|i j|i j|i j|i o out|i o out|i o out|i|i|i n f|i n val|i|i|i|i];
      try (cbn [kd_step]; match goal with |- context [option_map plainly ?y] => destruct y end; [split; reflexivity|exact Logic.I]);
      cbn [kd_step kstep].
    - destruct (nth_error c i) as [[w|v|]|]; try exact Logic.I. split; [|reflexivity].
      apply (B _ _ _ (container_from E x v) (fun w => (KNothing, put i (KBox w) c))). apply calm_into, Q.
    - destruct (find _ (x_froms x)) as [f|]; [|exact Logic.I]. split; [|reflexivity].
      apply (B _ _ _ (container_from_payload E x f vals) (fun w => (KNothing, c ++ [KBox w]))).
      destruct f as [t v|ts v idx]; cbn [d_from_payload container_from_payload]; [apply calm_into, Q|].
      apply calm_resolved. intros vs. apply calm_into, Q.
    - destruct (nth_error c i) as [[w|v|]|]; try exact Logic.I. split; [|reflexivity].
      apply (B _ _ _ (tb_clone (macro_taggable E x) (i_clone I) w) (fun w' => (KNothing, c ++ [KBox w']))).
      unfold d_clone, tb_clone, dbind. unfold plainly at 1 2. unfold bind at 2. cbn [ref_from_tagged_box macro_taggable into_tagged_box].
      destruct (macro_ref E x (option evalue) w _ None s) as [[cv|] s1|q s1|u]; try reflexivity. rewrite calm_into by exact Q. reflexivity.
    - destruct (nth_error c i) as [[w|v|]|], (leaf_type x n) as [t|]; try exact Logic.I. split; [|reflexivity].
      apply (B _ _ _ (tb_assign E (leaf_hty t) w [val]) (fun _ => (KNothing, c))).
      unfold d_assign, tb_assign, dbind. unfold plainly at 1 3. unfold bind at 1.
      destruct (read_at (leaf_hty t) (tp_mut_ref_addr (tgt E) w) s) as [old s2|q s2|u]; try reflexivity.
      unfold finally, d_drop. rewrite (calm_fields fussy Q). unfold bind, drop_hval, dbind, dret, plainly.
      match goal with |- context [write_at ?U ?a ?v ?t] => destruct (write_at U a v t) as [[] ?|? ?|?] end; reflexivity.
    - destruct (nth_error c i) as [[w|v|]|]; try exact Logic.I. split; [|intros q s' X; discriminate X].
      apply (B _ _ _ (drop_evalue x v) (fun _ => (KNothing, put i KGone c))). unfold d_drop_evalue, drop_evalue, plainly.
      destruct (x_drop x); [|cbn [app]; apply calm_fields, Q]. unfold finally, d_enum_drop. rewrite Q. unfold dbind, dret.
      rewrite (calm_fields fussy Q). unfold log. cbn [bytes blocks events app]. rewrite <- app_assoc. reflexivity. }
  induction p as [|o k IH]; intros c s; cbn [kd_run kwithout_panics krun]; [reflexivity|].
  specialize (S o c s). destruct (kd_step E x I fussy o c) as [dm|], (kstep E x I o c) as [m|]; try contradiction; [|reflexivity].
  destruct S as [S1 S2]. rewrite S1. unfold plainly. destruct (m s) as [[r c'] s'|q s'|u]; [| |reflexivity].
  - rewrite IH. destruct (krun E x I (kwithout_panics (k (KSaw r))) c' s') as [l e]. reflexivity.
  - rewrite (S2 q s' eq_refl). cbn [kcaught]. rewrite IH.
    destruct (krun E x I (kwithout_panics (k (KSaw (KSawPanic q)))) (kafter_panic o c) s') as [l e]. reflexivity.
Qed.

(** *** Enums with a [Drop] impl of their own *)

Lemma copy_fields def v k : def_ok def -> e_drop def = true -> In (v, k) (e_variants def) -> Forall (fun t => ty_drop t = false) (kind_types k).
Proof.
  intros Hd Hdr Hin. apply Forall_forall. intros t Ht.
  assert (Ha : In t (all_types def)) by (unfold all_types; apply in_concat; exists (kind_types k); split; [apply in_map_iff; exists (v, k); auto|exact Ht]).
  pose proof (do_copy _ Hd (or_intror Hdr)) as C. pose proof (do_glue _ Hd) as G. rewrite Forall_forall in C, G. apply (G t Ha), (C t Ha).
Qed.

Lemma OkI {A} (a b : A) s t : Ok a s = Ok b t -> a = b /\ s = t.
Proof. intros H. injection H as -> ->. auto. Qed.
Lemma PanI {A} p q s t : @Panicked A p s = Panicked q t -> p = q /\ s = t.
Proof. intros H. injection H as -> ->. auto. Qed.

(** Its panic in [into_tagged_box] comes after the value was stored: there is then a box with the value in it that nobody gets. Out of
    memory it is a second panic, and the program is aborted. *)
Theorem C71_own_drop : forall E def x fussy v s, macro_setup E def x -> e_drop def = true -> evalue_fits E def v ->
  let n := e_name def in let bs := concat (ev_fields v) in
  (exists w s1, let s' := log (EvDrop n bs) s1 in
     macro_into E x v s = Ok w s' /\ boxed E def s' w v /\
     d_into E x fussy v false s = if fussy s1 n bs then DPanic (InDrop n bs) s' else DOk w s') \/
  (no_room E def v s = true /\ let s' := log (EvDrop n bs) s in
     macro_into E x v s = Panicked PanicNullAlloc s' /\
     d_into E x fussy v false s = if fussy s n bs then DAbort s' else DPanic (InCrate PanicNullAlloc) s').
Proof.
  intros E def x fussy v s Hs Hdr [(k & Hin & Ht) Hfit] n bs. pose proof (ms_def _ _ _ Hs) as Hd. pose proof (ms_expand _ _ _ Hs) as Hx.
  pose proof (expand_inv _ _ Hx) as X.
  assert (Dn : forall vs, drop_events (kind_types k) vs = []) by (intros vs; apply drop_events_none, (copy_fields def _ _ Hd Hdr Hin)).
  unfold d_into, d_at_exit. rewrite (xp_drop _ _ X), Hdr.
  assert (N : x_name x = n) by (apply (xp_name _ _ X)).
  match goal with |- context [finally ?dm _ false s] => set (inner := dm) end.
  assert (L : exists im, like fussy inner im s /\ macro_into E x v s = at_exit true (EvDrop n bs) im s).
  { eexists. split; [|unfold macro_into; rewrite (xp_drop _ _ X), Hdr; unfold enum_drop; rewrite N; reflexivity].
    apply (like_resolved fussy (find_into (ev_variant v) (x_into x)) _ _ s). intros a.
    apply (like_resolved fussy (bind_pattern x (ia_pat a) v) _ _ s). intros binds.
    apply (like_resolved fussy (eval_tag x (ia_tag a)) _ _ s). intros tag.
    destruct (ia_body a) as [t arg|tys args|ms lit|]; cbn [d_into_body run_into_body].
    - apply like_resolved. intros vs. apply new_like.
    - apply like_resolved. intros vs. apply new_like.
    - apply like_resolved. intros vals. apply like_resolved. intros vs. apply new_like.
    - unfold like, ret, dret. exists []. rewrite app_nil_r. split; [reflexivity|]. left. split; [reflexivity|apply mellow_nil]. }
  destruct L as (im & L & M).
  assert (Ne : forall t ev, log ev t = logged [ev] t) by reflexivity.
  assert (Li : forall t t2 ev, log ev t = log ev t2 -> t = t2).
  { intros [b1 k1 e1] [b2 k2 e2] ev Q. unfold log in Q. cbn [bytes blocks events] in Q. injection Q as -> -> Q. apply app_inv_tail in Q. subst. reflexivity. }
  destruct (macro_into_spec E def x Hd Hx (setup_u8 _ _ _ Hs) (ms_env _ _ _ Hs) v k s Hin Ht Hfit)
    as [(Hz & w & P & B) | [(U & Hu & Hz & A & P) | (U & p & w & Hu & Hz & A & P & _ & B)]];
    unfold exit_log in P; rewrite Hdr, ?Dn in P; try (unfold exit_log in B; rewrite Hdr, ?Dn in B); cbn [app] in P;
    fold n bs in P; rewrite <- Ne in P; rewrite P in M; unfold at_exit in M; unfold like in L.
  - destruct (im s) as [w2 s1|q s1|u]; try discriminate M. apply OkI in M. destruct M as [<- M]. apply Li in M. subst s1.
    left. exists w, s. split; [exact P|]. split; [exact B|].
    destruct L as (l & D & L). rewrite <- (app_nil_r (destroyed (events s))) in D at 1. apply app_inv_head in D. subst l.
    destruct L as [[L _]|[(n1 & v1 & _ & [] & _)|(s2 & _ & (n1 & v1 & t1 & [] & _) & _)]]. unfold finally. rewrite L. unfold dbind, d_enum_drop, enum_drop, dret, draise. rewrite N.
    fold bs. destruct (fussy s n bs); reflexivity.
  - destruct (im s) as [w2 s1|q s1|u]; try discriminate M. apply PanI in M. destruct M as [<- M]. apply Li in M. subst s1.
    right. split; [unfold no_room; rewrite (assoc_in _ _ _ (do_names _ Hd) Hin), Hu; unfold no_block; rewrite (proj2 (N.eqb_neq _ _) Hz), A; reflexivity|].
    split; [exact P|].
    destruct L as (l & D & L). rewrite <- (app_nil_r (destroyed (events s))) in D at 1. apply app_inv_head in D. subst l.
    destruct L as [[L _]|(s2 & _ & (n1 & v1 & t1 & [] & _) & _)]. unfold finally. rewrite L. unfold d_enum_drop, enum_drop, draise. rewrite N.
    fold bs. destruct (fussy s n bs); reflexivity.
  - destruct (im s) as [w2 s1|q s1|u]; try discriminate M. apply OkI in M. destruct M as [<- M]. apply Li in M. subst s1.
    left. exists w, (stored U p (ev_fields v) s). split; [exact P|]. split; [exact B|].
    destruct L as (l & D & L).
    assert (l = []) as ->.
    { unfold stored in D. cbn [events] in D. rewrite !destroyed_app in D. cbn [destroyed] in D. rewrite ?app_nil_r in D.
      rewrite <- (app_nil_r (destroyed (events s))) in D at 1. apply app_inv_head in D. auto. }
    destruct L as [[L _]|[(n1 & v1 & _ & [] & _)|(s2 & _ & (n1 & v1 & t1 & [] & _) & _)]]. unfold finally. rewrite L. unfold dbind, d_enum_drop, enum_drop, dret, draise. rewrite N.
    fold bs. destruct (fussy _ n bs); reflexivity.
Qed.

(** Looking at a box: the closure is run on the value; after it, even if it panicked, only the [Drop] of a unit variant is run. *)
Lemma d_match_disc_eq x d (default : panic) {A} (dbody : read_arm -> DM A) ddefault u a s : forall arms,
  match_disc x d arms (fun b => ret b) (raise default) s = Ok a s -> d_match_disc x d arms dbody ddefault u s = dbody a u s.
Proof.
  induction arms as [|b arms IH]; cbn [match_disc d_match_disc]; [discriminate|].
  destruct (eval_tag x (ra_tag b)) as [tag|]; [|discriminate]. cbn [resolved].
  change (dbind (plainly (ret tag)) (fun tag => if d =? tag then dbody b else d_match_disc x d arms dbody ddefault) u s)
    with ((if d =? tag then dbody b else d_match_disc x d arms dbody ddefault) u s).
  change (bind (ret tag) (fun tag => if d =? tag then ret b else match_disc x d arms (fun b => ret b) (raise default)) s)
    with ((if d =? tag then ret b else match_disc x d arms (fun b => ret b) (raise default)) s).
  destruct (d =? tag); [|exact IH]. intros H. apply OkI in H as [-> _]. reflexivity.
Qed.

Theorem C71_look : forall E def x fussy s w v k S (cb : evalue -> S -> DM S) c u, macro_setup E def x -> boxed E def s w v ->
  In (ev_variant v, k) (e_variants def) ->
  d_ref E x fussy S w cb c u s =
    match k with
    | KUnit => if e_drop def then finally (cb v c) (fun unwinding t =>
                   let t' := log (EvDrop (e_name def) []) t in
                   if fussy t (e_name def) [] then draise (InDrop (e_name def) []) unwinding t' else DOk tt t') u s
               else cb v c u s
    | _ => cb v c u s
    end.
Proof.
  intros E def x fussy s w v k S cb c u Hs B Hin. pose proof (ms_def _ _ _ Hs) as Hd. pose proof (ms_expand _ _ _ Hs) as Hx.
  pose proof (expand_inv _ _ Hx) as X. pose proof (setup_u8 _ _ _ Hs) as H8.
  destruct B as (i & k' & Hi & Ht & H).
  assert (k' = k).
  { pose proof (assoc_in _ _ _ (do_names _ Hd) Hin). pose proof (assoc_in _ _ _ (do_names _ Hd) (nth_error_In _ _ Hi)). congruence. }
  subst k'. destruct (gen_all_nth _ _ _ (xp_ref _ _ X)) as [_ Hn]. specialize (Hn i). rewrite Hi in Hn. destruct Hn as (a & Ga & Ha).
  unfold d_ref.
  rewrite (d_match_disc_eq x (tb_discriminant E w) PanicCloneExpect _ _ u a s).
  2:{ rewrite (match_disc_nth def x Hd Hx gen_ref _ _ _ _ _ gen_ref_tag (xp_ref _ _ X)) by (apply (disc_u8 E), H8).
      rewrite Ht, Nnat.Nat2N.id, Ha. reflexivity. }
  pose proof (kind_types_wf _ _ _ Hd (nth_error_In _ _ Hi)) as Hw.
  assert (Rd : run_build E x (fun H => read_at H (tb_as_ptr E w)) (ra_variant a) (ra_build a) s = Ok v s /\
               ra_guarded a = match k with KUnit => false | _ => true end).
  { assert (Hk : read_kind (fun H => read_at H (tb_as_ptr E w)) (ev_variant v) k s = Ok v s).
    { unfold read_kind. destruct (storage k) as [U|]; destruct v as [n vs]; cbn [ev_fields ev_variant] in *.
      - unfold bind. change (tb_as_ptr E w) with (tp_as_ptr (tgt E) w). rewrite (box_holds_inv E U w vs s H). reflexivity.
      - subst vs. reflexivity. }
    rewrite <- Hk. clear Hk. pose proof (nth_error_In _ _ Hi) as Hv.
    destruct k as [|[|t1 [|t2 tys]]|ms]; cbn [gen_ref kind_types] in *;
      try (injection Ga as <-; cbn [ra_variant ra_build ra_guarded]; split; try reflexivity).
    - destruct (expand_tuple _) as [idx|] eqn:Ex; [|discriminate]. injection Ga as <-. cbn [ra_variant ra_build ra_guarded].
      split; [|reflexivity]. apply expand_tuple_seq in Ex. rewrite run_build_reprC; auto using as_ptr_fields.
    - rewrite (run_build_struct E def x); auto using as_ptr_fields. }
  destruct Rd as [Rd Gu]. unfold dbind at 1. unfold plainly. rewrite Rd, Gu, (xp_drop _ _ X). unfold d_at_exit.
  destruct k as [|tys|ms]; cbn [negb]; rewrite ?andb_false_r; try reflexivity. rewrite andb_true_r. destruct (e_drop def); [|reflexivity].
  unfold d_enum_drop, enum_drop. rewrite (xp_name _ _ X). cbn [storage] in H. destruct v as [n vs]. cbn [ev_fields ev_variant] in *. subst vs. reflexivity.
Qed.

(** *** Examples *)

(** A text is stored; another is assigned to it, whose panic leaves the new one in place; it is taken out, which
    never frees the block, and dropped, which panics. *)
Definition kd_go (l : list kop) : kdprog := fold_right (fun o p => KDDo o (fun _ => p)) KDStop l.
Definition v_text2 : evalue := EV "Text" [b_string].
Definition kfussy_prog : kdprog :=
  KDDo (KNew v_text) (fun _ => KDDo (KFrom 0) (fun r =>
    match r with KSaw KNothing => kd_go [KAssign 0 "Text" b_string; KView 0; KIntoInner 0; KDropVal 0] | _ => KDStop end)).

Lemma kfussy_follows : kd_follows item (bump_env dbg60) (fun _ => item_meaning) kfussy_prog ka0.
Proof.
  assert (V : evalue_ok item v_text) by (pose proof item_values_ok as H; rewrite Forall_forall in H; apply H; cbn; tauto).
  assert (W : forall id loc v, Some (KABox 0 0 v_text) = Some (KABox id loc v) ->
                ev_variant v = "Text"%string /\ evalue_ok item (EV "Text" [b_string])).
  { intros id loc v Hv. injection Hv as _ _ <-. split; [reflexivity|]. eexists. split; [cbn; tauto|]. constructor; [|constructor].
    split; vm_compute; reflexivity. }
  intros t1. split; [exact V|]. intros f1. cbn. split; [|intros n v _ []]. intros t2. split; [kcontract_ok|].
  intros []; cbn; (split; [|intros n v Q1 Q2; try discriminate Q1; cbn in Q2; contradiction Q2]); [exact Logic.I|].
  intros t3. split; [intros id loc v Hv; exact (W id loc v Hv)|]. intros f3. cbn.
  split; [|intros n v _ _]; (intros t4; split; [exact Logic.I|]; intros ?; cbn; split; [|intros n' v' _ []]; intros t5; split; [exact Logic.I|];
    intros ?; cbn; split; [|intros n' v' _ []]; intros t6; split; [exact Logic.I|]; intros ?; cbn; split; [exact Logic.I|]; intros; exact Logic.I).
Qed.

Example C71_example : let E := bump_env dbg60 in let I := pure_impls item_meaning in
  macro_setup E item item_x /\ implements harmless item I (fun _ => item_meaning) /\ kd_follows item E (fun _ => item_meaning) kfussy_prog ka0 /\
  ksimple item /\ (forall s1, ~ In (s1, true) (kd_calls E item item_x I all_fussy kfussy_prog [] st0)) /\
  fst (kd_run E item_x I all_fussy kfussy_prog [] st0)
    = [KSaw KNothing; KSaw KNothing; KSawDropPanic "String" a_string; KSaw (KSawValues [v_text2]); KSaw (KSawValues [v_text2]);
       KSawDropPanic "String" b_string] /\
  match snd (kd_run E item_x I all_fussy kfussy_prog [] st0) with
  | KDFinished c s => c = [KGone] /\ List.length (blocks s) = 1%nat /\ destroyed (events s) = [("String", a_string); ("String", b_string)]%string
  | _ => False
  end.
Proof.
  split; [apply item_setup|]. split; [apply pure_implements; item_clones|]. split; [exact kfussy_follows|]. split.
  { intros n k H. cbn in H. repeat (destruct H as [H|H]; [injection H as <- <-; cbn; lia|]). destruct H. }
  split.
  { assert (M : existsb snd (kd_calls (bump_env dbg60) item item_x (pure_impls item_meaning) all_fussy kfussy_prog [] st0) = false)
      by (vm_compute; reflexivity).
    intros s1 H. assert (T : exists y, In y (kd_calls (bump_env dbg60) item item_x (pure_impls item_meaning) all_fussy kfussy_prog [] st0) /\ snd y = true)
      by (exists (s1, true); auto). apply existsb_exists in T. rewrite M in T. discriminate T. }
  vm_compute. intuition reflexivity.
Qed.

(** Out of memory, the destructor of the text that cannot be stored is a second panic; so is that of a clone. *)
Example C71_abort_example : let I := pure_impls item_meaning in
  (exists s, kd_run (Env dbg60 no_memory reprC) item_x I all_fussy kfussy_prog [] st0 = ([KSaw KNothing], KDAborted s) /\
     destroyed (events s) = [("String", a_string)]%string) /\
  kmay_abort item all_fussy item_meaning true (KFrom 0) (KAState [KAVal 0 v_text] 1 [] 0 0).
Proof.
  split; [eexists; vm_compute; intuition reflexivity|]. split; [|left; reflexivity].
  exists "String"%string, a_string, st0. split; [left|]; reflexivity.
Qed.

(** The [Drop] impl of the enum itself: the value is in its box when the impl panics; out of memory the program is aborted. *)
Example C71_own_drop_example : let v := EV "Busy" [[Byte 7]] in
  evalue_fits (bump_env dbg60) dropping v /\ e_drop dropping = true /\
  (exists s, d_into (bump_env dbg60) dropping_x all_fussy v false st0 = DPanic (InDrop "Token" [Byte 7]) s /\ List.length (blocks s) = 1%nat) /\
  (exists s, d_into (Env dbg60 no_memory reprC) dropping_x all_fussy v false st0 = DAbort s /\ blocks s = []).
Proof.
  cbv zeta. split; [|split; [reflexivity|split; eexists; vm_compute; intuition reflexivity]]. split.
  - eexists. split; [cbn; tauto|]. constructor; [|constructor]. split; vm_compute; reflexivity.
  - fits_at 1%nat.
Qed.

(** Looking at [Idle] runs the enum's [Drop]; if it panics, the callback has been called. *)
Example C71_look_example : exists w s, macro_into (bump_env dbg60) dropping_x (EV "Idle" []) st0 = Ok w s /\
  boxed (bump_env dbg60) dropping s w (EV "Idle" []) /\
  exists s', d_ref (bump_env dbg60) dropping_x all_fussy nat w (fun _ c => dret (Datatypes.S c)) 0%nat false s = DPanic (InDrop "Token" []) s' /\
    d_ref (bump_env dbg60) dropping_x (fun _ _ _ => false) nat w (fun _ c => dret (Datatypes.S c)) 0%nat false s = DOk 1%nat s'.
Proof.
  eexists _, _. split; [vm_compute; reflexivity|].
  match goal with |- ?B /\ _ => assert (H : B) end.
  { exists 0%nat, KUnit. split; [reflexivity|]. split; vm_compute; reflexivity. }
  split; [exact H|]. eexists.
  rewrite !(C71_look _ dropping dropping_x _ _ _ _ KUnit _ _ _ _ dropping_setup H) by (left; reflexivity).
  split; reflexivity.
Qed.

(** ** Instances: each theorem applied to a concrete case that meets its hypotheses *)

Definition kfussy_seen : list kdobs :=
  [KSaw KNothing; KSaw KNothing; KSawDropPanic "String" a_string; KSaw (KSawValues [v_text2]); KSaw (KSawValues [v_text2]);
   KSawDropPanic "String" b_string].

Example C71_history_example : exists calls a, kd_goes item all_fussy (fun _ => item_meaning) kfussy_prog ka0 calls kfussy_seen KDStop a /\
  NoDup (klive_ids a ++ map fst (kdead a)).
Proof.
  destruct C71_example as (HS & HI & F & _ & _ & R1 & R2).
  destruct (C71_history _ item _ _ _ all_fussy _ st0 HS eq_refl (implements_weak harmless keeps _ _ _ (fun _ _ H => proj1 H) HI) F)
    as (calls & seen & q & a & G & [(-> & _ & c & s & R & _ & _ & N)|(o & k & s1 & fail & s & _ & _ & R & _)]);
    rewrite R in R1, R2; cbn [fst snd] in R1, R2; [|contradiction].
  subst seen. exists calls, a. split; [exact G|exact (N eq_refl)].
Qed.

Example C71_accounting_example : exists c s a, kd_run (bump_env dbg60) item_x (pure_impls item_meaning) all_fussy kfussy_prog [] st0
    = (kfussy_seen, KDFinished c s) /\ kdead_destructors item (kdead a) = [("String", a_string); ("String", b_string)]%string /\
  kmade a = 1%nat /\ Forall2 (kshows (bump_env dbg60) item_x s) c (kcells a).
Proof.
  destruct C71_example as (HS & HI & F & _ & _ & R1 & R2).
  destruct (kd_run (bump_env dbg60) item_x (pure_impls item_meaning) all_fussy kfussy_prog [] st0) as [seen [c s| | |]] eqn:R;
    cbn [fst snd] in R1, R2; try contradiction. subst seen. destruct R2 as (R3 & R4 & R5).
  destruct (C71_accounting _ item _ _ _ all_fussy _ st0 c s _ HS HI item_no_zst_drop F R) as (a & _ & K1 & K2 & K3).
  exists c, s, a. split; [reflexivity|]. rewrite R5 in K2. rewrite R4 in K3. cbn in K2, K3. auto.
Qed.

Example C71_no_abort_example : exists seen c s,
  kd_run (bump_env dbg60) item_x (pure_impls item_meaning) all_fussy kfussy_prog [] st0 = (seen, KDFinished c s).
Proof.
  destruct C71_example as (HS & HI & F & Q & A & _).
  exact (C71_no_abort _ item _ _ _ _ _ _ HS eq_refl (implements_weak harmless keeps _ _ _ (fun _ _ H => proj1 H) HI) F Q A).
Qed.

Example C71_calm_example : fst (kd_run (bump_env dbg60) item_x (pure_impls item_meaning) (fun _ _ _ => false) kfussy_prog [] st0) =
  map KSaw [KNothing; KNothing; KNothing; KSawValues [v_text2]; KSawValues [v_text2]; KNothing].
Proof. rewrite C71_calm by reflexivity. vm_compute. reflexivity. Qed.

Print Assumptions C71_history.
Print Assumptions C71_accounting.
Print Assumptions C71_no_abort.
Print Assumptions C71_calm.
Print Assumptions C71_own_drop.
Print Assumptions C71_look.
