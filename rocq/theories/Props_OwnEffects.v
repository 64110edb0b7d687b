(** Property C75: programs of an enum with a [Drop] impl of its own, which does things. *)
From Coq Require Import Arith NArith String Bool List Lia.
From Verif Require Import Words Config Spec ConfigFacts Pointer PointerFacts Fmt Mem SpecMem MemFacts Box BoxFacts Bump
  Macro SpecMacro MacroFacts Session SpecSession SessionFacts Containers SpecContainers
  Props_Pointer Props_Box Props_Session Props_Macro Props_Clone Props_Containers
  DropPanics SpecDropPanics DropPanicsFacts Props_DropPanics KDropPanics SpecKDropPanics KDropPanicsFacts Props_KDropPanics
  OwnDrop SpecOwnDrop OwnDropFacts Props_OwnDrop Destructors SpecDestructors Props_Destructors KDestructors SpecKDestructors KDestructorsFacts Props_KDestructors
  OwnEffects SpecOwnEffects OwnEffectsFacts.
Import ListNotations.
Local Open Scope N_scope.

(** ** C75 An enum's own [Drop] that does things *)

Lemma oe_tracks_trans def act s a vs s1 a1 ws s2 a2 : oe_tracks def act s a vs s1 a1 -> oe_tracks def act s1 a1 ws s2 a2 -> oe_tracks def act s a (vs ++ ws) s2 a2.
Proof. intros T1 T2 Ti. destruct (T1 Ti) as [B1 D1], (T2 Ti) as [B2 D2]. split; [lia|]. rewrite D2, D1, map_app, app_assoc. reflexivity. Qed.

Lemma oe_tracks_harmless (def : edef) act (R : st -> st -> Prop) s t a vs s' a' : (forall s t, R s t -> harmless s t) -> R s t \/ t = s -> oe_tracks def act t a vs s' a' -> oe_tracks def act s a vs s' a'.
Proof.
  intros Hh [H| ->]; [|auto]. destruct (Hh _ _ H) as (_ & L & D). intros T' Ti. destruct (T' Ti) as [B T]. split; [lia|congruence].
Qed.

Lemma covers_none def (zone : block -> Prop) : (forall b, ksizes def (b_size b) -> zone b) -> covers def st0 zone.
Proof. intros H. split; [intros b []|exact H]. Qed.
Lemma keeps_none s : keeps st0 s.
Proof. intros b []. Qed.

Lemma oe_run_sim E def x I F R act s0 zone : macro_setup E def x -> Macro.e_drop def = true -> implements R def I F -> (forall s s', R s s' -> keeps s s') ->
  gentle act zone -> covers def s0 zone -> forall p c s a, kinv E def s0 s c a -> od_follows def E F p a ->
  exists calls seen drops q b, od_goes def (panics act) F p a calls seen drops q b /\
    ((q = KDStop /\ calls = oe_calls E def x I act p c s /\ exists c' s', oe_run E x I act p c s = (seen, KDFinished c' s') /\
        kinv E def s0 s' c' b /\ ((forall t t', R t t' -> harmless t t') -> oe_tracks def act s a drops s' b)) \/
     (exists o k s1 fail s', q = KDDo o k /\ oe_calls E def x I act p c s = calls ++ [(s1, fail)] /\
        oe_run E x I act p c s = (seen, KDAborted s') /\ od_may_abort def (panics act) (F s1) fail o b)).
Proof.
  intros Hs Hdr HI HR Hgen Hz p. induction p as [|o k IH]; intros c s a Hi Hf.
  - exists [], [], [], KDStop, a. split; [constructor|]. left. split; [reflexivity|]. split; [reflexivity|]. exists c, s. split; [reflexivity|].
    split; [exact Hi|]. intros _ _. split; [reflexivity|]. cbn [map]. rewrite app_nil_r. reflexivity.
  - cbn [od_follows] in Hf. destruct (Hf s) as [Hc Hf'].
    assert (Hn : kastep def (F s) false o a <> None) by (specialize (Hf' false); destruct (kastep def (F s) false o a); [discriminate|contradiction]).
    destruct (oe_step_sim E def x I F R act Hs Hdr HI HR s0 zone Hgen Hz s c a o Hi Hc Hn) as (dm & r & a' & H1 & H2 & H3 & H).
    cbn [oe_run oe_calls]. rewrite H1. set (fail := oe_starved E def x I act o c s) in *.
    destruct H as [(c' & s' & M & Ki & Tr & Cm)|[(v & s' & a1 & Nf & Np & M & V & Pv & Bl & Ki & Tr)|(s2 & M & A)]].
    + specialize (Hf' fail). rewrite H2 in Hf'. destruct Hf' as [Hf' _].
      destruct (IH (KSaw r) c' s' a' Ki Hf') as (calls & seen & drops & q & b & G & K).
      exists ((s, fail) :: calls), (KSaw r :: seen). eexists. exists q, b. split; [eapply ogoes_on; [exact H2|exact Cm|exact G]|].
      assert (Rn : forall e, oe_run E x I act (k (KSaw r)) c' s' = (seen, e) ->
         (match dm false s with
          | DOk (r0, c'0) s'0 => let (l, e0) := oe_run E x I act (k (KSaw r0)) c'0 s'0 in (KSaw r0 :: l, e0)
          | DPanic q0 s'0 => let (l, e0) := oe_run E x I act (k (kcaught q0)) (kd_after_panic o c) s'0 in (kcaught q0 :: l, e0)
          | DAbort s'0 => ([], KDAborted s'0)
          | DUB u => ([], KDUndefined u)
          end) = (KSaw r :: seen, e)).
      { intros e Re. destruct M as [M|(pq & Er & M & Ec)]; rewrite M; [|subst r; rewrite Ec in Re; cbn [kcaught]]; rewrite Re; reflexivity. }
      assert (Cs : (match dm false s with
          | DOk (r0, c'0) s'0 => oe_calls E def x I act (k (KSaw r0)) c'0 s'0
          | DPanic q0 s'0 => oe_calls E def x I act (k (kcaught q0)) (kd_after_panic o c) s'0
          | DAbort _ | DUB _ => []
          end) = oe_calls E def x I act (k (KSaw r)) c' s').
      { destruct M as [M|(pq & Er & M & Ec)]; rewrite M; [|subst r; rewrite Ec]; reflexivity. }
      rewrite Cs. destruct K as [(Eq & Ecalls & c2 & s2 & K1 & K2 & K4)|(o2 & k2 & s1 & f2 & s2 & Eq & Ecalls & K1 & K2)]; rewrite (Rn _ K1).
      * left. split; [exact Eq|]. split; [rewrite Ecalls; reflexivity|]. exists c2, s2. split; [reflexivity|]. split; [exact K2|].
        intros Hh. eapply oe_tracks_trans; [eapply (oe_tracks_harmless def act R); [exact Hh|exact H3|exact Tr]|apply K4, Hh].
      * right. exists o2, k2, s1, f2, s2. split; [exact Eq|]. split; [rewrite Ecalls; reflexivity|]. split; [reflexivity|exact K2].
    + specialize (Hf' false). rewrite Nf in H2. rewrite H2 in Hf'. destruct Hf' as [_ Hf']. specialize (Hf' v a1 eq_refl Np V Bl).
      destruct (IH _ (kd_after_panic o c) s' a1 Ki Hf') as (calls & seen & drops & q & b & G & K).
      exists ((s, fail) :: calls). eexists. eexists. exists q, b. split; [rewrite Nf; eapply ogoes_blown; [exact H2|exact Np|exact V|exact Pv|exact Bl|exact G]|].
      rewrite M. cbn [kcaught].
      destruct K as [(Eq & Ecalls & c2 & s2 & K1 & K2 & K4)|(o2 & k2 & s1 & f2 & s2 & Eq & Ecalls & K1 & K2)]; rewrite K1.
      * left. split; [exact Eq|]. split; [rewrite Ecalls; reflexivity|]. exists c2, s2. split; [reflexivity|]. split; [exact K2|].
        intros Hh. eapply oe_tracks_trans; [eapply (oe_tracks_harmless def act R); [exact Hh|exact H3|exact Tr]|apply K4, Hh].
      * right. exists o2, k2, s1, f2, s2. split; [exact Eq|]. split; [rewrite Ecalls; reflexivity|]. split; [reflexivity|exact K2].
    + rewrite M. exists [], [], [], (KDDo o k), a. split; [constructor|]. right. exists o, k, s, fail, s2. auto.
Qed.

(** Whatever an enum's own [Drop] does, if only it leaves alone the blocks of [others] and all blocks of a size the enum's values have, a
    program that keeps the contracts of the generated code never runs into undefined behaviour. It sees what the program on plain values
    sees; every container holds the value that program has there, and the memory of [others] is not touched. A call in which [Drop] panics
    has still done its work, but for a container being made, which is lost. The program is aborted only as in C74. *)
Theorem C75_history : forall E def x I F act zone others p s, macro_setup E def x -> Macro.e_drop def = true -> implements keeps def I F ->
  gentle act zone -> covers def others zone -> keeps others s -> od_follows def E F p ka0 ->
  exists calls seen drops q a, od_goes def (panics act) F p ka0 calls seen drops q a /\
    ((q = KDStop /\ calls = oe_calls E def x I act p [] s /\ exists c s', oe_run E x I act p [] s = (seen, KDFinished c s') /\
        keeps others s' /\ Forall2 (kshows E x s') c (kcells a)) \/
     (exists o k s1 fail s', q = KDDo o k /\ oe_calls E def x I act p [] s = calls ++ [(s1, fail)] /\
        oe_run E x I act p [] s = (seen, KDAborted s') /\ od_may_abort def (panics act) (F s1) fail o a)).
Proof.
  intros E def x I F act zone others p s Hs Hdr HI Hgen Hz Hk Hf.
  assert (K0 : kinv E def others s [] ka0) by (constructor; [constructor|intros [] j y z y2 z2 A; discriminate A|exact Hk]).
  destruct (oe_run_sim E def x I F keeps act others zone Hs Hdr HI (fun _ _ H => H) Hgen Hz p [] s ka0 K0 Hf) as (calls & seen & drops & q & a & G & K).
  exists calls, seen, drops, q, a. split; [exact G|]. destruct K as [(Eq & Ec & c & s' & K1 & K2 & _)|K]; [left|right; exact K].
  split; [exact Eq|]. split; [exact Ec|]. exists c, s'. split; [exact K1|]. split; [exact (ki_base _ _ _ _ _ _ K2)|].
  eapply Forall2_weak; [|exact (ki_rel _ _ _ _ _ _ K2)]. intros [w|v|] [id loc v'|id v'|]; cbn [krel kshows]; try tauto.
  intros (B & _). apply (boxed_into_inner E def x (ms_def _ _ _ Hs) (ms_expand _ _ _ Hs) (setup_u8 _ _ _ Hs) s' w v' B).
Qed.

(** When moreover [Drop] and the user's other impls keep no block and run no destructors: the values on which [Drop] was run, in order, are
    those of the program on plain values, despite the panics, and no other destructor is run. So is the number of heap blocks. *)
Theorem C75_accounting : forall E def x I F act p s c s' seen, macro_setup E def x -> Macro.e_drop def = true -> implements harmless def I F -> tidy act ->
  od_follows def E F p ka0 -> oe_run E x I act p [] s = (seen, KDFinished c s') ->
  exists drops a, od_goes def (panics act) F p ka0 (oe_calls E def x I act p [] s) seen drops KDStop a /\
    Forall2 (kshows E x s') c (kcells a) /\
    destroyed (events s') = destroyed (events s) ++ map (fun v => (e_name def, concat (ev_fields v))) drops /\
    List.length (blocks s') = (List.length (blocks s) + kmade a)%nat.
Proof.
  intros E def x I F act p s c s' seen Hs Hdr HI Ht Hf Hr.
  destruct (oe_run_sim E def x I F harmless act s (fun _ => True) Hs Hdr HI (fun _ _ H => proj1 H) (fun n v t b Hb _ => proj1 (Ht n v t) b Hb)
    (conj (fun _ _ => Logic.I) (fun _ _ => Logic.I)) p [] s ka0 (kinv0 E def s) Hf) as (calls & seen' & drops & q & a & G & K).
  destruct K as [(Eq & Ec & c' & s2 & K1 & K2 & K4)|(o & k & s1 & fail & s2 & _ & _ & K1 & _)]; rewrite Hr in K1; [|discriminate K1].
  injection K1 as <- <- <-. subst q calls. exists drops, a. split; [exact G|]. split.
  - eapply Forall2_weak; [|exact (ki_rel _ _ _ _ _ _ K2)]. intros [w|v|] [id loc v'|id v'|]; cbn [krel kshows]; try tauto.
    intros (B & _). apply (boxed_into_inner E def x (ms_def _ _ _ Hs) (ms_expand _ _ _ Hs) (setup_u8 _ _ _ Hs) s' w v' B).
  - destruct (K4 (fun _ _ H => H) Ht) as [B T]. cbn [ka0 kmade] in B. split; [exact T|lia].
Qed.

(** Without unit variants and with memory for every call, no panic of [Drop] ends the program. *)
Theorem C75_no_abort : forall E def x I F act (zone : block -> Prop) p s, macro_setup E def x -> Macro.e_drop def = true -> implements keeps def I F ->
  gentle act zone -> (forall b, ksizes def (b_size b) -> zone b) -> od_follows def E F p ka0 -> (forall n, ~ In (n, KUnit) (e_variants def)) -> (forall s1, ~ In (s1, true) (oe_calls E def x I act p [] s)) ->
  exists seen c s', oe_run E x I act p [] s = (seen, KDFinished c s').
Proof.
  intros E def x I F act zone p s Hs Hdr HI Hgen Hz Hf Hu Hm.
  destruct (C75_history E def x I F act zone st0 p s Hs Hdr HI Hgen (covers_none def zone Hz) (keeps_none s) Hf)
    as (calls & seen & drops & q & a & _ & [(_ & _ & c & s' & K & _)|(o & k & s1 & fail & s' & _ & Ec & _ & (v & Hv & _) & A)]); [eauto|exfalso].
  assert (Fa : forall v, fades def v = []).
  { intros w. unfold fades. destruct (assoc (ev_variant w) (e_variants def)) as [[]|] eqn:As; try reflexivity. destruct (Hu _ (assoc_some _ _ _ As)). }
  assert (fail = false) as -> by (destruct fail; [|reflexivity]; destruct (Hm s1); rewrite Ec; apply in_or_app; right; left; reflexivity).
  assert (Nk : forall i id w b p a', kstore def false i id w b <> (KSawPanic p, a')) by (intros *; unfold kstore; rewrite andb_false_r; discriminate).
  destruct o; cbn [od_drops] in *; rewrite ?Fa in *; try (destruct Hv);
    repeat match type of Hv with context [nth_error ?l ?i] => destruct (nth_error l i) as [[]|] eqn:?; rewrite ?Fa in * end; try (destruct Hv; fail);
    destruct A as [A|(pp & a' & A)]; cbn [List.length app] in *; try lia; cbn [kastep] in A.
  all: try (rewrite Heqo in A; injection A as A; eapply Nk, A).
  all: try (rewrite Heqo in A; discriminate A).
  all: try (destruct (payload_variant def src); [cbn in A; lia || (injection A as A; eapply Nk, A)|destruct Hv]).
  all: try (destruct (m_clone (F s1) v0) eqn:Mc; [|destruct Hv]; first [cbn in A; lia | rewrite Heqo, Mc in A; injection A as A; eapply Nk, A]).
Qed.

(** Storing a value: it is stored first, and [Drop] is then run on what is left of it. Whatever [Drop] does, the box has the value in it,
    also when nobody gets the box because of the panic. *)
Theorem C75_store : forall E def x act v s, macro_setup E def x -> Macro.e_drop def = true -> evalue_fits E def v ->
  gentle act (fun b => ksizes def (b_size b)) ->
  let n := e_name def in let bs := concat (ev_fields v) in
  (exists w s1, let s' := log (EvDrop n bs) (fst (act n bs s1)) in
     macro_into E x v s = Ok w (log (EvDrop n bs) s1) /\ boxed E def s1 w v /\ boxed E def s' w v /\
     ke_into E x act v false s = if snd (act n bs s1) then DPanic (InDrop n bs) s' else DOk w s') \/
  (no_room E def v s = true /\ let s' := log (EvDrop n bs) (fst (act n bs s)) in
     macro_into E x v s = Panicked PanicNullAlloc (log (EvDrop n bs) s) /\
     ke_into E x act v false s = if snd (act n bs s) then DAbort s' else DPanic (InCrate PanicNullAlloc) s').
Proof.
  intros E def x act v s Hs Hdr Hv Hgen n bs. destruct (own_into E def x act Hs Hdr v s Hv) as [(w & s1 & _ & P & M)|(Nr & P & M)]; [left|right; auto].
  exists w, s1. split; [exact P|].
  assert (B : boxed E def s1 w v).
  { destruct (C71_own_drop E def x (panics act) v s Hs Hdr Hv) as [(w2 & s2 & P2 & B & _)|(_ & P2 & _)]; cbv zeta in P2; rewrite P in P2; [|discriminate P2].
    apply OkI in P2. destruct P2 as [<- P2]. cbv zeta in B. rewrite <- P2 in B. eapply boxed_keeps; [apply Hs| |exact B]. intros b Hb. split; [exact Hb|reflexivity]. }
  split; [exact B|]. split; [|exact M].
  assert (K0 : kinv E def st0 s [] ka0) by (constructor; [constructor|intros [] j y z y2 z2 A; discriminate A|intros b []]).
  destruct (store_runs E def x Hs st0 s [] v 0%nat None ka0 K0 Hv) as (f & s' & m & M1 & _ & M2). unfold container_from in M1. rewrite P in M1. subst m.
  destruct (kstore def f None 0 v ka0) as [r a'] eqn:St. destruct M2 as ((z & Mz & K) & _). destruct Mz as (<- & -> & ->).
  apply (kinv_run1 E def x act Hs st0 (fun b => ksizes def (b_size b)) Hgen (covers_none def _ (fun _ H => H)) v s1) in K.
  apply ki_rel in K. unfold kstore in St. destruct (needs_block def v && f); [discriminate St|]. injection St as <-.
  inversion K as [|y1 y2 l1 l2 K1 K2]; subst. exact (proj1 K1).
Qed.

(** Looking at a box: [Drop] is run on a unit variant made up for the look, after the user's code, and on nothing else. *)
Theorem C75_look : forall E def x act s w v k S (cb : evalue -> S -> DM S) c u, macro_setup E def x -> Macro.e_drop def = true ->
  boxed E def s w v -> In (ev_variant v, k) (e_variants def) ->
  oe_ref E x act S w cb c u s =
    match k with
    | KUnit => finally (cb v c) (fun unwinding t =>
                 let t' := log (EvDrop (e_name def) []) (fst (act (e_name def) [] t)) in
                 if snd (act (e_name def) [] t) then draise (InDrop (e_name def) []) unwinding t' else DOk tt t') u s
    | _ => cb v c u s
    end.
Proof.
  intros E def x act s w v k S cb c u Hs Hdr B Hin. rewrite (look_runs E def x act Hs Hdr s w v k u cb c B Hin).
  destruct k as [|tys|ms]; [|reflexivity..]. unfold ke_at_exit, ke_enum_drop, enum_drop. rewrite (xp_name _ _ (expand_inv _ _ (ms_expand _ _ _ Hs))).
  destruct B as (i & k' & Hi & _ & H).
  pose proof (assoc_in _ _ _ (do_names _ (ms_def _ _ _ Hs)) Hin) as A1. pose proof (assoc_in _ _ _ (do_names _ (ms_def _ _ _ Hs)) (nth_error_In _ _ Hi)) as A2.
  rewrite A1 in A2. injection A2 as <-. cbn [storage] in H. rewrite H. reflexivity.
Qed.

(** A [Drop] that does nothing but panic is that of C74, and leaves everything alone. *)
Theorem C75_still : forall E x I fussy p c s, let act := fun n v s => (s, fussy s n v) in
  oe_run E x I act p c s = od_run E x I fussy p c s /\ (forall zone, gentle act zone) /\ tidy act.
Proof.
  intros E x I fussy p c s act. split; [|split; [intros zone n v t b Hb _; split; [exact Hb|reflexivity]|intros n v t; split; [apply keeps_refl|split; reflexivity]]].
  revert c s. induction p as [|o k IH]; intros c s; [reflexivity|]. cbn [oe_run od_run]. change (oe_step E x I act o c) with (od_step E x I fussy o c).
  destruct (od_step E x I fussy o c) as [m|]; [|reflexivity]. destruct (m false s) as [[r c'] s'|q s'|s'|u]; try rewrite IH; reflexivity.
Qed.

(** *** Examples *)

(** Takes a block and gives it back. *)
Definition act_scratch (bad : st -> string -> leafval -> bool) : string -> leafval -> st -> st * bool := fun n v s =>
  (St (bytes s) (blocks s) (events s ++ [EvAlloc 64 8 8; EvDealloc 64 8 8]), bad s n v).
(** Takes a block and keeps it. *)
Definition act_note (bad : st -> string -> leafval -> bool) : string -> leafval -> st -> st * bool := fun n v s =>
  match alloc (alloc_fn (bump_env dbg60)) 8 8 s with Ok _ s' => (s', bad s n v) | _ => (s, bad s n v) end.

Lemma scratch_tidy bad : tidy (act_scratch bad).
Proof.
  intros n v s. split; [intros b Hb; split; [exact Hb|reflexivity]|]. split; [reflexivity|]. cbn [act_scratch fst events]. rewrite destroyed_app. apply app_nil_r.
Qed.
Lemma note_gentle bad zone : gentle (act_note bad) zone.
Proof.
  intros n v s b0 Hb0 _. revert b0 Hb0. change (keeps s (fst (act_note bad n v s))). unfold act_note, alloc. destruct (alloc_fn (bump_env dbg60) s 8 8) as [p|] eqn:A; cbn [fst]; [|apply keeps_refl].
  eapply alloc_keeps; [exact (eo_alloc _ (ms_env _ _ _ dropping_setup))|lia|exists 3; split; [lia|reflexivity]|exact A|].
  intros y Hy. unfold undef_range. destruct (N.leb_spec p y), (N.ltb_spec y (p + 8)); cbn; try reflexivity. lia.
Qed.

(** As [C74_example], but every run of [Drop] leaves a block behind. *)
Example C75_example : let E := bump_env dbg60 in let I := pure_impls item_meaning in let act := act_note own_fussy in
  macro_setup E dropping dropping_x /\ Macro.e_drop dropping = true /\ implements harmless dropping I (fun _ => item_meaning) /\ gentle act (fun _ => True) /\
  od_follows dropping E (fun _ => item_meaning) (own_prog own_ops) ka0 /\
  exists c s, oe_run E dropping_x I act (own_prog own_ops) [] st0 = (own_seen, KDFinished c s) /\
    List.length (blocks s) = 7%nat /\ destroyed (events s) = map (od_event dropping) [v_idle; v_idle; v_busy; v_idle; v_idle; v_idle].
Proof.
  destruct C74_example as (HS & Hdr & HI & F & _). do 3 (split; [assumption|]). split; [apply note_gentle|]. split; [exact F|].
  eexists _, _. split; [vm_compute; reflexivity|]. split; vm_compute; reflexivity.
Qed.

(** A [Drop] that frees blocks that are not its own is not gentle: the value stored is then gone. *)
Example C75_needs : (exists u, oe_run (bump_env dbg60) tokens_x (pure_impls item_meaning) frees_all token_prog [] st0
     = ([KSaw KNothing; KSaw KNothing], KDUndefined u)) /\
  ~ gentle frees_all (fun b => ksizes tokens (b_size b)).
Proof.
  split; [eexists; vm_compute; reflexivity|]. intros G.
  assert (K : ksizes tokens 1) by (exists "Busy"%string, (KTuple [ty_u8]); eexists; split; [left; reflexivity|]; split; [reflexivity|]; split; [reflexivity|discriminate]).
  destruct (G "Token"%string [] (St (bytes st0) [Block 64 1 1] []) (Block 64 1 1) (or_introl eq_refl) K) as [H _]. vm_compute in H. destruct H.
Qed.

(** Frees all blocks of five bytes, which no [Token] has. *)
Definition act_sweep (bad : st -> string -> leafval -> bool) : string -> leafval -> st -> st * bool := fun n v s =>
  (St (bytes s) (filter (fun b => negb (b_size b =? 5)) (blocks s)) (events s), bad s n v).

Lemma sweep_gentle bad : gentle (act_sweep bad) (fun b => b_size b <> 5).
Proof.
  intros n v s b Hb H. split; [|reflexivity]. apply filter_In. split; [exact Hb|]. apply N.eqb_neq in H. rewrite H. reflexivity.
Qed.
Lemma sweep_covers : covers dropping st0 (fun b => b_size b <> 5).
Proof.
  apply covers_none. intros b (m & k & U & Hin & Es & Hz & _) Q. rewrite Q in Hz. cbn in Hin.
  repeat (destruct Hin as [Hin|Hin]; [injection Hin as <- <-; cbn in Es; try discriminate Es; injection Es as <-; vm_compute in Hz; discriminate Hz|]).
  destruct Hin.
Qed.

Example C75_sweep_example : exists calls seen drops a c s,
  od_goes dropping (panics (act_sweep own_fussy)) (fun _ => item_meaning) (own_prog own_ops) ka0 calls seen drops KDStop a /\
  oe_run (bump_env dbg60) dropping_x (pure_impls item_meaning) (act_sweep own_fussy) (own_prog own_ops) [] st_fives = (seen, KDFinished c s) /\
  Forall2 (kshows (bump_env dbg60) dropping_x s) c (kcells a) /\ seen = own_seen /\ map b_size (blocks st_fives) = [5; 5] /\ map b_size (blocks s) = [1].
Proof.
  destruct C75_example as (HS & Hdr & HI & _ & F & _).
  assert (R0 : exists c s, oe_run (bump_env dbg60) dropping_x (pure_impls item_meaning) (act_sweep own_fussy) (own_prog own_ops) [] st_fives = (own_seen, KDFinished c s) /\
     map b_size (blocks s) = [1]) by (eexists _, _; split; vm_compute; reflexivity).
  destruct R0 as (c0 & s0 & R0 & B0).
  destruct (C75_history _ dropping _ _ _ (act_sweep own_fussy) _ st0 _ st_fives HS Hdr (implements_weak harmless keeps _ _ _ (fun _ _ H => proj1 H) HI)
              (sweep_gentle _) sweep_covers (keeps_none _) F)
    as (calls & seen & drops & q & a & Go & [(-> & _ & c & s & R & _ & Sh)|(o & k & s1 & fail & s & _ & _ & R & _)]); rewrite R0 in R; [|discriminate R].
  injection R as <- <- <-. exists calls, own_seen, drops, a, c0, s0. split; [exact Go|]. split; [exact R0|]. split; [exact Sh|]. split; [reflexivity|].
  split; [reflexivity|exact B0].
Qed.

(** That the blocks of others be left alone is needed for them only: the same run, with the five-byte blocks as those of others. *)
Example C75_needs_others : gentle (act_sweep own_fussy) (fun b => b_size b <> 5) /\ (forall b, ksizes dropping (b_size b) -> b_size b <> 5) /\
  ~ covers dropping st_fives (fun b => b_size b <> 5) /\
  exists c s, oe_run (bump_env dbg60) dropping_x (pure_impls item_meaning) (act_sweep own_fussy) (own_prog own_ops) [] st_fives = (own_seen, KDFinished c s) /\
    ~ keeps st_fives s.
Proof.
  split; [apply sweep_gentle|]. split; [exact (proj2 sweep_covers)|]. split; [intros [C _]; exact (C _ (or_introl eq_refl) eq_refl)|].
  destruct C75_sweep_example as (calls & seen & drops & a & c & s & _ & R & _ & -> & _ & B). exists c, s. split; [exact R|].
  intros K. destruct (K _ (or_introl eq_refl)) as [H _]. apply (in_map b_size) in H. rewrite B in H. destruct H as [H|[]]. discriminate H.
Qed.

(** ** Instances: each theorem applied to a concrete case that meets its hypotheses *)

Example C75_history_example : exists calls drops a,
  od_goes dropping (panics (act_note own_fussy)) (fun _ => item_meaning) (own_prog own_ops) ka0 calls own_seen drops KDStop a.
Proof.
  destruct C75_example as (HS & Hdr & HI & G & F & c0 & s0 & R0 & _).
  destruct (C75_history _ dropping _ _ _ (act_note own_fussy) (fun _ => True) st0 _ st0 HS Hdr (implements_weak harmless keeps _ _ _ (fun _ _ H => proj1 H) HI)
              G (covers_none dropping _ (fun _ _ => Logic.I)) (keeps_none _) F)
    as (calls & seen & drops & q & a & Go & [(-> & _ & c & s & R & _)|(o & k & s1 & fail & s & _ & _ & R & _)]);
    rewrite R0 in R; [injection R as <- _ _|discriminate R].
  exists calls, drops, a. exact Go.
Qed.

Example C75_accounting_example : exists c s drops a,
  oe_run (bump_env dbg60) dropping_x (pure_impls item_meaning) (act_scratch own_fussy) (own_prog own_ops) [] st0 = (own_seen, KDFinished c s) /\
  map (fun v => concat (ev_fields v)) drops = [[]; []; [Byte 7]; []; []; []] /\ kmade a = 1%nat /\ Forall2 (kshows (bump_env dbg60) dropping_x s) c (kcells a) /\
  List.length (allocations (events s)) = 7%nat.
Proof.
  destruct C75_example as (HS & Hdr & HI & _ & F & _).
  assert (R : exists c s, oe_run (bump_env dbg60) dropping_x (pure_impls item_meaning) (act_scratch own_fussy) (own_prog own_ops) [] st0 = (own_seen, KDFinished c s) /\
    List.length (blocks s) = 1%nat /\ destroyed (events s) = map (od_event dropping) [v_idle; v_idle; v_busy; v_idle; v_idle; v_idle] /\
    List.length (allocations (events s)) = 7%nat).
  { eexists _, _. split; [vm_compute; reflexivity|]. split; [|split]; vm_compute; reflexivity. }
  destruct R as (c & s & R & Eb & Ed & Ea).
  destruct (C75_accounting _ dropping _ _ _ (act_scratch own_fussy) _ st0 c s own_seen HS Hdr HI (scratch_tidy _) F R) as (drops & a & _ & K1 & K2 & K3).
  exists c, s, drops, a. split; [exact R|]. rewrite Ed in K2. rewrite Eb in K3. cbn [st0 events destroyed app blocks List.length] in K2, K3.
  split; [|split; [symmetry; exact K3|split; [exact K1|exact Ea]]]. apply (f_equal (map snd)) in K2. rewrite !map_map in K2. symmetry. exact K2.
Qed.

Example C75_no_abort_example : exists seen c s,
  oe_run (bump_env dbg60) tokens_x (pure_impls item_meaning) (act_note (fussy_from 1)) token_prog [] st0 = (seen, KDFinished c s) /\
  seen = [KSaw KNothing; KSaw KNothing; KSaw (KSawValues [v_busy]); KSaw (KSawBool true); KSawDropPanic "Token" [Byte 7];
          KSaw (KSawValues [v_busy]); KSawDropPanic "Token" [Byte 7]].
Proof.
  assert (HI : implements harmless tokens (pure_impls item_meaning) (fun _ => item_meaning)) by (apply pure_implements; item_clones).
  destruct (C75_no_abort (bump_env dbg60) tokens tokens_x (pure_impls item_meaning) _ (act_note (fussy_from 1)) (fun _ => True) token_prog st0 tokens_setup eq_refl
              (implements_weak harmless keeps _ _ _ (fun _ _ H => proj1 H) HI) (note_gentle _ _) (fun _ _ => Logic.I) token_follows) as (seen & c & s & R).
  - intros n H. cbn in H. intuition discriminate.
  - assert (M : existsb snd (oe_calls (bump_env dbg60) tokens tokens_x (pure_impls item_meaning) (act_note (fussy_from 1)) token_prog [] st0) = false)
      by (vm_compute; reflexivity).
    intros s1 H. assert (T : exists y, In y (oe_calls (bump_env dbg60) tokens tokens_x (pure_impls item_meaning) (act_note (fussy_from 1)) token_prog [] st0) /\ snd y = true)
      by (exists (s1, true); auto). apply existsb_exists in T. rewrite M in T. discriminate T.
  - exists seen, c, s. split; [exact R|]. apply (f_equal fst) in R. cbn [fst] in R. rewrite <- R. vm_compute. reflexivity.
Qed.

(** Storing panics; the value is in its block, and so is the note. *)
Example C75_store_example : exists w s1, let s' := log (EvDrop "Token" [Byte 7]) (fst (act_note all_fussy "Token"%string [Byte 7] s1)) in
  boxed (bump_env dbg60) dropping s' w v_busy /\
  ke_into (bump_env dbg60) dropping_x (act_note all_fussy) v_busy false st0 = DPanic (InDrop "Token" [Byte 7]) s' /\ map b_size (blocks s') = [8; 1].
Proof.
  assert (V : evalue_fits (bump_env dbg60) dropping v_busy).
  { exact (proj1 C71_own_drop_example). }
  destruct (C75_store (bump_env dbg60) dropping dropping_x (act_note all_fussy) v_busy st0 dropping_setup eq_refl V (note_gentle _ _))
    as [(w & s1 & P & _ & B & M)|(Nr & _)]; [|vm_compute in Nr; discriminate Nr].
  exists w, s1. split; [exact B|].
  assert (M' : ke_into (bump_env dbg60) dropping_x (act_note all_fussy) v_busy false st0 =
    DPanic (InDrop "Token" [Byte 7]) (log (EvDrop "Token" [Byte 7]) (fst (act_note all_fussy "Token"%string [Byte 7] s1)))).
  { cbv zeta in M. rewrite M. unfold act_note. destruct (alloc (alloc_fn (bump_env dbg60)) 8 8 s1); reflexivity. }
  split; [exact M'|]. match goal with |- map b_size (blocks ?t) = _ => assert (Q : exists s2, ke_into (bump_env dbg60) dropping_x (act_note all_fussy) v_busy false st0 =
     DPanic (InDrop "Token" [Byte 7]) s2 /\ map b_size (blocks s2) = [8; 1]) by (eexists; split; vm_compute; reflexivity) end.
  destruct Q as (s2 & Q1 & Q2). rewrite M' in Q1. injection Q1 as ->. exact Q2.
Qed.

(** Looking at [Idle] leaves a note behind. *)
Example C75_look_example : exists w s, macro_into (bump_env dbg60) dropping_x v_idle st0 = Ok w s /\
  oe_ref (bump_env dbg60) dropping_x (act_note (fun _ _ _ => false)) nat w (fun _ c => dret (Datatypes.S c)) 0%nat false s =
    DOk 1%nat (log (EvDrop "Token" []) (fst (act_note (fun _ _ _ => false) "Token"%string [] s))) /\
  blocks s = [] /\ map b_size (blocks (fst (act_note (fun _ _ _ => false) "Token"%string [] s))) = [8].
Proof.
  eexists _, _. split; [vm_compute; reflexivity|]. split; [|split; vm_compute; reflexivity].
  match goal with |- oe_ref _ _ _ _ ?w _ _ _ ?s = _ => assert (H : boxed (bump_env dbg60) dropping s w v_idle) end.
  { exists 0%nat, KUnit. split; [reflexivity|]. split; vm_compute; reflexivity. }
  rewrite (C75_look (bump_env dbg60) dropping dropping_x _ _ _ v_idle KUnit nat _ _ _ dropping_setup eq_refl H (or_introl eq_refl)).
  vm_compute. reflexivity.
Qed.

Example C75_still_example : oe_run (bump_env dbg60) dropping_x (pure_impls item_meaning) (fun n v s => (s, own_fussy s n v)) (own_prog own_ops) [] st0
  = od_run (bump_env dbg60) dropping_x (pure_impls item_meaning) own_fussy (own_prog own_ops) [] st0.
Proof. exact (proj1 (C75_still (bump_env dbg60) dropping_x (pure_impls item_meaning) own_fussy (own_prog own_ops) [] st0)). Qed.

Print Assumptions C75_history.
Print Assumptions C75_accounting.
Print Assumptions C75_no_abort.
Print Assumptions C75_store.
Print Assumptions C75_look.
Print Assumptions C75_still.
