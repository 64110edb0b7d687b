(** Property C74: programs of an enum with a [Drop] impl of its own, which may panic. *)
From Coq Require Import Arith NArith String Bool List Lia.
From Verif Require Import Words Config Spec ConfigFacts Pointer PointerFacts Fmt Mem SpecMem MemFacts Box BoxFacts Bump
  Macro SpecMacro MacroFacts Session SpecSession SessionFacts Containers SpecContainers
  Props_Pointer Props_Box Props_Session Props_Macro Props_Clone Props_Containers
  DropPanics SpecDropPanics DropPanicsFacts Props_DropPanics KDropPanics SpecKDropPanics KDropPanicsFacts Props_KDropPanics
  OwnDrop SpecOwnDrop OwnDropFacts.
Import ListNotations.
Local Open Scope N_scope.

(** ** C74 An enum's own [Drop] that panics *)

Lemma od_tracks_trans def s a vs s1 a1 ws s2 a2 : od_tracks def s a vs s1 a1 -> od_tracks def s1 a1 ws s2 a2 -> od_tracks def s a (vs ++ ws) s2 a2.
Proof. intros [B1 D1] [B2 D2]. split; [lia|]. rewrite D2, D1, map_app, app_assoc. reflexivity. Qed.

Lemma od_tracks_harmless (def : edef) (R : st -> st -> Prop) s t a vs s' a' : (forall s t, R s t -> harmless s t) -> R s t \/ t = s -> od_tracks def t a vs s' a' -> od_tracks def s a vs s' a'.
Proof.
  intros Hh [H| ->]; [|auto]. destruct (Hh _ _ H) as (_ & L & D). intros [B T]. split; [lia|congruence].
Qed.

Lemma od_run_sim E def x I F R fussy : macro_setup E def x -> e_drop def = true -> implements R def I F -> (forall s s', R s s' -> keeps s s') ->
  forall p c s0 s a, kinv E def s0 s c a -> od_follows def E F p a ->
  exists calls seen drops q b, od_goes def fussy F p a calls seen drops q b /\
    ((q = KDStop /\ calls = od_calls E def x I fussy p c s /\ exists c' s', od_run E x I fussy p c s = (seen, KDFinished c' s') /\
        kinv E def s0 s' c' b /\ ((forall t t', R t t' -> harmless t t') -> od_tracks def s a drops s' b)) \/
     (exists o k s1 fail s', q = KDDo o k /\ od_calls E def x I fussy p c s = calls ++ [(s1, fail)] /\
        od_run E x I fussy p c s = (seen, KDAborted s') /\ od_may_abort def fussy (F s1) fail o b)).
Proof.
  intros Hs Hdr HI HR p. induction p as [|o k IH]; intros c s0 s a Hi Hf.
  - exists [], [], [], KDStop, a. split; [constructor|]. left. split; [reflexivity|]. split; [reflexivity|]. exists c, s. split; [reflexivity|].
    split; [exact Hi|]. intros _. split; [reflexivity|]. cbn [map]. rewrite app_nil_r. reflexivity.
  - cbn [od_follows] in Hf. destruct (Hf s) as [Hc Hf'].
    assert (Hn : kastep def (F s) false o a <> None) by (specialize (Hf' false); destruct (kastep def (F s) false o a); [discriminate|contradiction]).
    destruct (od_step_sim E def x I F R fussy Hs Hdr HI HR s0 s c a o Hi Hc Hn) as (dm & r & a' & H1 & H2 & H3 & H).
    cbn [od_run od_calls]. rewrite H1. set (fail := od_starved E def x I fussy o c s) in *.
    destruct H as [(c' & s' & M & Ki & Tr & Cm)|[(v & s' & a1 & Nf & Np & M & V & Pv & Bl & Ki & Tr)|(s2 & M & A)]].
    + specialize (Hf' fail). rewrite H2 in Hf'. destruct Hf' as [Hf' _].
      destruct (IH (KSaw r) c' s0 s' a' Ki Hf') as (calls & seen & drops & q & b & G & K).
      exists ((s, fail) :: calls), (KSaw r :: seen). eexists. exists q, b. split; [eapply ogoes_on; [exact H2|exact Cm|exact G]|].
      assert (Rn : forall e, od_run E x I fussy (k (KSaw r)) c' s' = (seen, e) ->
         (match dm false s with
          | DOk (r0, c'0) s'0 => let (l, e0) := od_run E x I fussy (k (KSaw r0)) c'0 s'0 in (KSaw r0 :: l, e0)
          | DPanic q0 s'0 => let (l, e0) := od_run E x I fussy (k (kcaught q0)) (kd_after_panic o c) s'0 in (kcaught q0 :: l, e0)
          | DAbort s'0 => ([], KDAborted s'0)
          | DUB u => ([], KDUndefined u)
          end) = (KSaw r :: seen, e)).
      { intros e Re. destruct M as [M|(pq & Er & M & Ec)]; rewrite M; [|subst r; rewrite Ec in Re; cbn [kcaught]]; rewrite Re; reflexivity. }
      assert (Cs : (match dm false s with
          | DOk (r0, c'0) s'0 => od_calls E def x I fussy (k (KSaw r0)) c'0 s'0
          | DPanic q0 s'0 => od_calls E def x I fussy (k (kcaught q0)) (kd_after_panic o c) s'0
          | DAbort _ | DUB _ => []
          end) = od_calls E def x I fussy (k (KSaw r)) c' s').
      { destruct M as [M|(pq & Er & M & Ec)]; rewrite M; [|subst r; rewrite Ec]; reflexivity. }
      rewrite Cs. destruct K as [(Eq & Ecalls & c2 & s2 & K1 & K2 & K4)|(o2 & k2 & s1 & f2 & s2 & Eq & Ecalls & K1 & K2)]; rewrite (Rn _ K1).
      * left. split; [exact Eq|]. split; [rewrite Ecalls; reflexivity|]. exists c2, s2. split; [reflexivity|]. split; [exact K2|].
        intros Hh. eapply od_tracks_trans; [eapply (od_tracks_harmless def R); [exact Hh|exact H3|exact Tr]|apply K4, Hh].
      * right. exists o2, k2, s1, f2, s2. split; [exact Eq|]. split; [rewrite Ecalls; reflexivity|]. split; [reflexivity|exact K2].
    + specialize (Hf' false). rewrite Nf in H2. rewrite H2 in Hf'. destruct Hf' as [_ Hf']. specialize (Hf' v a1 eq_refl Np V Bl).
      destruct (IH _ (kd_after_panic o c) s0 s' a1 Ki Hf') as (calls & seen & drops & q & b & G & K).
      exists ((s, fail) :: calls). eexists. eexists. exists q, b. split; [rewrite Nf; eapply ogoes_blown; [exact H2|exact Np|exact V|exact Pv|exact Bl|exact G]|].
      rewrite M. cbn [kcaught].
      destruct K as [(Eq & Ecalls & c2 & s2 & K1 & K2 & K4)|(o2 & k2 & s1 & f2 & s2 & Eq & Ecalls & K1 & K2)]; rewrite K1.
      * left. split; [exact Eq|]. split; [rewrite Ecalls; reflexivity|]. exists c2, s2. split; [reflexivity|]. split; [exact K2|].
        intros Hh. eapply od_tracks_trans; [eapply (od_tracks_harmless def R); [exact Hh|exact H3|exact Tr]|apply K4, Hh].
      * right. exists o2, k2, s1, f2, s2. split; [exact Eq|]. split; [rewrite Ecalls; reflexivity|]. split; [reflexivity|exact K2].
    + rewrite M. exists [], [], [], (KDDo o k), a. split; [constructor|]. right. exists o, k, s, fail, s2. auto.
Qed.

(** Whatever an enum's own [Drop] does with panics, a program that keeps the contracts of the generated code never runs into undefined
    behaviour. It sees what the program on plain values sees; every container holds the value that program has there, and other memory is
    not touched. A call in which [Drop] panics has still done its work, but for a container being made, which is lost. The program is
    aborted only in a call that runs a [Drop] that may panic together with another one, with a panic of the user's impls or without memory. *)
Theorem C74_history : forall E def x I F fussy p s, macro_setup E def x -> e_drop def = true -> implements keeps def I F ->
  od_follows def E F p ka0 ->
  exists calls seen drops q a, od_goes def fussy F p ka0 calls seen drops q a /\
    ((q = KDStop /\ calls = od_calls E def x I fussy p [] s /\ exists c s', od_run E x I fussy p [] s = (seen, KDFinished c s') /\
        keeps s s' /\ Forall2 (kshows E x s') c (kcells a)) \/
     (exists o k s1 fail s', q = KDDo o k /\ od_calls E def x I fussy p [] s = calls ++ [(s1, fail)] /\
        od_run E x I fussy p [] s = (seen, KDAborted s') /\ od_may_abort def fussy (F s1) fail o a)).
Proof.
  intros E def x I F fussy p s Hs Hdr HI Hf.
  destruct (od_run_sim E def x I F keeps fussy Hs Hdr HI (fun _ _ H => H) p [] s s ka0 (kinv0 E def s) Hf) as (calls & seen & drops & q & a & G & K).
  exists calls, seen, drops, q, a. split; [exact G|]. destruct K as [(Eq & Ec & c & s' & K1 & K2 & _)|K]; [left|right; exact K].
  split; [exact Eq|]. split; [exact Ec|]. exists c, s'. split; [exact K1|]. split; [exact (ki_base _ _ _ _ _ _ K2)|].
  eapply Forall2_weak; [|exact (ki_rel _ _ _ _ _ _ K2)]. intros [w|v|] [id loc v'|id v'|]; cbn [krel kshows]; try tauto.
  intros (B & _). apply (boxed_into_inner E def x (ms_def _ _ _ Hs) (ms_expand _ _ _ Hs) (setup_u8 _ _ _ Hs) s' w v' B).
Qed.

(** When the user's other impls keep no block and destroy nothing: the values on which [Drop] was run, in order, are those of the program
    on plain values, despite the panics, and no other destructor is run. So is the number of heap blocks. *)
Theorem C74_accounting : forall E def x I F fussy p s c s' seen, macro_setup E def x -> e_drop def = true -> implements harmless def I F ->
  od_follows def E F p ka0 -> od_run E x I fussy p [] s = (seen, KDFinished c s') ->
  exists drops a, od_goes def fussy F p ka0 (od_calls E def x I fussy p [] s) seen drops KDStop a /\
    Forall2 (kshows E x s') c (kcells a) /\
    destroyed (events s') = destroyed (events s) ++ map (fun v => (e_name def, concat (ev_fields v))) drops /\
    List.length (blocks s') = (List.length (blocks s) + kmade a)%nat.
Proof.
  intros E def x I F fussy p s c s' seen Hs Hdr HI Hf Hr.
  destruct (od_run_sim E def x I F harmless fussy Hs Hdr HI (fun _ _ H => proj1 H) p [] s s ka0 (kinv0 E def s) Hf) as (calls & seen' & drops & q & a & G & K).
  destruct K as [(Eq & Ec & c' & s2 & K1 & K2 & K4)|(o & k & s1 & fail & s2 & _ & _ & K1 & _)]; rewrite Hr in K1; [|discriminate K1].
  injection K1 as <- <- <-. subst q calls. exists drops, a. split; [exact G|]. split.
  - eapply Forall2_weak; [|exact (ki_rel _ _ _ _ _ _ K2)]. intros [w|v|] [id loc v'|id v'|]; cbn [krel kshows]; try tauto.
    intros (B & _). apply (boxed_into_inner E def x (ms_def _ _ _ Hs) (ms_expand _ _ _ Hs) (setup_u8 _ _ _ Hs) s' w v' B).
  - destruct (K4 (fun _ _ H => H)) as [B T]. cbn [ka0 kmade] in B. split; [exact T|lia].
Qed.

(** Without unit variants and with memory for every call, no panic of [Drop] ends the program. *)
Theorem C74_no_abort : forall E def x I F fussy p s, macro_setup E def x -> e_drop def = true -> implements keeps def I F ->
  od_follows def E F p ka0 -> (forall n, ~ In (n, KUnit) (e_variants def)) -> (forall s1, ~ In (s1, true) (od_calls E def x I fussy p [] s)) ->
  exists seen c s', od_run E x I fussy p [] s = (seen, KDFinished c s').
Proof.
  intros E def x I F fussy p s Hs Hdr HI Hf Hu Hm.
  destruct (C74_history E def x I F fussy p s Hs Hdr HI Hf)
    as (calls & seen & drops & q & a & _ & [(_ & _ & c & s' & K & _)|(o & k & s1 & fail & s' & _ & Ec & _ & (v & Hv & _) & A)]); [eauto|exfalso].
  assert (Fa : forall v, fades def v = []).
  { intros w. unfold fades. destruct (assoc (ev_variant w) (e_variants def)) as [[]|] eqn:As; try reflexivity. destruct (Hu _ (assoc_some _ _ _ As)). }
  assert (fail = false) as -> by (destruct fail; [|reflexivity]; destruct (Hm s1); rewrite Ec; apply in_or_app; right; left; reflexivity).
  assert (Nk : forall i id w b p a', kstore def false i id w b <> (KSawPanic p, a')) by (intros *; unfold kstore; rewrite andb_false_r; discriminate).
  destruct o; cbn [od_drops] in *; rewrite ?Fa in *; try (destruct Hv);
    repeat match type of Hv with context [nth_error ?l ?i] => destruct (nth_error l i) as [[]|] eqn:?; rewrite ?Fa in * end; try (destruct Hv; fail);
    destruct A as [A|(pp & a' & A)]; cbn [List.length app] in *; try lia; cbn [kastep] in A.
  all: try (rewrite Heqo in A; injection A as A; eapply Nk, A).
  all: try (rewrite Heqo in A; discriminate A).
  all: try (destruct (payload_variant def src); [cbn in A; lia || (injection A as A; eapply Nk, A)|destruct Hv]).
  all: try (destruct (m_clone (F s1) v0) eqn:Mc; [|destruct Hv]; first [cbn in A; lia | rewrite Heqo, Mc in A; injection A as A; eapply Nk, A]).
Qed.

(** *** A [Drop] that does not panic *)

Section Calm.
Variables (E : env) (x : expansion) (I : impls) (fussy : st -> string -> leafval -> bool).
Hypothesis Q : forall s n v, fussy s n v = false.

Lemma calm_exit {A} b v (dm : DM A) (m : M A) s : dm false s = plainly m false s ->
  d_at_exit x fussy b v dm false s = plainly (at_exit b (enum_drop x v) m) false s.
Proof.
  intros H. unfold d_at_exit, at_exit, plainly in *. destruct b; [|exact H]. unfold finally. rewrite H.
  destruct (m s) as [a t|p t|u]; [| |reflexivity]; unfold d_enum_drop, dbind, dret; rewrite Q; reflexivity.
Qed.

Lemma calm_disc {A} d arms (dbody : read_arm -> DM A) (body : read_arm -> M A) ddef def s :
  (forall a, dbody a false s = plainly (body a) false s) -> ddef false s = plainly def false s ->
  d_match_disc x d arms dbody ddef false s = plainly (match_disc x d arms body def) false s.
Proof.
  intros H1 H2. induction arms as [|a arms IH]; cbn [d_match_disc match_disc]; [exact H2|].
  apply calm_resolved. intros tag. destruct (d =? tag); [apply H1|exact IH].
Qed.

Lemma calm_read {A} (m : M evalue) (df : evalue -> DM A) (f : evalue -> M A) s : (forall v s, df v false s = plainly (f v) false s) ->
  dbind (plainly m) df false s = plainly (bind m f) false s.
Proof. intros H. unfold dbind, plainly, bind in *. destruct (m s) as [v t|p t|u]; [apply H|reflexivity..]. Qed.

Lemma calm_ref {S} w (dcb : evalue -> S -> DM S) (cb : evalue -> S -> M S) c s : (forall v s, dcb v c false s = plainly (cb v c) false s) ->
  d_ref E x fussy S w dcb c false s = plainly (macro_ref E x S w cb c) false s.
Proof.
  intros H. apply calm_disc; [|reflexivity]. intros a. apply calm_read. intros v t. apply calm_exit, H.
Qed.

Lemma calm_two {S} a b (f : evalue -> evalue -> M S) c s :
  od_two E x fussy a b f c false s =
    plainly (macro_ref E x S a (fun this r => macro_ref E x S b (fun other _ => f this other) r) c) false s.
Proof. apply calm_ref. intros v t. apply calm_ref. intros w t'. reflexivity. Qed.

Lemma calm_bind {A B} (dm : DM A) (m : M A) (df : A -> DM B) (f : A -> M B) s : dm false s = plainly m false s ->
  (forall a t, df a false t = plainly (f a) false t) -> dbind dm df false s = plainly (bind m f) false s.
Proof. intros H1 H2. unfold dbind. rewrite H1. unfold plainly, bind in *. destruct (m s) as [v t|p t|u]; [apply H2|reflexivity..]. Qed.

Lemma calm_clone w s : od_clone E x I fussy w false s = plainly (tb_clone (macro_taggable E x) (i_clone I) w) false s.
Proof.
  set (look := macro_ref E x (option evalue) w (fun this _ => bind (i_clone I this) (fun c => ret (Some c))) None).
  assert (L : dbind (od_clone_look E x I fussy w) (fun c => dret (Some c)) false s = plainly look false s).
  { unfold look, od_clone_look, macro_ref. generalize (x_ref x). intros arms. induction arms as [|a arms IH]; [reflexivity|].
    cbn [d_match_disc match_disc]. destruct (eval_tag x (ra_tag a)) as [tag|]; [|reflexivity]. cbn [resolved].
    match goal with |- dbind (dbind (plainly (ret tag)) ?k) ?g false s = plainly (bind (ret tag) ?h) false s =>
      change (dbind (k tag) g false s = plainly (h tag) false s) end. cbv beta.
    destruct (tb_discriminant E w =? tag); [|exact IH]. clear IH.
    unfold dbind, bind. unfold plainly at 1 2. destruct (run_build E x _ (ra_variant a) (ra_build a) s) as [v t|p t|u]; [|reflexivity..].
    unfold od_clone_arm, at_exit. destruct (x_drop x && negb (ra_guarded a)).
    - destruct (i_clone I v t) as [c s1|p s1|u] eqn:Ic.
      + unfold on_panic, d_at_exit, finally, dret, dbind, d_enum_drop. rewrite Q. reflexivity.
      + unfold d_at_exit, finally, plainly. rewrite Ic. unfold d_enum_drop. rewrite Q. reflexivity.
      + unfold d_at_exit, finally, plainly. rewrite Ic. reflexivity.
    - destruct (i_clone I v t) as [c s1|p s1|u] eqn:Ic; [reflexivity|unfold d_at_exit, plainly; rewrite Ic; reflexivity..]. }
  unfold od_clone, tb_clone. cbn [ref_from_tagged_box macro_taggable into_tagged_box]. fold look. unfold plainly, bind. unfold dbind. unfold plainly, dbind in L.
  destruct (od_clone_look E x I fussy w false s) as [c t|p t|t|u], (look s) as [[c'|] t'|p' t'|u']; try discriminate L.
  - injection L as <- <-. apply calm_into, Q.
  - injection L as -> ->. reflexivity.
  - injection L as ->. reflexivity.
Qed.

(** Then nothing is different from [Containers.v]. *)
Lemma calm_run p : forall c s, od_run E x I fussy p c s =
    (map KSaw (fst (krun E x I (kwithout_panics p) c s)),
     match snd (krun E x I (kwithout_panics p) c s) with
     | KFinished c' s' => KDFinished c' s'
     | KUndefined u => KDUndefined u
     | KDoesNotCompile => KDDoesNotCompile
     end).
Proof.
  assert (S : forall o c s, match od_step E x I fussy o c, kstep E x I o c with
              | Some dm, Some m => dm false s = plainly m false s /\ forall q s', m s = Panicked q s' -> kd_after_panic o c = kafter_panic o c
              | None, None => True | _, _ => False end).
  { intros o c s.
    assert (B1 : forall A C (dm : DM A) (m : M A) (f : A -> C), dm false s = plainly m false s ->
                dbind dm (fun a => dret (f a)) false s = plainly (bind m (fun a => ret (f a))) false s).
    { intros A C dm m f H. apply calm_bind; [exact H|reflexivity]. }
    assert (B2 : forall A (dm : DM A) (m : M A) (f : A -> kobs), dm false s = plainly m false s ->
                dbind (dbind dm (fun a => dret (f a))) (fun r => dret (r, c)) false s = plainly (bind m (fun a => ret (f a, c))) false s).
    { intros A dm m f H. unfold dbind at 1 2. rewrite H. unfold plainly, bind. destruct (m s); reflexivity. }
    destruct o as [v|i|src vals|i|i|i j|i j|i j|i o out|i o out|i o out|i|i|i n f|i n val|i|i|i|i];
      try (cbn [od_step]; match goal with |- context [option_map plainly ?y] => destruct y end; [split; reflexivity|exact Logic.I]);
      cbn [od_step kstep].
    - destruct (nth_error c i) as [[w|v|]|]; try exact Logic.I. split; [|reflexivity].
      apply (B1 _ _ _ (container_from E x v) (fun w => (KNothing, put i (KBox w) c))). apply calm_into, Q.
    - destruct (find _ (x_froms x)) as [f|]; [|exact Logic.I]. split; [|reflexivity].
      apply (B1 _ _ _ (container_from_payload E x f vals) (fun w => (KNothing, c ++ [KBox w]))).
      destruct f as [t v|ts v idx]; cbn [d_from_payload container_from_payload]; [apply calm_into, Q|].
      apply calm_resolved. intros vs. apply calm_into, Q.
    - destruct (nth_error c i) as [[w|v|]|]; try exact Logic.I. split; [|reflexivity].
      apply (B1 _ _ _ (tb_clone (macro_taggable E x) (i_clone I) w) (fun w' => (KNothing, c ++ [KBox w']))). apply calm_clone.
    - destruct (nth_error c i) as [[w|v|]|], (nth_error c j) as [[w'|v'|]|]; try exact Logic.I. split; [|reflexivity]. apply B2, calm_two.
    - destruct (nth_error c i) as [[w|v|]|], (nth_error c j) as [[w'|v'|]|]; try exact Logic.I. split; [|reflexivity]. apply B2, calm_two.
    - destruct (nth_error c i) as [[w|v|]|], (nth_error c j) as [[w'|v'|]|]; try exact Logic.I. split; [|reflexivity]. apply B2, calm_two.
    - destruct (nth_error c i) as [[w|v|]|]; try exact Logic.I. split; [|reflexivity].
      unfold container_debug, tb_debug. cbn [ref_from_tagged_box macro_taggable].
      assert (L : od_one E x fussy w (fun this r => i_debug I default_opts this (fst r)) (EmptyString, true) false s =
                  plainly (macro_ref E x _ w (fun this r => i_debug I default_opts this (fst r)) (EmptyString, true)) false s)
        by (apply calm_ref; intros v t; reflexivity).
      unfold dbind at 1 2. rewrite L. unfold plainly. unfold bind at 1 2. destruct (macro_ref E x _ w _ (EmptyString, true) s) as [r t|pp t|u]; [|reflexivity..].
      destruct (derived_debug o (x_container x) "value" r) as [text ok]. reflexivity.
    - destruct (nth_error c i) as [[w|v|]|]; try exact Logic.I. split; [|reflexivity]. apply B2. apply calm_ref. intros v t. reflexivity.
    - destruct (nth_error c i) as [[w|v|]|]; try exact Logic.I. split; [|reflexivity]. apply B2. apply calm_ref. intros v t. reflexivity.
    - destruct (nth_error c i) as [[w|v|]|]; try exact Logic.I. split; [|reflexivity]. apply B2. apply calm_ref. intros v t. reflexivity.
    - destruct (nth_error c i) as [[w|v|]|]; try exact Logic.I. split; [|intros q s' X; discriminate X].
      apply (B1 _ _ _ (drop_evalue x v) (fun _ => (KNothing, put i KGone c))). unfold d_drop_evalue, drop_evalue, plainly.
      destruct (x_drop x); [|cbn [app]; apply calm_fields, Q]. unfold finally, d_enum_drop. rewrite Q. unfold dbind, dret.
      rewrite (calm_fields fussy Q). unfold log. cbn [bytes blocks events app]. rewrite <- app_assoc. reflexivity. }
  induction p as [|o k IH]; intros c s; cbn [od_run kwithout_panics krun]; [reflexivity|].
  specialize (S o c s). destruct (od_step E x I fussy o c) as [dm|], (kstep E x I o c) as [m|]; try contradiction; [|reflexivity].
  destruct S as [S1 S2]. rewrite S1. unfold plainly. destruct (m s) as [[r c'] s'|q s'|u]; [| |reflexivity].
  - rewrite IH. destruct (krun E x I (kwithout_panics (k (KSaw r))) c' s') as [l e]. reflexivity.
  - rewrite (S2 q s' eq_refl). cbn [kcaught]. rewrite IH.
    destruct (krun E x I (kwithout_panics (k (KSaw (KSawPanic q)))) (kafter_panic o c) s') as [l e]. reflexivity.
Qed.

End Calm.

(** With a [Drop] that never panics, programs do what they do in [Containers.v]. *)
Theorem C74_calm : forall E x I fussy p c s, (forall s n v, fussy s n v = false) ->
  od_run E x I fussy p c s =
    (map KSaw (fst (krun E x I (kwithout_panics p) c s)),
     match snd (krun E x I (kwithout_panics p) c s) with
     | KFinished c' s' => KDFinished c' s'
     | KUndefined u => KDUndefined u
     | KDoesNotCompile => KDDoesNotCompile
     end).
Proof. intros E x I fussy p c s Q. apply calm_run, Q. Qed.

(** *** Examples *)

Definition v_idle : evalue := EV "Idle" [].
Definition v_busy : evalue := EV "Busy" [[Byte 7]].
(** Panics from its [n]th run on. *)
Definition fussy_from (n : nat) : st -> string -> leafval -> bool := fun s _ _ => (n <=? List.length (destroyed (events s)))%nat.
Definition own_prog (l : list kop) : kdprog :=
  KDDo (KNew v_idle) (fun _ => KDDo (KFrom 0) (fun r => match r with KSaw KNothing => kd_go l | _ => KDStop end)).
Definition own_ops : list kop := [KView 0; KNew v_busy; KFrom 1; KClone 0; KIntoInner 0; KDropVal 0].

Lemma own_values : evalue_ok dropping v_idle /\ evalue_ok dropping v_busy.
Proof. split; eexists; (split; [cbn; tauto|]); repeat constructor. Qed.

Ltac own_step := let t := fresh in let f := fresh in
  intros t; split; [first [exact (proj1 own_values)|exact (proj2 own_values)|kcontract_ok]|intros []; cbn; (split; [|
    let v := fresh in let b := fresh in let Q1 := fresh in let Q2 := fresh in
    intros v b _ _ Q1 Q2; cbn in Q1, Q2; repeat match goal with H : _ \/ _ |- _ => destruct H as [H|H] | H : False |- _ => destruct H end; subst; unfold kset; cbn])].

Lemma own_follows : od_follows dropping (bump_env dbg60) (fun _ => item_meaning) (own_prog own_ops) ka0.
Proof. repeat first [exact Logic.I | own_step]. Qed.

(** [Drop] is run on [Idle] when it is stored, when it is looked at, when it is cloned and when the value taken out goes. *)
Example C74_example : let E := bump_env dbg60 in let I := pure_impls item_meaning in
  macro_setup E dropping dropping_x /\ e_drop dropping = true /\ implements harmless dropping I (fun _ => item_meaning) /\
  od_follows dropping E (fun _ => item_meaning) (own_prog own_ops) ka0 /\
  (exists l c s, od_run E dropping_x I (fun s n v => fussy_from 1 s n v && negb (fussy_from 3 s n v)) (own_prog own_ops) [] st0 = (l, KDFinished c s) /\
    l = [KSaw KNothing; KSaw KNothing; KSawDropPanic "Token" []; KSaw KNothing; KSawDropPanic "Token" [Byte 7]; KSaw KNothing;
         KSaw (KSawValues [v_idle]); KSaw KNothing] /\
    List.length (blocks s) = 1%nat /\ destroyed (events s) = map (od_event dropping) [v_idle; v_idle; v_busy; v_idle; v_idle; v_idle]).
Proof.
  split; [apply dropping_setup|]. split; [reflexivity|]. split; [apply pure_implements; item_clones|]. split; [exact own_follows|].
  eexists _, _, _. split; [vm_compute; reflexivity|]. split; [|split]; vm_compute; reflexivity.
Qed.

(** Comparing a unit variant with itself runs [Drop] twice; if both panic, the program is aborted. *)
Example C74_abort_example : let I := pure_impls item_meaning in
  (exists s, od_run (bump_env dbg60) dropping_x I (fussy_from 1) (own_prog [KEq 0 0]) [] st0 = ([KSaw KNothing; KSaw KNothing], KDAborted s) /\
     destroyed (events s) = map (od_event dropping) [v_idle; v_idle; v_idle]) /\
  od_may_abort dropping (fussy_from 1) item_meaning false (KEq 0 0) (KAState [KABox 0 0 v_idle] 1 [] 0 1).
Proof.
  split; [eexists; split; [vm_compute; reflexivity|vm_compute; reflexivity]|]. split.
  - exists v_idle. split; [left; reflexivity|]. exists (log (EvDrop "Token" []) st0). reflexivity.
  - left. cbn. lia.
Qed.

(** An enum with a [Drop] impl and no unit variants. *)
Definition tokens : edef := Edef "Container" "Token" 1 true false [("Busy", KTuple [ty_u8]); ("Spent", KTuple [])]%string.
Definition tokens_x : expansion := match expand tokens with Some x => x | None => item_x end.

Lemma tokens_setup : macro_setup (bump_env dbg60) tokens tokens_x.
Proof.
  constructor; try reflexivity.
  - apply bump_env_ok, example_targets_ok.
  - constructor.
    + discriminate.
    + repeat constructor; cbn; intuition discriminate.
    + intros v ms H. cbn in H. intuition discriminate.
    + intros v tys H. cbn in H. intuition try discriminate;
      match goal with H : (_, KTuple _) = _ |- _ => injection H as <- <-; cbn; lia end.
    + cbn. constructor; [apply wf_u8|constructor].
    + exists 0. split; [lia|reflexivity].
    + cbn. repeat constructor.
    + discriminate.
    + cbn. repeat constructor.
    + cbn. repeat constructor; cbn; intuition discriminate.
Qed.

(** Storing panics, and the value is lost in its block. *)
Definition token_prog : kdprog :=
  KDDo (KNew v_busy) (fun _ => KDDo (KFrom 0) (fun r =>
    match r with KSaw KNothing => kd_go [KView 0; KEq 0 0; KClone 0; KIntoInner 0; KDropVal 0] | _ => KDStop end)).

Lemma token_follows : od_follows tokens (bump_env dbg60) (fun _ => item_meaning) token_prog ka0.
Proof.
  assert (V : evalue_ok tokens v_busy) by (eexists; split; [cbn; tauto|]; repeat constructor).
  intros t. split; [exact V|]. intros f. cbn. split; [|intros v b _ _ []]. repeat first [exact Logic.I | own_step].
Qed.

Example C74_no_abort_example : exists seen c s,
  od_run (bump_env dbg60) tokens_x (pure_impls item_meaning) (fussy_from 1) token_prog [] st0 = (seen, KDFinished c s) /\
  seen = [KSaw KNothing; KSaw KNothing; KSaw (KSawValues [v_busy]); KSaw (KSawBool true); KSawDropPanic "Token" [Byte 7];
          KSaw (KSawValues [v_busy]); KSawDropPanic "Token" [Byte 7]].
Proof.
  assert (HI : implements harmless tokens (pure_impls item_meaning) (fun _ => item_meaning)) by (apply pure_implements; item_clones).
  destruct (C74_no_abort (bump_env dbg60) tokens tokens_x (pure_impls item_meaning) _ (fussy_from 1) token_prog st0 tokens_setup eq_refl
              (implements_weak harmless keeps _ _ _ (fun _ _ H => proj1 H) HI) token_follows) as (seen & c & s & R).
  - intros n H. cbn in H. intuition discriminate.
  - assert (M : existsb snd (od_calls (bump_env dbg60) tokens tokens_x (pure_impls item_meaning) (fussy_from 1) token_prog [] st0) = false)
      by (vm_compute; reflexivity).
    intros s1 H. assert (T : exists y, In y (od_calls (bump_env dbg60) tokens tokens_x (pure_impls item_meaning) (fussy_from 1) token_prog [] st0) /\ snd y = true)
      by (exists (s1, true); auto). apply existsb_exists in T. rewrite M in T. discriminate T.
  - exists seen, c, s. split; [exact R|]. apply (f_equal fst) in R. cbn [fst] in R. rewrite <- R. vm_compute. reflexivity.
Qed.

(** ** Instances: each theorem applied to a concrete case that meets its hypotheses *)

Definition own_fussy : st -> string -> leafval -> bool := fun s n v => fussy_from 1 s n v && negb (fussy_from 3 s n v).
Definition own_seen : list kdobs :=
  [KSaw KNothing; KSaw KNothing; KSawDropPanic "Token" []; KSaw KNothing; KSawDropPanic "Token" [Byte 7]; KSaw KNothing;
   KSaw (KSawValues [v_idle]); KSaw KNothing].

Example C74_history_example : exists calls drops a,
  od_goes dropping own_fussy (fun _ => item_meaning) (own_prog own_ops) ka0 calls own_seen drops KDStop a.
Proof.
  destruct C74_example as (HS & Hdr & HI & F & l & c0 & s0 & R0 & El & _).
  destruct (C74_history _ dropping _ _ _ own_fussy _ st0 HS Hdr (implements_weak harmless keeps _ _ _ (fun _ _ H => proj1 H) HI) F)
    as (calls & seen & drops & q & a & G & [(-> & _ & c & s & R & _)|(o & k & s1 & fail & s & _ & _ & R & _)]);
    unfold own_fussy in R; rewrite R0 in R; [injection R as <- _ _|discriminate R].
  subst l. exists calls, drops, a. exact G.
Qed.

Example C74_accounting_example : exists c s drops a,
  od_run (bump_env dbg60) dropping_x (pure_impls item_meaning) own_fussy (own_prog own_ops) [] st0 = (own_seen, KDFinished c s) /\
  map (fun v => concat (ev_fields v)) drops = [[]; []; [Byte 7]; []; []; []] /\ kmade a = 1%nat /\ Forall2 (kshows (bump_env dbg60) dropping_x s) c (kcells a).
Proof.
  destruct C74_example as (HS & Hdr & HI & F & l & c & s & R & El & Eb & Ed). subst l.
  destruct (C74_accounting _ dropping _ _ _ own_fussy _ st0 c s own_seen HS Hdr HI F R) as (drops & a & _ & K1 & K2 & K3).
  exists c, s, drops, a. split; [exact R|]. rewrite Ed in K2. rewrite Eb in K3. cbn [st0 events destroyed app blocks List.length] in K2, K3.
  split; [|split; [symmetry; exact K3|exact K1]]. apply (f_equal (map snd)) in K2. rewrite !map_map in K2. symmetry. exact K2.
Qed.

Example C74_calm_example : fst (od_run (bump_env dbg60) dropping_x (pure_impls item_meaning) (fun _ _ _ => false) (own_prog own_ops) [] st0) =
  map KSaw [KNothing; KNothing; KSawValues [v_idle]; KNothing; KNothing; KNothing; KSawValues [v_idle]; KNothing].
Proof. rewrite C74_calm by reflexivity. vm_compute. reflexivity. Qed.

Print Assumptions C74_history.
Print Assumptions C74_accounting.
Print Assumptions C74_no_abort.
Print Assumptions C74_calm.
