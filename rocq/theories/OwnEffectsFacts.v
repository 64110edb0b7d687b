(** Proofs about programs of an enum with a [Drop] impl that does things. *)
From Coq Require Import Arith NArith String Bool List Lia.
From Verif Require Import Words Config Spec ConfigFacts Pointer PointerFacts Fmt Mem SpecMem MemFacts Box BoxFacts
  Macro SpecMacro MacroFacts Session SpecSession SessionFacts Containers SpecContainers Props_Box Props_Macro Props_Layout Props_Clone Props_Containers
  DropPanics SpecDropPanics DropPanicsFacts KDropPanics SpecKDropPanics KDropPanicsFacts Props_KDropPanics OwnDrop SpecOwnDrop OwnDropFacts
  Destructors SpecDestructors KDestructors SpecKDestructors KDestructorsFacts Props_KDestructors OwnEffects SpecOwnEffects.
Import ListNotations.
Local Open Scope N_scope.

Section Facts.
Variables (E : env) (def : edef) (x : expansion) (I : impls) (F : st -> meaning) (R : st -> st -> Prop)
  (act : string -> leafval -> st -> st * bool).
Hypothesis Hs : macro_setup E def x.
Hypothesis Hdr : Macro.e_drop def = true.
Hypothesis HI : implements R def I F.
Hypothesis HR : forall s t, R s t -> keeps s t.
Variables (s0 : st) (zone : block -> Prop).
Hypothesis Hgen : gentle act zone.
Hypothesis Hzone : covers def s0 zone.

Let Hd : def_ok def := ms_def _ _ _ Hs.
Let Hx : expand def = Some x := ms_expand _ _ _ Hs.
Let X := expand_inv _ _ Hx.

Let fussy := panics act.

Definition run1 (s : st) (v : evalue) : st :=
  log (EvDrop (e_name def) (concat (ev_fields v))) (fst (act (e_name def) (concat (ev_fields v)) s)).
Definition runs (vs : list evalue) (s : st) : st := fold_left run1 vs s.
Definition calm (vs : list evalue) : Prop := forall v, In v vs -> may_not def fussy v.
Definition risky (vs : list evalue) : Prop := exists v, In v vs /\ may_panic def fussy v.

Lemma runs_app vs v s : runs (vs ++ [v]) s = run1 (runs vs s) v.
Proof. unfold runs. rewrite fold_left_app. reflexivity. Qed.
Lemma runs_nil s : runs [] s = s.
Proof. reflexivity. Qed.
Lemma run1_spares v s c : kspares E def s0 c None s (run1 s v).
Proof.
  split.
  - intros i y p n al _ Hp Hb. destruct (Hgen (e_name def) (concat (ev_fields v)) s _ Hb (proj2 Hzone (Block p n al) (kits_sizes _ _ _ _ _ Hp))) as [G1 G2]. split; [exact G1|intros _; exact G2].
  - intros b H0 Hb. exact (Hgen (e_name def) (concat (ev_fields v)) s b Hb (proj1 Hzone b H0)).
Qed.
Lemma kinv_run1 v s c a : kinv E def s0 (log (EvDrop (e_name def) (concat (ev_fields v))) s) c a -> kinv E def s0 (run1 s v) c a.
Proof. intros H. apply (kinv_all E def x s0 Hs _ _ c a H). exact (run1_spares v s c). Qed.
Lemma kinv_runs vs : forall s c a, kinv E def s0 s c a -> kinv E def s0 (runs vs s) c a.
Proof.
  induction vs as [|v vs IH]; intros s c a H; [exact H|]. apply IH, kinv_run1.
  apply (kinv_keeps E def x Hs s0 s _ c a a H); [intros b Hb; split; [exact Hb|reflexivity]|reflexivity|reflexivity].
Qed.
Lemma runs_events vs : tidy act -> forall s, destroyed (events (runs vs s)) = destroyed (events s) ++ map (od_event def) vs.
Proof.
  intros Ti. induction vs as [|v vs IH]; intros s; [cbn; rewrite app_nil_r; reflexivity|].
  change (runs (v :: vs) s) with (runs vs (run1 s v)). rewrite IH. unfold run1. cbn [log events]. rewrite destroyed_app.
  destruct (Ti (e_name def) (concat (ev_fields v)) s) as (_ & _ & D). rewrite D, <- app_assoc. reflexivity.
Qed.
Lemma runs_blocks vs : tidy act -> forall s, List.length (blocks (runs vs s)) = List.length (blocks s).
Proof.
  intros Ti. induction vs as [|v vs IH]; intros s; [reflexivity|]. change (runs (v :: vs) s) with (runs vs (run1 s v)). rewrite IH.
  unfold run1. cbn [log blocks]. apply (Ti (e_name def) (concat (ev_fields v)) s).
Qed.
Lemma runs_runs vs ws s : runs ws (runs vs s) = runs (vs ++ ws) s.
Proof. unfold runs. rewrite fold_left_app. reflexivity. Qed.

(** How code ends that would have ended with [r] in state [t] but for the [Drop]s of [vs] run after it. *)
Definition settles {A} (vs : list evalue) (r : outcome A) (t : st) (d : dres A) : Prop :=
  match r with
  | Done b => (d = DOk b (runs vs t) /\ calm vs) \/
      (exists v, In v vs /\ may_panic def fussy v /\ d = DPanic (InDrop (e_name def) (concat (ev_fields v))) (runs vs t)) \/
      (exists s2, d = DAbort s2 /\ risky vs /\ (2 <= List.length vs)%nat)
  | Panics p => (d = DPanic (InCrate p) (runs vs t) /\ calm vs) \/ (exists s2, d = DAbort s2 /\ risky vs)
  end.

Lemma calm_app vs v : calm vs -> may_not def fussy v -> calm (vs ++ [v]).
Proof. intros H1 H2 u Hu. apply in_app_or in Hu as [Hu|[<-|[]]]; auto. Qed.
Lemma risky_l vs ws : risky vs -> risky (vs ++ ws).
Proof. intros (v & H1 & H2). exists v. split; [apply in_or_app; auto|exact H2]. Qed.
Lemma risky_r vs v : may_panic def fussy v -> risky (vs ++ [v]).
Proof. intros H. exists v. split; [apply in_or_app; right; left; reflexivity|exact H]. Qed.

Lemma settles_finally {A} vs (r : outcome A) t (m : DM A) v s : settles vs r t (m false s) ->
  settles (vs ++ [v]) r t (finally m (fun unwinding t =>
     let t' := run1 t v in
     if snd (act (e_name def) (concat (ev_fields v)) t) then draise (InDrop (e_name def) (concat (ev_fields v))) unwinding t' else DOk tt t') false s).
Proof.
  intros H. destruct r as [b|p]; cbn [settles] in H |- *; unfold finally.
  - destruct H as [[-> C]|[(u & Hu & Pu & ->)|(s2 & -> & Ri & Le)]].
    + unfold dbind, draise, dret. rewrite runs_app. destruct (snd (act (e_name def) (concat (ev_fields v)) (runs vs t))) eqn:Fu.
      * right; left. exists v. split; [apply in_or_app; right; left; reflexivity|]. split; [eexists; exact Fu|reflexivity].
      * left. split; [reflexivity|]. apply calm_app; [exact C|eexists; exact Fu].
    + unfold draise. rewrite runs_app. destruct (snd (act (e_name def) (concat (ev_fields v)) (runs vs t))) eqn:Fu.
      * right; right. eexists. split; [reflexivity|]. split; [apply risky_r; eexists; exact Fu|]. rewrite app_length. cbn.
        destruct vs; [destruct Hu|cbn; lia].
      * right; left. exists u. split; [apply in_or_app; auto|]. split; [exact Pu|reflexivity].
    + right; right. exists s2. split; [reflexivity|]. split; [apply risky_l, Ri|rewrite app_length; lia].
  - destruct H as [[-> C]|(s2 & -> & Ri)].
    + unfold draise. rewrite runs_app. destruct (snd (act (e_name def) (concat (ev_fields v)) (runs vs t))) eqn:Fu.
      * right. eexists. split; [reflexivity|]. apply risky_r. eexists; exact Fu.
      * left. split; [reflexivity|]. apply calm_app; [exact C|eexists; exact Fu].
    + right. exists s2. split; [reflexivity|apply risky_l, Ri].
Qed.

Lemma settles_bind {A B} vs (r : outcome A) t (m : DM A) (f : A -> B) s : settles vs r t (m false s) ->
  settles vs (omap f r) t (dbind m (fun a => dret (f a)) false s).
Proof.
  intros H. unfold dbind, dret. destruct r as [b|p]; cbn [settles omap] in *.
  - destruct H as [[-> C]|[(u & Hu & Pu & ->)|(s2 & -> & Ri & Le)]]; [left; auto|right; left; exists u; auto|right; right; exists s2; auto].
  - destruct H as [[-> C]|(s2 & -> & Ri)]; [left; auto|right; exists s2; auto].
Qed.

Lemma settles_user {A} (m : M A) r s : computes R s m r -> exists t, R s t /\ t = ended m s /\ settles [] r t (plainly m false s).
Proof.
  intros (t & M & Rt). exists t. split; [exact Rt|]. split; [symmetry; eapply ended_ends, M|].
  unfold plainly. rewrite M. destruct r; cbn [ends settles]; rewrite runs_nil; left; (split; [reflexivity|intros v []]).
Qed.

Lemma fades_kind v k : In (ev_variant v, k) (e_variants def) -> fades def v = match k with KUnit => [v] | _ => [] end.
Proof. intros Hin. unfold fades. rewrite (assoc_in _ _ _ (do_names _ Hd) Hin). reflexivity. Qed.

Lemma look_runs {S} s w v k u (cb : evalue -> S -> DM S) c : boxed E def s w v -> In (ev_variant v, k) (e_variants def) ->
  oe_ref E x act S w cb c u s = ke_at_exit x act (match k with KUnit => true | _ => false end) v (cb v c) u s.
Proof.
  intros B Hin. pose proof (setup_u8 _ _ _ Hs) as H8.
  destruct B as (i & k' & Hi & Ht & H).
  assert (k' = k).
  { pose proof (assoc_in _ _ _ (do_names _ Hd) Hin). pose proof (assoc_in _ _ _ (do_names _ Hd) (nth_error_In _ _ Hi)). congruence. }
  subst k'. destruct (gen_all_nth _ _ _ (xp_ref _ _ X)) as [_ Hn]. specialize (Hn i). rewrite Hi in Hn. destruct Hn as (a & Ga & Ha).
  unfold oe_ref.
  rewrite (d_match_disc_eq x (tb_discriminant E w) PanicCloneExpect _ _ u a s).
  2:{ rewrite (match_disc_nth def x Hd Hx gen_ref _ _ _ _ _ gen_ref_tag (xp_ref _ _ X)) by (apply (disc_u8 E), H8).
      rewrite Ht, Nnat.Nat2N.id, Ha. reflexivity. }
  pose proof (kind_types_wf _ _ _ Hd (nth_error_In _ _ Hi)) as Hw.
  assert (Rd : run_build E x (fun H => read_at H (tb_as_ptr E w)) (ra_variant a) (ra_build a) s = Ok v s /\
               ra_guarded a = match k with KUnit => false | _ => true end).
  { assert (Hk : read_kind (fun H => read_at H (tb_as_ptr E w)) (ev_variant v) k s = Ok v s).
    { unfold read_kind. destruct (storage k) as [U|]; destruct v as [n vs]; cbn [ev_fields ev_variant] in *.
      - unfold bind. change (tb_as_ptr E w) with (tp_as_ptr (tgt E) w). rewrite (box_holds_inv E U w vs s H). reflexivity.
      - subst vs. reflexivity. }
    rewrite <- Hk. clear Hk. pose proof (nth_error_In _ _ Hi) as Hv.
    destruct k as [|[|t1 [|t2 tys]]|ms]; cbn [gen_ref kind_types] in *;
      try (injection Ga as <-; cbn [ra_variant ra_build ra_guarded]; split; try reflexivity).
    - destruct (expand_tuple _) as [idx|] eqn:Ex; [|discriminate]. injection Ga as <-. cbn [ra_variant ra_build ra_guarded].
      split; [|reflexivity]. apply expand_tuple_seq in Ex. rewrite run_build_reprC; auto using as_ptr_fields.
    - rewrite (run_build_struct E def x); auto using as_ptr_fields. }
  destruct Rd as [Rd Gu]. unfold dbind at 1. unfold plainly at 1. rewrite Rd, Gu, (xp_drop _ _ X), Hdr.
  destruct k as [|tys|ms]; reflexivity.
Qed.

Lemma look_settles {S} s w v vs (r : outcome S) t (cb : evalue -> S -> DM S) c : boxed E def s w v -> evalue_ok def v ->
  settles vs r t (cb v c false s) -> settles (vs ++ fades def v) r t (oe_ref E x act S w cb c false s).
Proof.
  intros B (k & Hin & Ht) H. rewrite (look_runs s w v k false cb c B Hin), (fades_kind v k Hin).
  destruct k as [|tys|ms]; [|rewrite app_nil_r; exact H..].
  unfold ke_at_exit, ke_enum_drop, enum_drop. rewrite (xp_name _ _ X). exact (settles_finally vs r t (cb v c) v s H).
Qed.

Lemma one_settles {S} s w v (f : evalue -> S -> M S) c (r : outcome S) : boxed E def s w v -> evalue_ok def v -> computes R s (f v c) r ->
  exists t, R s t /\ t = ended (f v c) s /\ settles (fades def v) r t (oe_one E x act w f c false s).
Proof.
  intros B V C. destruct (settles_user _ _ _ C) as (t & T1 & T2 & T3). exists t. split; [exact T1|]. split; [exact T2|].
  exact (look_settles s w v [] r t (fun this r => plainly (f this r)) c B V T3).
Qed.

Lemma two_settles {S} s w1 v1 w2 v2 (f : evalue -> evalue -> M S) c (r : outcome S) : boxed E def s w1 v1 -> evalue_ok def v1 ->
  boxed E def s w2 v2 -> evalue_ok def v2 -> computes R s (f v1 v2) r ->
  exists t, R s t /\ t = ended (f v1 v2) s /\ settles (fades def v2 ++ fades def v1) r t (oe_two E x act w1 w2 f c false s).
Proof.
  intros B1 V1 B2 V2 C. destruct (settles_user _ _ _ C) as (t & T1 & T2 & T3). exists t. split; [exact T1|]. split; [exact T2|].
  apply (look_settles s w1 v1 (fades def v2) r t (fun this r => oe_ref E x act S w2 (fun other _ => plainly (f this other)) r) c B1 V1).
  exact (look_settles s w2 v2 [] r t (fun other _ => plainly (f v1 other)) c B2 V2 T3).
Qed.

(** A value goes out of scope. *)
Lemma silent_fields tys vs u s : Forall (fun t => ty_drop t = false) tys -> e_drop_fields act tys vs u s = DOk tt s.
Proof.
  intros H. revert vs. induction H as [|t tys Ht _ IH]; intros [|v vs]; cbn [e_drop_fields]; try reflexivity.
  unfold finally, e_drop_leaf. rewrite Ht. unfold dbind. rewrite IH. reflexivity.
Qed.

Lemma drop_value v u s : evalue_ok def v -> ke_drop_evalue x act v u s =
  let s' := runs [v] s in
  if snd (act (e_name def) (concat (ev_fields v)) s) then draise (InDrop (e_name def) (concat (ev_fields v))) u s' else DOk tt s'.
Proof.
  intros (k & Hin & _). unfold ke_drop_evalue. rewrite (xp_drop _ _ X), Hdr, (xp_enum _ _ X), (assoc_in _ _ _ (do_names _ Hd) Hin).
  pose proof (copy_fields def _ _ Hd Hdr Hin) as C. unfold finally, ke_enum_drop, enum_drop. rewrite (xp_name _ _ X).
  fold (run1 s v). change (run1 s v) with (runs [v] s). cbv zeta.
  destruct (snd (act (e_name def) (concat (ev_fields v)) s)).
  - unfold draise. destruct u; [reflexivity|]. rewrite (silent_fields _ _ _ _ C). reflexivity.
  - unfold dbind. rewrite (silent_fields _ _ _ _ C). reflexivity.
Qed.

(** Putting a value into a container. *)
Lemma silent_glue tys vs : destroyed (drop_events tys vs) = [] -> drop_events tys vs = [] /\ forall u s, e_drop_fields act tys vs u s = DOk tt s.
Proof.
  revert vs. induction tys as [|t tys IH]; intros [|v vs]; cbn [drop_events e_drop_fields]; try (intros _; split; reflexivity).
  unfold finally, e_drop_leaf. destruct (ty_drop t); cbn [app destroyed]; [discriminate|]. intros H. destruct (IH vs H) as [H1 H2].
  split; [exact H1|]. intros u s. unfold dbind. rewrite H2. reflexivity.
Qed.

Lemma new_silent U vs d s : match tb_new E U vs d s with
  | Ok _ s' | Panicked _ s' => destroyed (events s') = destroyed (events s) -> e_new E act U vs d false s = plainly (tb_new E U vs d) false s
  | UB _ => True
  end.
Proof.
  assert (G : destroyed (events (logged (drop_events (h_types U) vs) s)) = destroyed (events s) -> destroyed (drop_events (h_types U) vs) = []).
  { unfold logged. cbn [events]. rewrite destroyed_app. intros H. rewrite <- (app_nil_r (destroyed (events s))) in H at 2. apply app_inv_head in H. exact H. }
  unfold e_new, tb_new. destruct (h_size U =? 0).
  - unfold bind, drop_hval, ret. intros H. destruct (silent_glue _ _ (G H)) as [H1 H2].
    unfold finally, dret, dbind, Destructors.e_drop, plainly. rewrite H1, H2. cbn [app]. rewrite app_nil_r. destruct s; reflexivity.
  - unfold bind, dbind, plainly. unfold alloc. destruct (alloc_fn E s (h_size U) (h_align U)) as [p|].
    + match goal with |- context [write_at U p vs ?t] => destruct (write_at U p vs t) as [[] s2|q s2|u] end; [|auto|exact Logic.I].
      unfold of_outcome. destruct (tp_new (tgt E) p d); cbn [ret raise]; reflexivity.
    + unfold drop_hval, raise. intros H. destruct (silent_glue _ _ (G H)) as [H1 H2].
      unfold finally, draise, Destructors.e_drop. rewrite H1, H2. cbn [app]. rewrite app_nil_r. destruct s; reflexivity.
Qed.

(** The value is stored first, and [Drop] is run on what is left of it. *)
Lemma own_into v s : evalue_fits E def v ->
  (exists w s1, destroyed (events s1) = destroyed (events s) /\
     macro_into E x v s = Ok w (log (EvDrop (e_name def) (concat (ev_fields v))) s1) /\
     ke_into E x act v false s =
       if snd (act (e_name def) (concat (ev_fields v)) s1) then DPanic (InDrop (e_name def) (concat (ev_fields v))) (run1 s1 v) else DOk w (run1 s1 v)) \/
  (no_room E def v s = true /\ macro_into E x v s = Panicked PanicNullAlloc (log (EvDrop (e_name def) (concat (ev_fields v))) s) /\
     ke_into E x act v false s =
       if snd (act (e_name def) (concat (ev_fields v)) s) then DAbort (run1 s v) else DPanic (InCrate PanicNullAlloc) (run1 s v)).
Proof.
  intros [(k & Hin & Ht) Hfit].
  assert (Dn : forall vs, drop_events (kind_types k) vs = []) by (intros vs; apply drop_events_none, (copy_fields def _ _ Hd Hdr Hin)).
  unfold ke_into, ke_at_exit. rewrite (xp_drop _ _ X), Hdr.
  match goal with |- context [finally ?dm _ false s] => set (inner := dm) end.
  assert (L : exists im, shaped E act inner im /\ macro_into E x v s = at_exit true (EvDrop (e_name def) (concat (ev_fields v))) im s).
  { eexists. split; [|unfold macro_into; rewrite (xp_drop _ _ X), Hdr; unfold enum_drop; rewrite (xp_name _ _ X); reflexivity].
    apply (shaped_resolved E act (find_into (ev_variant v) (x_into x))). intros a.
    apply (shaped_resolved E act (bind_pattern x (ia_pat a) v)). intros binds.
    apply (shaped_resolved E act (eval_tag x (ia_tag a))). intros tag.
    assert (N : forall U vs, shaped E act (e_new E act U vs tag) (tb_new E U vs tag)) by (intros U vs; left; exists U, vs, tag; auto).
    destruct (ia_body a) as [t arg|tys args|ms lit|]; cbn [ke_into_body run_into_body].
    - apply shaped_resolved. intros vs. apply N.
    - apply shaped_resolved. intros vs. apply N.
    - apply shaped_resolved. intros vals. apply shaped_resolved. intros vs. apply N.
    - right; left. eexists. intros s'. split; reflexivity. }
  destruct L as (im & L & M).
  assert (Li : forall t t2 ev, log ev t = log ev t2 -> t = t2).
  { intros [b1 k1 e1] [b2 k2 e2] ev Q. unfold log in Q. cbn [bytes blocks events] in Q. injection Q as -> -> Q. apply app_inv_tail in Q. subst. reflexivity. }
  assert (Sh : match im s with
               | Ok w s1 => destroyed (events s1) = destroyed (events s) -> inner false s = DOk w s1
               | Panicked q s1 => destroyed (events s1) = destroyed (events s) -> inner false s = DPanic (InCrate q) s1
               | UB _ => True end).
  { destruct L as [(U & vs & d & L1 & L2)|[(w & L1)|(e & L1)]].
    - rewrite L1. pose proof (new_silent U vs d s) as N. destruct (tb_new E U vs d s) as [w s1|q s1|u] eqn:T; [| |exact Logic.I];
        intros D; rewrite L2, (N D); unfold plainly; rewrite T; reflexivity.
    - destruct (L1 s) as [-> L2]. intros _. apply L2.
    - rewrite L1. exact Logic.I. }
  assert (Ne : forall t ev, log ev t = logged [ev] t) by reflexivity.
  destruct (macro_into_spec E def x Hd Hx (setup_u8 _ _ _ Hs) (ms_env _ _ _ Hs) v k s Hin Ht Hfit)
    as [(Hz & w & P & _) | [(U & Hu & Hz & A & P) | (U & p & w & Hu & Hz & A & P & _ & _)]];
    unfold exit_log in P; rewrite Hdr, ?Dn in P; cbn [app] in P; rewrite <- Ne in P; rewrite P in M; unfold at_exit in M.
  - destruct (im s) as [w2 s1|q s1|u]; try discriminate M. apply OkI in M. destruct M as [<- M]. apply Li in M. subst s1.
    left. exists w, s. split; [reflexivity|]. split; [exact P|]. unfold finally. rewrite (Sh eq_refl). unfold dbind, ke_enum_drop, enum_drop, dret, draise.
    rewrite (xp_name _ _ X). fold (run1 s v). destruct (snd (act (e_name def) (concat (ev_fields v)) s)); reflexivity.
  - destruct (im s) as [w2 s1|q s1|u]; try discriminate M. apply PanI in M. destruct M as [<- M]. apply Li in M. subst s1.
    right. split; [unfold no_room; rewrite (assoc_in _ _ _ (do_names _ Hd) Hin), Hu; unfold no_block; rewrite (proj2 (N.eqb_neq _ _) Hz), A; reflexivity|].
    split; [exact P|]. unfold finally. rewrite (Sh eq_refl). unfold ke_enum_drop, enum_drop, draise.
    rewrite (xp_name _ _ X). fold (run1 s v). destruct (snd (act (e_name def) (concat (ev_fields v)) s)); reflexivity.
  - destruct (im s) as [w2 s1|q s1|u]; try discriminate M. apply OkI in M. destruct M as [<- M]. apply Li in M.
    assert (D : destroyed (events s1) = destroyed (events s)).
    { rewrite <- M. unfold stored. cbn [events]. rewrite destroyed_app. cbn [destroyed]. apply app_nil_r. }
    left. exists w, s1. split; [exact D|]. split; [rewrite <- M; exact P|]. unfold finally. rewrite (Sh D). unfold dbind, ke_enum_drop, enum_drop, dret, draise.
    rewrite (xp_name _ _ X). fold (run1 s1 v). destruct (snd (act (e_name def) (concat (ev_fields v)) s1)); reflexivity.
Qed.

Lemma into_sim s c v id i (a : kastate) : kinv E def s0 s c a -> evalue_fits E def v ->
  let fail := no_room E def v s in let (r, a') := kstore def fail i id v a in
  exists s1, let s' := runs [v] s1 in destroyed (events s1) = destroyed (events s) /\
    (List.length (blocks s1) + kmade a = List.length (blocks s) + kmade a')%nat /\
    ((exists w, r = KNothing /\ fail = false /\ kinv E def s0 s' (kplace_c i (KBox w) c) a' /\
        ((ke_into E x act v false s = DOk w s' /\ may_not def fussy v) \/
         (ke_into E x act v false s = DPanic (InDrop (e_name def) (concat (ev_fields v))) s' /\ may_panic def fussy v))) \/
     (exists p, r = KSawPanic p /\ kinv E def s0 s' (kplace_c i KGone c) a' /\
        ((ke_into E x act v false s = DPanic (InCrate p) s' /\ may_not def fussy v) \/
         (exists s2, ke_into E x act v false s = DAbort s2 /\ may_panic def fussy v)))).
Proof.
  intros H Hv fail. destruct (store_runs E def x Hs s0 s c v id i a H Hv) as (f & s' & m & M1 & _ & M2). unfold container_from in M1.
  destruct (kstore def f i id v a) as [r a'] eqn:St. destruct M2 as ((z & Mz & K) & [T _] & ->). fold fail in St. rewrite St.
  destruct (own_into v s Hv) as [(w & s1 & D & P & M)|(Nr & P & M)]; rewrite P in M1; subst m.
  - exists s1. destruct Mz as (<- & -> & ->). split; [exact D|]. split; [exact T|]. left. exists w. split; [reflexivity|]. split.
    { destruct fail eqn:Ef; [|reflexivity]. exfalso. destruct (no_room_null E def x Hs v s Hv Ef) as (s4 & Q). unfold container_from in Q. congruence. }
    split; [apply (kinv_run1 v s1), K|].
    rewrite M. destruct (snd (act (e_name def) (concat (ev_fields v)) s1)) eqn:Fu; [right|left]; (split; [reflexivity|eexists; exact Fu]).
  - exists s. destruct Mz as (<- & -> & ->). split; [reflexivity|]. split; [exact T|]. right. eexists. split; [reflexivity|].
    split; [apply (kinv_run1 v s), K|].
    rewrite M. destruct (snd (act (e_name def) (concat (ev_fields v)) s)) eqn:Fu; [right; eexists|left]; (split; [reflexivity|eexists; exact Fu]).
Qed.

(** The [From] impl found by the payload's type. *)
Lemma oe_builds v tys : In (v, KTuple tys) (e_variants def) ->
  exists f, In f (x_froms x) /\
    from_source f = match tys with [t] => ty_name t | _ => tuple_name (map ty_name tys) end /\
    forall vals u s, List.length vals = List.length tys -> ke_from_payload E x act f vals u s = ke_into E x act (EV v vals) u s.
Proof.
  intros Hin. destruct (xp_froms _ _ X) as (l & G & El).
  destruct (In_nth_error _ _ Hin) as [i Hi]. destruct (gen_all_nth _ _ _ G) as [_ Gn]. specialize (Gn i).
  rewrite Hi in Gn. destruct Gn as (a & Ga & Ha). apply nth_error_In in Ha. rewrite El.
  destruct tys as [|t [|t2 tys]].
  - injection Ga as <-. exists (FromTuple [] v []). split; [apply in_concat; eexists; split; [exact Ha|left; reflexivity]|].
    split; [reflexivity|]. intros [|] u s Hl; [reflexivity|discriminate].
  - injection Ga as <-. exists (FromLeaf t v). split; [apply in_concat; eexists; split; [exact Ha|left; reflexivity]|].
    split; reflexivity.
  - cbn [gen_from_impl] in Ga. destruct (expand_tuple (t :: t2 :: tys)) as [idx|] eqn:Ex; [|discriminate].
    injection Ga as <-. exists (FromTuple (t :: t2 :: tys) v idx).
    split; [apply in_concat; eexists; split; [exact Ha|left; reflexivity]|].
    split; [reflexivity|]. intros vals u s Hl. cbn [ke_from_payload].
    apply expand_tuple_seq in Ex. rewrite Ex, project_all by exact Hl. reflexivity.
Qed.

Lemma oe_payload_found src n vals : payload_variant def src = Some n -> evalue_ok def (EV n vals) ->
  exists f, find (fun f => match f with
                           | FromLeaf t _ => String.eqb (ty_name t) src
                           | FromTuple tys _ _ => String.eqb ("(" ++ String.concat ", " (map ty_name tys) ++ ")") src
                           end) (x_froms x) = Some f /\
    forall u s, ke_from_payload E x act f vals u s = ke_into E x act (EV n vals) u s.
Proof.
  unfold payload_variant. destruct (find _ (e_variants def)) as [[v k]|] eqn:Fi; [|discriminate].
  intros En (k' & Hin' & Ht). cbn in En. injection En as ->. apply find_some in Fi as [Hin Hk]. cbn [snd] in Hk.
  cbn [ev_variant ev_fields] in *.
  assert (k' = k) by (pose proof (assoc_in _ _ _ (do_names _ Hd) Hin); pose proof (assoc_in _ _ _ (do_names _ Hd) Hin'); congruence).
  subst k'. apply existsb_exists in Hk as (key & Hkey & Eq). apply String.eqb_eq in Eq. subst key.
  destruct k as [|tys|ms]; [destruct Hkey| |destruct Hkey].
  assert (K : src = match tys with [t] => ty_name t | _ => tuple_name (map ty_name tys) end).
  { destruct tys as [|t [|t2 tys]]; cbn in Hkey; destruct Hkey as [<-|[]]; reflexivity. }
  destruct (oe_builds n tys Hin) as (f & Hf & Hsrc & Hrun).
  assert (G : forall g, (match g with
                         | FromLeaf t _ => String.eqb (ty_name t) src
                         | FromTuple tys _ _ => String.eqb ("(" ++ String.concat ", " (map ty_name tys) ++ ")") src
                         end = true <-> from_source g = src)).
  { intros [t v0|ts v0 idx]; cbn [from_source]; unfold tuple_name; rewrite String.eqb_eq; reflexivity. }
  destruct (find _ (x_froms x)) as [g|] eqn:Fg.
  - exists g. split; [reflexivity|]. apply find_some in Fg as [Hg Sg]. apply G in Sg.
    assert (g = f) by (apply (proj2 (C30_unambiguous def x Hd Hx)); [assumption|assumption|congruence]). subst g.
    intros u s. apply Hrun. symmetry. eapply Forall2_len, Ht.
  - exfalso. pose proof (find_none _ _ Fg f Hf) as Hn. cbv beta in Hn. rewrite <- not_true_iff_false in Hn.
    apply Hn, G. congruence.
Qed.

(** Cloning: the look. *)
Lemma clone_look s w v k u : boxed E def s w v -> In (ev_variant v, k) (e_variants def) ->
  oe_clone_look E x I act w u s = oe_clone_arm x I act (match k with KUnit => true | _ => false end) v u s.
Proof.
  intros B Hin. pose proof (setup_u8 _ _ _ Hs) as H8.
  destruct B as (i & k' & Hi & Ht & H).
  assert (k' = k).
  { pose proof (assoc_in _ _ _ (do_names _ Hd) Hin). pose proof (assoc_in _ _ _ (do_names _ Hd) (nth_error_In _ _ Hi)). congruence. }
  subst k'. destruct (gen_all_nth _ _ _ (xp_ref _ _ X)) as [_ Hn]. specialize (Hn i). rewrite Hi in Hn. destruct Hn as (a & Ga & Ha).
  unfold oe_clone_look.
  rewrite (d_match_disc_eq x (tb_discriminant E w) PanicCloneExpect _ _ u a s).
  2:{ rewrite (match_disc_nth def x Hd Hx gen_ref _ _ _ _ _ gen_ref_tag (xp_ref _ _ X)) by (apply (disc_u8 E), H8).
      rewrite Ht, Nnat.Nat2N.id, Ha. reflexivity. }
  pose proof (kind_types_wf _ _ _ Hd (nth_error_In _ _ Hi)) as Hw.
  assert (Rd : run_build E x (fun H => read_at H (tb_as_ptr E w)) (ra_variant a) (ra_build a) s = Ok v s /\
               ra_guarded a = match k with KUnit => false | _ => true end).
  { assert (Hk : read_kind (fun H => read_at H (tb_as_ptr E w)) (ev_variant v) k s = Ok v s).
    { unfold read_kind. destruct (storage k) as [U|]; destruct v as [n vs]; cbn [ev_fields ev_variant] in *.
      - unfold bind. change (tb_as_ptr E w) with (tp_as_ptr (tgt E) w). rewrite (box_holds_inv E U w vs s H). reflexivity.
      - subst vs. reflexivity. }
    rewrite <- Hk. clear Hk. pose proof (nth_error_In _ _ Hi) as Hv.
    destruct k as [|[|t1 [|t2 tys]]|ms]; cbn [gen_ref kind_types] in *;
      try (injection Ga as <-; cbn [ra_variant ra_build ra_guarded]; split; try reflexivity).
    - destruct (expand_tuple _) as [idx|] eqn:Ex; [|discriminate]. injection Ga as <-. cbn [ra_variant ra_build ra_guarded].
      split; [|reflexivity]. apply expand_tuple_seq in Ex. rewrite run_build_reprC; auto using as_ptr_fields.
    - rewrite (run_build_struct E def x); auto using as_ptr_fields. }
  destruct Rd as [Rd Gu]. unfold dbind at 1. unfold plainly at 1. rewrite Rd, Gu, (xp_drop _ _ X), Hdr.
  destruct k as [|tys|ms]; reflexivity.
Qed.

(** Cloning: how the look ends. *)
Lemma clone_looks s w v : boxed E def s w v -> evalue_ok def v ->
  let t := ended (i_clone I v) s in R s t /\
  match m_clone (F s) v with
  | Panics p => settles (fades def v) (@Panics evalue p) t (oe_clone_look E x I act w false s)
  | Done c => evalue_ok def c /\
      ((oe_clone_look E x I act w false s = DOk c (runs (fades def v) t) /\ calm (fades def v)) \/
       (fades def v = [v] /\ may_panic def fussy v /\
         ((oe_clone_look E x I act w false s = DPanic (InDrop (e_name def) (concat (ev_fields v))) (runs [v; c] t) /\ may_not def fussy c) \/
          (exists s2, oe_clone_look E x I act w false s = DAbort s2 /\ may_panic def fussy c))))
  end.
Proof.
  intros B V. destruct (im_clone _ _ _ _ HI s v V) as [(t & M & Rt) Vc]. cbv zeta. rewrite (ended_ends _ _ _ _ M). split; [exact Rt|].
  destruct V as (k & Hin & Ht). rewrite (clone_look s w v k false B Hin). unfold oe_clone_arm. rewrite (fades_kind v k Hin).
  destruct (m_clone (F s) v) as [c|p]; cbn [ends] in M; rewrite M.
  - split; [apply Vc; reflexivity|]. destruct k as [|tys|ms].
    + assert (Nf : ev_fields v = []) by (inversion Ht; reflexivity). unfold on_panic, ke_at_exit, finally, dret, dbind, ke_enum_drop, enum_drop. rewrite (xp_name _ _ X).
      destruct (snd (act (e_name def) (concat (ev_fields v)) t)) eqn:Fu; cbn [draise].
      * right. split; [reflexivity|]. split; [eexists; exact Fu|]. rewrite drop_value by (apply Vc; reflexivity). cbv zeta.
        fold (run1 t v). change (run1 t v) with (runs [v] t). rewrite runs_runs. cbn [app].
        destruct (snd (act (e_name def) (concat (ev_fields c)) (runs [v] t))) eqn:Fc; cbn [draise].
        -- right. eexists. split; [reflexivity|eexists; exact Fc].
        -- left. split; [reflexivity|eexists; exact Fc].
      * left. split; [reflexivity|]. intros u [<-|[]]. eexists; exact Fu.
    + left. split; [rewrite runs_nil; reflexivity|intros u []].
    + left. split; [rewrite runs_nil; reflexivity|intros u []].
  - assert (P : settles [] (@Panics evalue p) t (plainly (i_clone I v) false s)).
    { unfold plainly. rewrite M. left. rewrite runs_nil. split; [reflexivity|intros u []]. }
    destruct k as [|tys|ms]; [|exact P..]. unfold ke_at_exit, ke_enum_drop, enum_drop. rewrite (xp_name _ _ X).
    exact (settles_finally [] _ t (plainly (i_clone I v)) v s P).
Qed.

(** ** A step of a program *)

Definition oe_tracks (s : st) (a : kastate) (vs : list evalue) (s' : st) (a' : kastate) : Prop := tidy act ->
  (List.length (blocks s') + kmade a = List.length (blocks s) + kmade a')%nat /\
  destroyed (events s') = destroyed (events s) ++ map (od_event def) vs.

Definition oe_sim (s : st) (c : list kcell) (a : kastate) (o : kop) : Prop :=
  let fail := oe_starved E def x I act o c s in
  let t := kcalled I o a s in
  let vs := od_drops def (F s) o a in
  exists dm r a', oe_step E x I act o c = Some dm /\ kastep def (F s) fail o a = Some (r, a') /\ (R s t \/ t = s) /\
    ((exists c' s', (dm false s = DOk (r, c') s' \/ exists p, r = KSawPanic p /\ dm false s = DPanic (InCrate p) s' /\ c' = kd_after_panic o c) /\
        kinv E def s0 s' c' a' /\ oe_tracks t a vs s' a' /\ calm vs) \/
     (exists v s' a1, fail = false /\ (forall p, r <> KSawPanic p) /\ dm false s = DPanic (InDrop (e_name def) (concat (ev_fields v))) s' /\
        In v vs /\ may_panic def fussy v /\ In a1 (od_blown def o a a') /\ kinv E def s0 s' (kd_after_panic o c) a1 /\ oe_tracks t a vs s' a1) \/
     (exists s2, dm false s = DAbort s2 /\ od_may_abort def fussy (F s) fail o a)).

Lemma oe_look {A} s c a o (r : outcome A) (f : A -> kobs) (m : DM A) dm t : kinv E def s0 s c a ->
  oe_step E x I act o c = Some dm -> dm false s = dbind m (fun b => dret (f b, c)) false s ->
  kastep def (F s) false o a = Some (ksee f r, a) -> oe_starved E def x I act o c s = false ->
  kcalled I o a s = t -> R s t \/ t = s -> kd_after_panic o c = c -> od_blown def o a a = [a] -> (forall b p, f b <> KSawPanic p) ->
  settles (od_drops def (F s) o a) r t (m false s) -> oe_sim s c a o.
Proof.
  intros H H1 H2 H3 H4 H5 H6 H7 H8 H9 St. unfold oe_sim. rewrite H4, H5. exists dm, (ksee f r), a. split; [exact H1|]. split; [exact H3|]. split; [exact H6|].
  assert (Kv : kinv E def s0 (runs (od_drops def (F s) o a) t) c a).
  { apply kinv_runs. apply (kinv_keeps E def x Hs s0 s _ c a a H); [|reflexivity|reflexivity]. destruct H6 as [H6| ->]; [apply HR, H6|apply keeps_refl]. }
  assert (Tr : oe_tracks t a (od_drops def (F s) o a) (runs (od_drops def (F s) o a) t) a) by (intros Ti; split; [rewrite runs_blocks by exact Ti; reflexivity|apply runs_events, Ti]).
  rewrite H2. unfold dbind, dret.
  destruct r as [b|p]; cbn [settles ksee] in *.
  - destruct St as [[M C]|[(u & Hu & Pu & M)|(s2 & M & Ri & Le)]]; rewrite M.
    + left. exists c. eexists. split; [left; reflexivity|]. auto.
    + right; left. exists u. eexists. exists a. split; [reflexivity|]. split; [intros p; apply H9|]. split; [reflexivity|]. split; [exact Hu|].
      split; [exact Pu|]. rewrite H7, H8. split; [left; reflexivity|]. auto.
    + right; right. exists s2. split; [reflexivity|]. split; [exact Ri|]. left. exact Le.
  - destruct St as [[M C]|(s2 & M & Ri)]; rewrite M.
    + left. exists c. eexists. split; [right; exists p; split; [reflexivity|]; split; [reflexivity|symmetry; exact H7]|]. auto.
    + right; right. exists s2. split; [reflexivity|]. split; [exact Ri|]. right. exists p, a. exact H3.
Qed.

Lemma oe_store s c a o dm v i id a0 t vs0 : kinv E def s0 (runs vs0 t) c a0 -> evalue_fits E def v ->
  kcells a0 = kcells a -> kmade a0 = kmade a ->
  oe_step E x I act o c = Some dm ->
  dm false s = dbind (ke_into E x act v) (fun w => dret (KNothing, kplace_c i (KBox w) c)) false (runs vs0 t) ->
  (forall fail, kastep def (F s) fail o a = Some (kstore def fail i id v a0)) ->
  oe_starved E def x I act o c s = no_room E def v (runs vs0 t) ->
  kcalled I o a s = t -> R s t \/ t = s -> od_drops def (F s) o a = vs0 ++ [v] -> calm vs0 ->
  kd_after_panic o c = kplace_c i KGone c ->
  (forall a', In (kset (match i with Some i => i | None => List.length (kcells a) end) KAGone a') (od_blown def o a a')) ->
  oe_sim s c a o.
Proof.
  intros H Hv Ec Em H1 H2 H3 H4 H5 H6 H7 H8 H9 H10. unfold oe_sim. rewrite H4, H5, H7.
  pose proof (into_sim (runs vs0 t) c v id i a0 H Hv) as Q. cbv zeta in Q. set (fail := no_room E def v (runs vs0 t)) in *.
  destruct (kstore def fail i id v a0) as [r a'] eqn:St. destruct Q as (s1 & D & B & Q). set (s' := runs [v] s1) in *.
  exists dm, r, a'. split; [exact H1|]. split; [rewrite H3, St; reflexivity|]. split; [exact H6|].
  assert (Tr : forall b, kmade b = kmade a' -> oe_tracks t a (vs0 ++ [v]) s' b).
  { intros b Eb Ti. pose proof (runs_blocks vs0 Ti t) as B0. pose proof (runs_blocks [v] Ti s1) as B1. fold s' in B1.
    split; [lia|]. unfold s'. rewrite runs_events, D, runs_events, map_app, app_assoc by exact Ti. reflexivity. }
  rewrite H2. unfold dbind, dret.
  destruct Q as [(w & -> & Nf & K & [[M C]|[M C]])|(p & -> & K & [[M C]|(s2 & M & C)])]; rewrite M.
  - left. exists (kplace_c i (KBox w) c), s'. split; [left; reflexivity|]. split; [exact K|]. split; [apply Tr; reflexivity|]. apply calm_app; assumption.
  - right; left. exists v, s'. eexists. split; [exact Nf|]. split; [intros p Hp; discriminate Hp|]. split; [reflexivity|].
    split; [apply in_or_app; right; left; reflexivity|]. split; [exact C|]. split; [apply H10|]. split; [|apply Tr; reflexivity].
    rewrite H9. set (j := match i with Some i => i | None => List.length (kcells a) end).
    assert (Pl : kplace_c i KGone c = put j KGone (kplace_c i (KBox w) c)).
    { destruct i as [i|]; cbn [kplace_c j]; [rewrite put_put; reflexivity|]. subst j. rewrite <- Ec, <- (Forall2_len _ _ _ (ki_rel _ _ _ _ _ _ H)), put_end. reflexivity. }
    rewrite Pl. eapply (kinv_put E def x Hs); [exact K|apply keeps_refl|reflexivity|reflexivity|exact Logic.I|intros; exact Logic.I].
  - left. exists (kplace_c i KGone c), s'. split; [right; exists p; auto|]. split; [exact K|]. split; [apply Tr; reflexivity|]. apply calm_app; assumption.
  - right; right. exists s2. split; [reflexivity|]. split; [rewrite H7; apply risky_r, C|]. right. exists p, a'. rewrite H3, St. reflexivity.
Qed.

(** Steps in which no [Drop] can be run. *)
Lemma oe_plain s c a o m r a' c' s' : oe_step E x I act o c = Some (plainly m) -> oe_starved E def x I act o c s = false ->
  kastep def (F s) false o a = Some (r, a') -> m s = Ok (r, c') s' -> kinv E def s0 s' c' a' ->
  kcalled I o a s = s -> od_drops def (F s) o a = [] -> List.length (blocks s') = List.length (blocks s) -> kmade a' = kmade a ->
  destroyed (events s') = destroyed (events s) -> oe_sim s c a o.
Proof.
  intros H1 H2 H3 H4 H5 H6 H7 H8 H9 H10. unfold oe_sim. rewrite H2, H6, H7. exists (plainly m), r, a'. split; [exact H1|]. split; [exact H3|].
  split; [right; reflexivity|]. left. exists c', s'. split; [left; unfold plainly; rewrite H4; reflexivity|]. split; [exact H5|].
  split; [|intros u []]. intros Ti. split; [rewrite H8, H9; reflexivity|]. cbn [map]. rewrite app_nil_r. exact H10.
Qed.

Lemma held_box s c a i id loc v : kinv E def s0 s c a -> nth_error (kcells a) i = Some (KABox id loc v) ->
  exists w, nth_error c i = Some (KBox w) /\ boxed E def s w v /\ evalue_ok def v.
Proof.
  intros H Hy. destruct (Forall2_nth _ _ _ _ _ (ki_rel _ _ _ _ _ _ H) Hy) as ([w|v'|] & Hz & Rz); cbn [krel] in Rz; try contradiction.
  exists w. split; [exact Hz|]. split; apply Rz.
Qed.

Lemma oe_step_sim s c a o : kinv E def s0 s c a -> kcontract E def (F s) a o -> kastep def (F s) false o a <> None -> oe_sim s c a o.
Proof.
  intros H Hc Hn.
  assert (Two : forall A i j (f : evalue -> evalue -> M A) c0 g G (o' : kop), o = o' ->
     (forall v w, evalue_ok def v -> evalue_ok def w -> computes R s (f v w) (G v w)) -> (forall b p, g b <> KSawPanic p) ->
     (forall w1 w2, nth_error c i = Some (KBox w1) -> nth_error c j = Some (KBox w2) ->
        exists dm, oe_step E x I act o c = Some dm /\ dm false s = dbind (oe_two E x act w1 w2 f c0) (fun b => dret (g b, c)) false s) ->
     (forall id1 l1 v id2 l2 w, nth_error (kcells a) i = Some (KABox id1 l1 v) -> nth_error (kcells a) j = Some (KABox id2 l2 w) ->
        kastep def (F s) false o a = Some (ksee g (G v w), a) /\ kcalled I o a s = ended (f v w) s /\
        od_drops def (F s) o a = fades def w ++ fades def v) ->
     oe_starved E def x I act o c s = false -> kd_after_panic o c = c -> od_blown def o a a = [a] ->
     (exists id1 l1 v id2 l2 w, nth_error (kcells a) i = Some (KABox id1 l1 v) /\ nth_error (kcells a) j = Some (KABox id2 l2 w)) ->
     oe_sim s c a o).
  { intros A i j f c0 g G o' _ Cp Ng Hst Ha Hsv Haf Hbl (id1 & l1 & v & id2 & l2 & w & Hy1 & Hy2).
    destruct (held_box _ _ _ _ _ _ _ H Hy1) as (w1 & Hz1 & B1 & V1), (held_box _ _ _ _ _ _ _ H Hy2) as (w2 & Hz2 & B2 & V2).
    destruct (Hst w1 w2 Hz1 Hz2) as (dm & D1 & D2). destruct (Ha _ _ _ _ _ _ Hy1 Hy2) as (A1 & A2 & A3).
    destruct (two_settles s w1 v w2 w f c0 (G v w) B1 V1 B2 V2 (Cp v w V1 V2)) as (t & T1 & T2 & T3).
    eapply (oe_look s c a o (G v w) g _ dm t H D1 D2 A1 Hsv); [congruence|left; exact T1|exact Haf|exact Hbl|exact Ng|]. rewrite A3. exact T3. }
  assert (One : forall A i (f : evalue -> A -> M A) c0 g G (o' : kop), o = o' ->
     (forall v, evalue_ok def v -> computes R s (f v c0) (G v)) -> (forall b p, g b <> KSawPanic p) ->
     (forall w1, nth_error c i = Some (KBox w1) ->
        exists dm, oe_step E x I act o c = Some dm /\ dm false s = dbind (oe_one E x act w1 f c0) (fun b => dret (g b, c)) false s) ->
     (forall id1 l1 v, nth_error (kcells a) i = Some (KABox id1 l1 v) ->
        kastep def (F s) false o a = Some (ksee g (G v), a) /\ kcalled I o a s = ended (f v c0) s /\
        od_drops def (F s) o a = fades def v) ->
     oe_starved E def x I act o c s = false -> kd_after_panic o c = c -> od_blown def o a a = [a] ->
     (exists id1 l1 v, nth_error (kcells a) i = Some (KABox id1 l1 v)) ->
     oe_sim s c a o).
  { intros A i f c0 g G o' _ Cp Ng Hst Ha Hsv Haf Hbl (id1 & l1 & v & Hy1).
    destruct (held_box _ _ _ _ _ _ _ H Hy1) as (w1 & Hz1 & B1 & V1).
    destruct (Hst w1 Hz1) as (dm & D1 & D2). destruct (Ha _ _ _ Hy1) as (A1 & A2 & A3).
    destruct (one_settles s w1 v f c0 (G v) B1 V1 (Cp v V1)) as (t & T1 & T2 & T3).
    eapply (oe_look s c a o (G v) g _ dm t H D1 D2 A1 Hsv); [congruence|left; exact T1|exact Haf|exact Hbl|exact Ng|]. rewrite A3. exact T3. }
  assert (As : forall A (m : DM A) (f : A -> kobs), dbind (dbind m (fun r => dret (f r))) (fun r => dret (r, c)) false s =
                 dbind m (fun b => dret (f b, c)) false s).
  { intros A m f. unfold dbind, dret. destruct (m false s); reflexivity. }
  destruct o as [v|i|src vals|i|i|i j|i j|i j|i o out|i o out|i o out|i|i|i n f|i n val|i|i|i|i]; cbn [kastep] in Hn.
  - (* KNew *)
    eapply oe_plain; [reflexivity..| |reflexivity|reflexivity|reflexivity|reflexivity|reflexivity].
    eapply (kinv_add E def x Hs); [exact H|apply keeps_refl|reflexivity|reflexivity|split; [reflexivity|exact Hc]|intros; exact Logic.I].
  - (* KFrom *)
    destruct (nth_error (kcells a) i) as [[id loc v|id v|]|] eqn:Hy; try contradiction.
    destruct (Forall2_nth _ _ _ _ _ (ki_rel _ _ _ _ _ _ H) Hy) as ([w|v'|] & Hz & Rz); cbn [krel] in Rz; try contradiction.
    destruct Rz as [-> V].
    eapply (oe_store s c a (KFrom i) _ v (Some i) id a s []); [rewrite runs_nil; exact H|split; [exact V|exact (Hc id v Hy)]|reflexivity|reflexivity| | | | | | | | | |].
    + cbn [oe_step]. rewrite Hz. reflexivity.
    + rewrite runs_nil. reflexivity.
    + intros fail. cbn [kastep]. rewrite Hy. reflexivity.
    + cbn [oe_starved]. rewrite Hz, runs_nil. reflexivity.
    + reflexivity.
    + right; reflexivity.
    + cbn [od_drops]. rewrite Hy. reflexivity.
    + intros u [].
    + reflexivity.
    + intros a'. left. reflexivity.
  - (* KFromPayload *)
    destruct (payload_variant def src) as [n|] eqn:Pv; [|contradiction].
    cbn [kcontract] in Hc. rewrite Pv in Hc. destruct (oe_payload_found src n vals Pv (proj1 Hc)) as (f & Ff & Hf).
    eapply (oe_store s c a (KFromPayload src vals) _ (EV n vals) None (knext a) (kfresh a) s []);
      [rewrite runs_nil; apply (kinv_keeps E def x Hs s0 s s c a (kfresh a) H (keeps_refl s) eq_refl eq_refl)|exact Hc|reflexivity|reflexivity| | | | | | | | | |].
    + cbn [oe_step]. rewrite Ff. reflexivity.
    + rewrite runs_nil. unfold dbind at 1. rewrite Hf. reflexivity.
    + intros fail. cbn [kastep]. rewrite Pv. reflexivity.
    + cbn [oe_starved]. rewrite Pv, runs_nil. reflexivity.
    + reflexivity.
    + right; reflexivity.
    + cbn [od_drops]. rewrite Pv. reflexivity.
    + intros u [].
    + reflexivity.
    + intros a'. left. reflexivity.
  - (* KClone *)
    destruct (nth_error (kcells a) i) as [[id loc v|id v|]|] eqn:Hy; try contradiction.
    destruct (held_box _ _ _ _ _ _ _ H Hy) as (w & Hz & B & V).
    pose proof (clone_looks s w v B V) as Q. cbv zeta in Q. set (t := ended (i_clone I v) s) in *. destruct Q as [Rt Q].
    assert (Kc : kcalled I (KClone i) a s = t) by (cbn [kcalled]; rewrite Hy; reflexivity).
    assert (Kl : forall vs b, kcells b = kcells a -> kboxes b = kboxes a -> kinv E def s0 (runs vs t) c b)
      by (intros vs b Eb Ex; apply kinv_runs; apply (kinv_keeps E def x Hs s0 s _ c a b H (HR _ _ Rt) Eb Ex)).
    destruct (m_clone (F s) v) as [cv|p] eqn:Mc.
    + destruct Q as [Vc [[L Cm]|(Fa & Pv & Q)]].
      * eapply (oe_store s c a (KClone i) _ cv None (knext a) (kfresh a) t (fades def v));
          [exact (Kl _ (kfresh a) eq_refl eq_refl)|split; [exact Vc|exact (Hc id loc v cv Hy Mc)]|reflexivity|reflexivity| | | | | | | | | |].
        -- cbn [oe_step]. rewrite Hz. reflexivity.
        -- unfold dbind at 1. unfold oe_clone. unfold dbind at 1. rewrite L. reflexivity.
        -- intros fail. cbn [kastep]. rewrite Hy, Mc. reflexivity.
        -- cbn [oe_starved]. rewrite Hz, L. reflexivity.
        -- exact Kc.
        -- left; exact Rt.
        -- cbn [od_drops]. rewrite Hy, Mc. reflexivity.
        -- exact Cm.
        -- reflexivity.
        -- intros a'. left. reflexivity.
      * unfold oe_sim. rewrite Kc. cbn [oe_starved oe_step od_drops kastep]. rewrite Hy, Hz, Mc, Fa.
        destruct Q as [[L Nc]|(s2 & L & Pc)].
        -- rewrite L. eexists. exists KNothing. eexists. split; [reflexivity|].
           split; [unfold kstore; rewrite andb_false_r; reflexivity|]. split; [left; exact Rt|].
           right; left. exists v, (runs [v; cv] t). eexists. split; [reflexivity|]. split; [intros p Hp; discriminate Hp|].
           split; [unfold oe_clone, dbind; rewrite L; reflexivity|]. split; [left; reflexivity|]. split; [exact Pv|].
           split; [cbn [od_blown]; rewrite Hy, Fa; right; left; reflexivity|]. split.
           ++ eapply (kinv_add E def x Hs); [exact (Kl [v; cv] a eq_refl eq_refl)|apply keeps_refl|reflexivity|reflexivity|exact Logic.I|intros; exact Logic.I].
           ++ intros Ti. split; [rewrite runs_blocks by exact Ti; reflexivity|]. apply runs_events, Ti.
        -- rewrite L. eexists. exists KNothing. eexists. split; [reflexivity|].
           split; [unfold kstore; rewrite andb_false_r; reflexivity|]. split; [left; exact Rt|].
           right; right. exists s2. split; [unfold oe_clone, dbind; rewrite L; reflexivity|]. unfold od_may_abort. cbn [od_drops]. rewrite Hy, Mc, Fa.
           split; [exists v; split; [left; reflexivity|exact Pv]|left; cbn; lia].
    + unfold oe_sim. rewrite Kc. cbn [oe_starved oe_step od_drops kastep]. rewrite Hy, Hz, Mc, app_nil_r. cbn [settles] in Q.
      destruct Q as [[L Cm]|(s2 & L & Ri)]; rewrite L; (eexists; exists (KSawPanic p); eexists; split; [reflexivity|]; split; [reflexivity|]; split; [left; exact Rt|]).
      * left. exists (c ++ [KGone]). eexists. split; [right; exists p; split; [reflexivity|]; split; [unfold oe_clone, dbind; rewrite L; reflexivity|reflexivity]|].
        split; [|split; [intros Ti; split; [rewrite runs_blocks by exact Ti; reflexivity|apply runs_events, Ti]|exact Cm]].
        eapply (kinv_add E def x Hs); [exact (Kl (fades def v) a eq_refl eq_refl)|apply keeps_refl|reflexivity|reflexivity|exact Logic.I|intros; exact Logic.I].
      * right; right. exists s2. split; [unfold oe_clone, dbind; rewrite L; reflexivity|]. unfold od_may_abort. cbn [od_drops kastep]. rewrite Hy, Mc, app_nil_r.
        split; [exact Ri|]. right. eexists. eexists. reflexivity.
  - (* KCopy *)
    destruct (nth_error (kcells a) i) as [[id loc v|id v|]|] eqn:Hy; try contradiction.
    destruct (e_copy def) eqn:Ec; [|contradiction].
    destruct (Forall2_nth _ _ _ _ _ (ki_rel _ _ _ _ _ _ H) Hy) as ([w|v'|] & Hz & Rz); cbn [krel] in Rz; try contradiction.
    eapply oe_plain;
      [cbn [oe_step kstep]; rewrite (xp_copy _ _ X), Ec, Hz; reflexivity|reflexivity|cbn [kastep]; rewrite Hy, Ec; reflexivity|reflexivity| |reflexivity..].
    eapply (kinv_add E def x Hs); [exact H|apply keeps_refl|reflexivity|reflexivity|exact Rz|].
    intros j y2 z2 Hy2 Hz2. destruct (Nat.eq_dec i j) as [<-|N].
    + rewrite Hz in Hy2. injection Hy2 as <-. rewrite Hy in Hz2. injection Hz2 as <-. cbn [kpair]. tauto.
    + exact (ki_pair _ _ _ _ _ _ H i j _ _ _ _ Hz Hy Hy2 Hz2 N).
  - (* KEq *)
    eapply (Two bool i j (i_eq I) false KSawBool (m_eq (F s))); try reflexivity.
    + intros v w V W. exact (im_eq _ _ _ _ HI s v w V W).
    + intros b p Hb; discriminate Hb.
    + intros w1 w2 Hz1 Hz2. eexists. split; [cbn [oe_step]; rewrite Hz1, Hz2; reflexivity|]. apply As.
    + intros id1 l1 v id2 l2 w Hy1 Hy2. cbn [kastep kcalled od_drops]. rewrite Hy1, Hy2. auto.
    + destruct (nth_error (kcells a) i) as [[]|] eqn:Hy1; try contradiction. destruct (nth_error (kcells a) j) as [[]|] eqn:Hy2; try contradiction. repeat eexists.
  - (* KPartialCmp *)
    eapply (Two (option comparison) i j (i_pcmp I) None KSawPartial (m_pcmp (F s))); try reflexivity.
    + intros v w V W. exact (im_pcmp _ _ _ _ HI s v w V W).
    + intros b p Hb; discriminate Hb.
    + intros w1 w2 Hz1 Hz2. eexists. split; [cbn [oe_step]; rewrite Hz1, Hz2; reflexivity|]. apply As.
    + intros id1 l1 v id2 l2 w Hy1 Hy2. cbn [kastep kcalled od_drops]. rewrite Hy1, Hy2. auto.
    + destruct (nth_error (kcells a) i) as [[]|] eqn:Hy1; try contradiction. destruct (nth_error (kcells a) j) as [[]|] eqn:Hy2; try contradiction. repeat eexists.
  - (* KCmp *)
    eapply (Two comparison i j (i_cmp I) Eq KSawOrd (m_cmp (F s))); try reflexivity.
    + intros v w V W. exact (im_cmp _ _ _ _ HI s v w V W).
    + intros b p Hb; discriminate Hb.
    + intros w1 w2 Hz1 Hz2. eexists. split; [cbn [oe_step]; rewrite Hz1, Hz2; reflexivity|]. apply As.
    + intros id1 l1 v id2 l2 w Hy1 Hy2. cbn [kastep kcalled od_drops]. rewrite Hy1, Hy2. auto.
    + destruct (nth_error (kcells a) i) as [[]|] eqn:Hy1; try contradiction. destruct (nth_error (kcells a) j) as [[]|] eqn:Hy2; try contradiction. repeat eexists.
  - (* KDebug *)
    eapply (One (string * bool)%type i (fun this r => i_debug I default_opts this (fst r)) (EmptyString, true)
       (fun r => let r := derived_debug o (e_container def) "value" r in KSawText ((out ++ fst r)%string, snd r))
       (fun v => m_debug (F s) default_opts v EmptyString)); try reflexivity.
    + intros v V. exact (im_debug _ _ _ _ HI s v default_opts EmptyString V).
    + intros b p Hb; discriminate Hb.
    + intros w1 Hz1. eexists. split; [cbn [oe_step]; rewrite Hz1; reflexivity|]. rewrite As, (xp_container _ _ X). reflexivity.
    + intros id1 l1 v Hy1. cbn [kastep kcalled od_drops]. rewrite Hy1. auto.
    + destruct (nth_error (kcells a) i) as [[]|] eqn:Hy1; try contradiction. repeat eexists.
  - (* KDebugValue *)
    eapply (One (string * bool)%type i (fun this r => i_debug I default_opts this (fst r)) (out, true) KSawText
       (fun v => m_debug (F s) default_opts v out)); try reflexivity.
    + intros v V. exact (im_debug _ _ _ _ HI s v default_opts out V).
    + intros b p Hb; discriminate Hb.
    + intros w1 Hz1. eexists. split; [cbn [oe_step]; rewrite Hz1; reflexivity|]. apply As.
    + intros id1 l1 v Hy1. cbn [kastep kcalled od_drops]. rewrite Hy1. auto.
    + destruct (nth_error (kcells a) i) as [[]|] eqn:Hy1; try contradiction. repeat eexists.
  - (* KDisplay *)
    eapply (One (string * bool)%type i (fun this r => i_display I default_opts this (fst r)) (out, true) KSawText
       (fun v => m_display (F s) default_opts v out)); try reflexivity.
    + intros v V. exact (im_display _ _ _ _ HI s v default_opts out V).
    + intros b p Hb; discriminate Hb.
    + intros w1 Hz1. eexists. split; [cbn [oe_step]; rewrite Hz1; reflexivity|]. apply As.
    + intros id1 l1 v Hy1. cbn [kastep kcalled od_drops]. rewrite Hy1. auto.
    + destruct (nth_error (kcells a) i) as [[]|] eqn:Hy1; try contradiction. repeat eexists.
  - (* KView *)
    destruct (nth_error (kcells a) i) as [[id loc v|id v|]|] eqn:Hy; try contradiction.
    destruct (held_box _ _ _ _ _ _ _ H Hy) as (w & Hz & B & V).
    assert (P : settles [] (Done [v]) s (plainly (ret ([] ++ [v])) false s)) by (left; rewrite runs_nil; split; [reflexivity|intros u []]).
    eapply (oe_look s c a (KView i) (Done [v]) KSawValues (oe_one E x act w (fun this r => ret (r ++ [this])) []) _ s H).
    + cbn [oe_step]. rewrite Hz. reflexivity.
    + apply As.
    + cbn [kastep]. rewrite Hy. reflexivity.
    + reflexivity.
    + reflexivity.
    + right; reflexivity.
    + reflexivity.
    + reflexivity.
    + intros b p Hb; discriminate Hb.
    + cbn [od_drops]. rewrite Hy. exact (look_settles s w v [] _ s (fun this r => plainly (ret (r ++ [this]))) [] B V P).
  - (* KTag *)
    destruct (nth_error (kcells a) i) as [[id loc v|id v|]|] eqn:Hy; try contradiction.
    destruct (held_box _ _ _ _ _ _ _ H Hy) as (w & Hz & B & V).
    eapply oe_plain; [cbn [oe_step kstep]; rewrite Hz; reflexivity|reflexivity|cbn [kastep]; rewrite Hy; reflexivity| |exact H|reflexivity..].
    rewrite (boxed_tag E def x Hs s w v B). reflexivity.
  - (* KModify *)
    destruct (nth_error (kcells a) i) as [[id loc v|id v|]|] eqn:Hy; try contradiction.
    destruct (only_field def n) as [t|] eqn:Of; [|contradiction].
    destruct (Forall2_nth _ _ _ _ _ (ki_rel _ _ _ _ _ _ H) Hy) as ([w|v'|] & Hz & Rz); cbn [krel] in Rz; try contradiction.
    destruct Rz as (B & V & Hm & Hlt). destruct (Hc id loc v Hy) as [Ev Vn].
    destruct (only_field_leaf E def x Hs n t Of) as [Hin Lt']. rewrite <- Ev in Hin.
    destruct (boxed_leaf E def x Hs s w v t B Hin) as (Bl & Hl).
    destruct (C17_modify E (leaf_hty t) w (ev_fields v) (map f) s (ms_env _ _ _ Hs) Hl) as (s' & M1 & M2 & M3 & M4 & _ & M6).
    { apply leaf_hval. rewrite <- Ev in Vn. apply (leaf_value E def x Hs (EV (ev_variant v) (map f (ev_fields v))) t Hin Vn). }
    { exact Bl. }
    eapply oe_plain; [cbn [oe_step kstep]; rewrite Hz, Lt'; reflexivity|reflexivity|cbn [kastep]; rewrite Hy, Of; reflexivity|unfold bind; rewrite M1; reflexivity| |
      reflexivity|reflexivity|rewrite M3; reflexivity|reflexivity|rewrite M4; reflexivity].
    eapply (kinv_write E def x Hs s0 s s' c a _ i w id loc v (EV n (map f (ev_fields v))) t); try eassumption; try reflexivity.
    cbn [ev_variant]. congruence.
  - (* KAssign *)
    destruct (nth_error (kcells a) i) as [[id loc v|id v|]|] eqn:Hy; try contradiction.
    destruct (only_field def n) as [t|] eqn:Of; [|contradiction].
    destruct (Forall2_nth _ _ _ _ _ (ki_rel _ _ _ _ _ _ H) Hy) as ([w|v'|] & Hz & Rz); cbn [krel] in Rz; try contradiction.
    destruct Rz as (B & V & Hm & Hlt). destruct (Hc id loc v Hy) as [Ev Vn].
    destruct (only_field_leaf E def x Hs n t Of) as [Hin Lt']. rewrite <- Ev in Hin.
    destruct (boxed_leaf E def x Hs s w v t B Hin) as (Bl & Hl).
    destruct (C17_assign E (leaf_hty t) w (ev_fields v) [val] s (ms_env _ _ _ Hs) Hl) as (s' & M1 & M2 & M3 & M4 & _ & M6).
    { apply leaf_hval. rewrite <- Ev in Vn. apply (leaf_value E def x Hs (EV (ev_variant v) [val]) t Hin Vn). }
    { exact Bl. }
    eapply oe_plain; [cbn [oe_step kstep]; rewrite Hz, Lt'; reflexivity|reflexivity|cbn [kastep]; rewrite Hy, Of; reflexivity|unfold bind; rewrite M1; reflexivity| |
      reflexivity|reflexivity|rewrite M3; reflexivity|reflexivity|].
    + set (a1 := KAState (kwrite loc (EV n [val]) (kcells a)) (knext a) (kdead a) (kmade a) (kboxes a)).
      assert (H1 : kinv E def s0 s' c a1).
      { eapply (kinv_write E def x Hs s0 s s' c a a1 i w id loc v (EV n [val]) t); try eassumption; try reflexivity. cbn [ev_variant]. congruence. }
      assert (Hy1 : nth_error (kcells a1) i = Some (KABox id loc (EV n [val]))).
      { cbn [a1 kcells]. rewrite nth_kwrite, Hy, Nat.eqb_refl. reflexivity. }
      rewrite <- (put_id (KBox w) c i Hz).
      eapply (kinv_put E def x Hs s0 s' s' c a1); [exact H1|apply keeps_refl|reflexivity|reflexivity| |].
      * destruct (Forall2_nth _ _ _ _ _ (ki_rel _ _ _ _ _ _ H1) Hy1) as (y & Hy2 & R2). rewrite Hz in Hy2. injection Hy2 as <-. exact R2.
      * intros j y2 z2 N A1 A2. exact (ki_pair _ _ _ _ _ _ H1 i j _ _ _ _ Hz Hy1 A1 A2 (not_eq_sym N)).
    + rewrite M4. unfold destructors. pose proof (copy_fields def _ _ Hd Hdr Hin) as Cf. cbn [kind_types] in Cf.
      change (combine (h_types (leaf_hty t)) (ev_fields v)) with (combine [t] (ev_fields v)). rewrite (no_destructors _ _ Cf). apply app_nil_r.
  - (* KIntoInner *)
    destruct (nth_error (kcells a) i) as [[id loc v|id v|]|] eqn:Hy; try contradiction.
    destruct (held_box _ _ _ _ _ _ _ H Hy) as (w & Hz & B & V).
    eapply oe_plain; [cbn [oe_step kstep]; rewrite Hz; reflexivity|reflexivity|cbn [kastep]; rewrite Hy; reflexivity|
      unfold bind; rewrite (boxed_into_inner E def x Hd Hx (setup_u8 _ _ _ Hs) s w v B); reflexivity| |reflexivity..].
    eapply (kinv_put E def x Hs); [exact H|apply keeps_refl|reflexivity|reflexivity|split; [reflexivity|exact V]|intros; exact Logic.I].
  - (* KFromTagged *)
    destruct (nth_error (kcells a) i) as [[id loc v|id v|]|] eqn:Hy; try contradiction.
    destruct (held_box _ _ _ _ _ _ _ H Hy) as (w & Hz & B & V).
    eapply oe_plain; [cbn [oe_step kstep]; rewrite Hz; reflexivity|reflexivity|cbn [kastep]; rewrite Hy; reflexivity|
      unfold bind; destruct V as (k & Hin & _); rewrite (boxed_from E def x s w v k Hs B Hin (Hc id loc v k Hy Hin)); reflexivity| |reflexivity..].
    eapply (kinv_put E def x Hs); [exact H|apply keeps_refl|reflexivity|reflexivity|split; [reflexivity|exact V]|intros; exact Logic.I].
  - (* KDrop *)
    destruct (nth_error (kcells a) i) as [[id loc v|id v|]|] eqn:Hy; try contradiction.
    destruct (held_box _ _ _ _ _ _ _ H Hy) as (w & Hz & B & V).
    eapply oe_plain; [cbn [oe_step kstep]; rewrite Hz; reflexivity|reflexivity|cbn [kastep]; rewrite Hy; reflexivity|reflexivity| |reflexivity..].
    eapply (kinv_put E def x Hs); [exact H|apply keeps_refl|reflexivity|reflexivity|exact Logic.I|intros; exact Logic.I].
  - (* KDropVal *)
    destruct (nth_error (kcells a) i) as [[id loc v|id v|]|] eqn:Hy; try contradiction.
    destruct (Forall2_nth _ _ _ _ _ (ki_rel _ _ _ _ _ _ H) Hy) as ([w|v'|] & Hz & Rz); cbn [krel] in Rz; try contradiction.
    destruct Rz as [-> V]. unfold oe_sim. cbn [oe_starved oe_step od_drops kastep kcalled]. rewrite Hy, Hz.
    eexists. eexists. eexists. split; [reflexivity|]. split; [reflexivity|]. split; [right; reflexivity|].
    assert (K : forall b, kcells b = put i KAGone (kcells a) -> kboxes b = kboxes a -> kinv E def s0 (runs [v] s) (put i KGone c) b).
    { intros b Eb Ex. eapply (kinv_put E def x Hs s0 (runs [v] s) (runs [v] s) c a b i KGone KAGone); [apply kinv_runs, H|apply keeps_refl|exact Eb|rewrite Ex; reflexivity|exact Logic.I|intros; exact Logic.I]. }
    unfold dbind, dret. rewrite (drop_value v false s V). cbv zeta. destruct (snd (act (e_name def) (concat (ev_fields v)) s)) eqn:Fu; cbn [draise].
    + right; left. exists v. eexists. eexists. split; [reflexivity|]. split; [intros p Hp; discriminate Hp|]. split; [reflexivity|]. split; [left; reflexivity|].
      split; [eexists; exact Fu|]. split; [left; reflexivity|]. split; [apply K; reflexivity|]. intros Ti. split; [rewrite runs_blocks by exact Ti; reflexivity|apply runs_events, Ti].
    + left. eexists. eexists. split; [left; reflexivity|]. split; [apply K; reflexivity|]. split; [intros Ti; split; [rewrite runs_blocks by exact Ti; reflexivity|apply runs_events, Ti]|].
      intros u [<-|[]]. eexists; exact Fu.
Qed.

End Facts.
