(** Proofs about programs of generated containers whose destructors may panic: state by state, they do what they do without panics. *)
From Coq Require Import Arith NArith String Bool List Lia.
From Verif Require Import Words Config Spec ConfigFacts Pointer PointerFacts Fmt Mem SpecMem MemFacts Box BoxFacts
  Macro SpecMacro MacroFacts Session SpecSession SessionFacts Containers SpecContainers Props_Box Props_Macro Props_Clone Props_Containers
  DropPanics SpecDropPanics DropPanicsFacts KDropPanics SpecKDropPanics.
Import ListNotations.
Local Open Scope N_scope.

Section Facts.
Variable E : env.
Variable x : expansion.
Variable fussy : st -> string -> leafval -> bool.

(** As [like], with the destructors run given. *)
Definition klike (l : list (string * leafval)) {A} (dm : DM A) (m : M A) (s : st) : Prop :=
  match m s with
  | Ok r s' =>
      (dm false s = DOk r s' /\ mellow fussy l) \/
      (exists n v, dm false s = DPanic (InDrop n v) s' /\ In (n, v) l /\ exists s1, fussy s1 n v = true) \/
      (exists s2, dm false s = DAbort s2 /\ one_fussy fussy l /\ (2 <= List.length l)%nat)
  | Panicked q s' =>
      (dm false s = DPanic (InCrate q) s' /\ mellow fussy l) \/
      (exists s2, dm false s = DAbort s2 /\ one_fussy fussy l /\ q = PanicNullAlloc)
  | UB _ => True
  end.

Lemma klike_pin {A} (dm : DM A) (m : M A) s l : like fussy dm m s ->
  (forall r s', m s = Ok r s' -> destroyed (events s') = destroyed (events s) ++ l) ->
  (forall q s', m s = Panicked q s' -> destroyed (events s') = destroyed (events s) ++ l) -> klike l dm m s.
Proof.
  unfold like, klike. intros H H1 H2. destruct (m s) as [r s'|q s'|u]; [| |exact Logic.I].
  - destruct H as (l2 & D & H). rewrite (H1 r s' eq_refl) in D. apply app_inv_head in D. subst l2. exact H.
  - destruct H as (l2 & D & H). rewrite (H2 q s' eq_refl) in D. apply app_inv_head in D. subst l2. exact H.
Qed.

Lemma klike_bind l {A B} (dm : DM A) (m : M A) (f : A -> B) s : klike l dm m s ->
  klike l (dbind dm (fun a => dret (f a))) (bind m (fun a => ret (f a))) s.
Proof.
  unfold klike, bind, dbind, ret, dret. destruct (m s) as [r s'|q s'|u]; [| |auto]; intros H.
  - destruct H as [[R M]|[(n & v & R & H)|(s2 & R & H)]]; rewrite R; [left; auto|right; left; eauto|right; right; eauto].
  - destruct H as [[R M]|(s2 & R & H)]; rewrite R; [left; auto|right; eauto].
Qed.

Lemma like_resolved {A B} (o : option A) (f : A -> DM B) (g : A -> M B) s : (forall a, like fussy (f a) (g a) s) ->
  like fussy (dbind (plainly (resolved o)) f) (bind (resolved o) g) s.
Proof.
  intros H. destruct o as [a|]; [|exact Logic.I]. specialize (H a). exact H.
Qed.

Lemma into_like v s : x_drop x = false -> like fussy (d_into E x fussy v) (macro_into E x v) s.
Proof.
  intros D. unfold d_into, macro_into, d_at_exit. rewrite D.
  apply (like_resolved (find_into (ev_variant v) (x_into x)) _ _ s). intros a.
  apply (like_resolved (bind_pattern x (ia_pat a) v) _ _ s). intros binds.
  apply (like_resolved (eval_tag x (ia_tag a)) _ _ s). intros tag.
  destruct (ia_body a) as [t arg|tys args|ms lit|]; cbn [d_into_body run_into_body].
  - apply like_resolved. intros vs. apply new_like.
  - apply like_resolved. intros vs. apply new_like.
  - apply like_resolved. intros vals. apply like_resolved. intros vs. apply new_like.
  - unfold like, ret, dret. exists []. rewrite app_nil_r. split; [reflexivity|]. left. split; [reflexivity|apply mellow_nil].
Qed.

Lemma from_payload_like f vals s : x_drop x = false ->
  like fussy (d_from_payload E x fussy f vals) (container_from_payload E x f vals) s.
Proof.
  intros D. destruct f as [t v|ts v idx]; cbn [d_from_payload container_from_payload]; [apply into_like, D|].
  apply like_resolved. intros vs. apply into_like, D.
Qed.

Lemma drop_evalue_like v s : x_drop x = false -> like fussy (d_drop_evalue x fussy v) (drop_evalue x v) s.
Proof.
  intros D. unfold like, d_drop_evalue, drop_evalue. rewrite D. cbn [app events].
  set (tys := match assoc (ev_variant v) (x_enum x) with Some k => kind_types k | None => [] end).
  exists (destroyed (drop_events tys (ev_fields v))). split; [apply destroyed_app|].
  destruct (glue_cases fussy tys (ev_fields v) false s) as [H|[(_ & n & w & H)|(s2 & R & H1 & [H2|H2])]];
    [left; exact H|right; left; eauto|discriminate H2|right; right; eauto].
Qed.

End Facts.

Section Step.
Variables (E : env) (def : edef) (x : expansion) (I : impls) (F : st -> meaning) (R : st -> st -> Prop).
Variable fussy : st -> string -> leafval -> bool.
Hypothesis Hs : macro_setup E def x.
Hypothesis HI : implements R def I F.
Hypothesis HR : forall s s', R s s' -> keeps s s'.
Hypothesis Hno : e_drop def = false.

Let Hd : def_ok def := ms_def _ _ _ Hs.
Let Hx : expand def = Some x := ms_expand _ _ _ Hs.
Let H8 := setup_u8 _ _ _ Hs.

Lemma x_no_drop : x_drop x = false.
Proof. rewrite (xp_drop _ _ (expand_inv _ _ Hx)). exact Hno. Qed.

Lemma value_destructors_eq v k : In (ev_variant v, k) (e_variants def) ->
  value_destructors def v = destroyed (drop_events (kind_types k) (ev_fields v)).
Proof.
  intros Hin. unfold value_destructors. rewrite (assoc_in _ _ _ (do_names _ Hd) Hin), destroyed_drop_events. reflexivity.
Qed.

(** Without memory the value needs some. *)
Lemma no_room_needs v s : no_room E def v s = true -> needs_block def v = true.
Proof.
  unfold no_room, needs_block. destruct (assoc _ _) as [k|]; [|discriminate]. destruct (storage k) as [U|]; [|discriminate].
  unfold no_block. destruct (h_size U =? 0); [discriminate|reflexivity].
Qed.

(** What storing a value destroys. *)
Lemma into_loses v s : evalue_fits E def v ->
  match macro_into E x v s with
  | Ok _ s' => destroyed (events s') = destroyed (events s) ++ unstored def (no_room E def v s) v /\ no_room E def v s = false
  | Panicked _ s' => destroyed (events s') = destroyed (events s) ++ unstored def (no_room E def v s) v
  | UB _ => False
  end.
Proof.
  intros [(k & Hin & Ht) Hfit]. unfold unstored. rewrite (value_destructors_eq v k Hin).
  assert (Nb : needs_block def v = match storage k with Some U => negb (h_size U =? 0) | None => false end).
  { unfold needs_block. rewrite (assoc_in _ _ _ (do_names _ Hd) Hin). reflexivity. }
  assert (Nr : no_room E def v s = match storage k with Some U => no_block E U s | None => false end).
  { unfold no_room. rewrite (assoc_in _ _ _ (do_names _ Hd) Hin). reflexivity. }
  destruct (macro_into_spec E def x Hd Hx H8 (ms_env _ _ _ Hs) v k s Hin Ht Hfit)
    as [(Hz & w & M & _) | [(U & Hu & Hz & A & M) | (U & p & w & Hu & Hz & A & M & _)]]; rewrite M.
  - assert (needs_block def v = false) as -> by (rewrite Nb; destruct (storage k) as [U|]; [rewrite Hz|]; reflexivity). cbn [andb].
    unfold exit_log. rewrite Hno, app_nil_r. unfold logged. cbn [events]. rewrite destroyed_app. split; [reflexivity|].
    rewrite Nr. destruct (storage k) as [U|]; [|reflexivity]. unfold no_block. rewrite Hz. reflexivity.
  - rewrite Nb, Nr, Hu. unfold no_block. rewrite (proj2 (N.eqb_neq _ _) Hz), A. cbn [negb andb].
    unfold exit_log. rewrite Hno, app_nil_r. unfold logged. cbn [events]. apply destroyed_app.
  - rewrite Nb, Nr, Hu. unfold no_block. rewrite (proj2 (N.eqb_neq _ _) Hz), A. cbn [negb andb]. split; [|reflexivity].
    unfold exit_log. rewrite Hno. unfold logged, stored. cbn [events]. rewrite !destroyed_app. cbn [destroyed]. rewrite !app_nil_r. reflexivity.
Qed.

Lemma into_klike v s : evalue_fits E def v -> klike fussy (unstored def (no_room E def v s) v) (d_into E x fussy v) (macro_into E x v) s.
Proof.
  intros Hv. pose proof (into_loses v s Hv) as L. apply klike_pin; [apply into_like, x_no_drop| |]; intros r s' M; rewrite M in L; [apply L|exact L].
Qed.

(** The calls that run destructors. *)
Definition kdestroys (o : kop) : bool :=
  match o with KFrom _ | KFromPayload _ _ | KClone _ | KAssign _ _ _ | KDropVal _ => true | _ => false end.

Lemma kstep_plainly o c : kdestroys o = false ->
  kd_step E x I fussy o c = option_map plainly (kstep E x I o c) /\ kd_after_panic o c = kafter_panic o c /\
  (forall G fail a, kloses def G fail o a = []) /\ (forall a a', kblown o a a' = a').
Proof. intros H. destruct o; try discriminate H; repeat split; reflexivity. Qed.

(** Where the container made by a call is. *)
Definition kmakes (o : kop) (c : list kcell) (w : tagged_ptr) : list kcell :=
  match o with KFrom i => put i (KBox w) c | _ => c ++ [KBox w] end.
Definition kstores (o : kop) : bool := match o with KFrom _ | KFromPayload _ _ | KClone _ => true | _ => false end.

Lemma kstep_like s0 s c a o m : kdestroys o = true -> kinv E def s0 s c a -> kcontract E def (F s) a o ->
  kastep def (F s) false o a <> None -> kstep E x I o c = Some m ->
  exists dm, kd_step E x I fussy o c = Some dm /\
    klike fussy (kloses def (F s) (kstarved E def x I o c s) o a) dm m s /\
    (forall r s', m s = Ok r s' -> kstarved E def x I o c s = false /\
       if kstores o then exists w, r = (KNothing, kmakes o c w) else kd_after_panic o c = snd r) /\
    (forall q s', m s = Panicked q s' -> kd_after_panic o c = kafter_panic o c).
Proof.
  intros H Hi Hc Hn S. destruct o as [v|i|src vals|i|i|i j|i j|i j|i o out|i o out|i o out|i|i|i n f|i n val|i|i|i|i]; try discriminate H;
    cbn [kastep kstep kd_step kloses kstarved kcontract] in *.
  - (* KFrom *)
    destruct (nth_error (kcells a) i) as [[id loc v|id v|]|] eqn:Hy; try contradiction.
    destruct (Forall2_nth _ _ _ _ _ (ki_rel _ _ _ _ _ _ Hi) Hy) as ([w|v'|] & Hz & Rz); cbn [krel] in Rz; try contradiction.
    destruct Rz as [-> V]. rewrite Hz in *. injection S as <-. eexists. split; [reflexivity|].
    pose proof (conj V (Hc id v eq_refl)) as Hv. split; [|split; [|reflexivity]].
    + apply (klike_bind fussy _ (d_into E x fussy v) (container_from E x v) (fun w => (KNothing, put i (KBox w) c))). apply into_klike, Hv.
    + intros r s' M. pose proof (into_loses v s Hv) as L. unfold bind, container_from in M. destruct (macro_into E x v s); try discriminate M.
      split; [apply L|]. cbn [kstores kmakes]. unfold ret in M. injection M as <- _. eauto.
  - (* KFromPayload *)
    destruct (payload_variant def src) as [n|] eqn:Pv; [|contradiction].
    destruct (payload_found E def x Hs src n vals Pv (proj1 Hc)) as (f & Ff & Hf). rewrite Ff in *. injection S as <-.
    eexists. split; [reflexivity|]. split; [|split; [|reflexivity]].
    + apply (klike_bind fussy _ (d_from_payload E x fussy f vals) (container_from_payload E x f vals) (fun w => (KNothing, c ++ [KBox w]))).
      pose proof (into_loses (EV n vals) s Hc) as L.
      apply klike_pin; [apply from_payload_like, x_no_drop| |]; intros r s' M; rewrite Hf in M; unfold container_from in M; rewrite M in L; [apply L|exact L].
    + intros r s' M. pose proof (into_loses (EV n vals) s Hc) as L. unfold bind in M. rewrite Hf in M. unfold container_from in M.
      destruct (macro_into E x (EV n vals) s); try discriminate M.
      split; [apply L|]. cbn [kstores kmakes]. unfold ret in M. injection M as <- _. eauto.
  - (* KClone *)
    destruct (nth_error (kcells a) i) as [[id loc v|id v|]|] eqn:Hy; try contradiction.
    destruct (Forall2_nth _ _ _ _ _ (ki_rel _ _ _ _ _ _ Hi) Hy) as ([w|v'|] & Hz & Rz); cbn [krel] in Rz; try contradiction.
    rewrite Hz in *. injection S as <-. eexists. split; [reflexivity|].
    destruct Rz as (B & V & Hm & Hlt). destruct (im_clone _ _ _ _ HI s v V) as [Cc Vc].
    assert (Cs : computes R s (bind (i_clone I v) (fun c0 => ret (Some c0)))
                   (match m_clone (F s) v with Done c0 => Done (Some c0) | Panics p => Panics p end)).
    { destruct Cc as (s1 & C1 & R1). exists s1. unfold bind. rewrite C1. destruct (m_clone (F s) v); auto. }
    destruct (view_one E def x R Hs s w v (fun this (_ : option evalue) => bind (i_clone I this) (fun c0 => ret (Some c0))) None _ B V Cs)
      as (s1 & V1 & _ & _).
    rewrite V1.
    assert (T : klike fussy (match m_clone (F s) v with Done c0 => unstored def (no_room E def c0 s1) c0 | Panics _ => [] end)
                  (d_clone E x I fussy w) (tb_clone (macro_taggable E x) (i_clone I) w) s).
    { assert (D1 : d_clone E x I fussy w false s =
                   match m_clone (F s) v with Done cv => d_into E x fussy cv false s1 | Panics p => DPanic (InCrate p) s1 end).
      { unfold d_clone, dbind, plainly. rewrite V1. destruct (m_clone (F s) v); reflexivity. }
      assert (D2 : tb_clone (macro_taggable E x) (i_clone I) w s =
                   match m_clone (F s) v with Done cv => macro_into E x cv s1 | Panics p => Panicked p s1 end).
      { unfold tb_clone. unfold bind at 1. cbn [ref_from_tagged_box macro_taggable into_tagged_box]. rewrite V1.
        destruct (m_clone (F s) v); reflexivity. }
      unfold klike. rewrite D1, D2. destruct (m_clone (F s) v) as [cv|p] eqn:Mc.
      - exact (into_klike cv s1 (conj (Vc cv eq_refl) (Hc id loc v cv eq_refl Mc))).
      - left. split; [reflexivity|apply mellow_nil]. }
    split; [|split; [|reflexivity]].
    + apply (klike_bind fussy _ _ _ (fun w' => (KNothing, c ++ [KBox w']))).
      destruct (m_clone (F s) v) as [cv|p]; cbn [ends]; exact T.
    + intros r s' M. unfold bind at 1 in M.
      assert (U : tb_clone (macro_taggable E x) (i_clone I) w s =
                  match m_clone (F s) v with Done cv => macro_into E x cv s1 | Panics p => Panicked p s1 end).
      { unfold tb_clone. unfold bind at 1. cbn [ref_from_tagged_box macro_taggable into_tagged_box]. rewrite V1.
        destruct (m_clone (F s) v); reflexivity. }
      rewrite U in M. destruct (m_clone (F s) v) as [cv|p] eqn:Mc; [|discriminate M]. cbn [ends].
      pose proof (into_loses cv s1 (conj (Vc cv eq_refl) (Hc id loc v cv eq_refl Mc))) as L.
      destruct (macro_into E x cv s1); try discriminate M.
      split; [apply L|]. cbn [kstores kmakes]. unfold ret in M. injection M as <- _. eauto.
  - (* KAssign *)
    destruct (nth_error (kcells a) i) as [[id loc v|id v|]|] eqn:Hy; try contradiction.
    destruct (only_field def n) as [t|] eqn:Of; [|contradiction].
    destruct (Forall2_nth _ _ _ _ _ (ki_rel _ _ _ _ _ _ Hi) Hy) as ([w|v'|] & Hz & Rz); cbn [krel] in Rz; try contradiction.
    destruct Rz as (B & V & Hm & Hlt). destruct (Hc id loc v eq_refl) as [Ev Vn].
    destruct (only_field_leaf E def x Hs n t Of) as [Hin Lt']. rewrite <- Ev in Hin. rewrite Hz, Lt' in *. injection S as <-.
    destruct (boxed_leaf E def x Hs s w v t B Hin) as (Bl & Hl).
    destruct (C17_assign E (leaf_hty t) w (ev_fields v) [val] s (ms_env _ _ _ Hs) Hl) as (s' & M1 & _ & _ & M4 & _).
    { apply leaf_hval. rewrite <- Ev in Vn. apply (leaf_value E def x Hs (EV (ev_variant v) [val]) t Hin Vn). }
    { exact Bl. }
    eexists. split; [reflexivity|]. split; [|split; [|reflexivity]].
    + apply (klike_bind fussy _ _ _ (fun _ => (KNothing, c))). apply klike_pin; [apply assign_like| |].
      * intros r s2 M. change (assign_at (leaf_hty t) (tp_mut_ref_addr (tgt E) w) [val]) with (tb_assign E (leaf_hty t) w [val]) in M.
        rewrite M1 in M. injection M as _ <-. rewrite M4. f_equal.
        rewrite (value_destructors_eq v _ Hin), destroyed_drop_events. reflexivity.
      * intros q s2 M. change (assign_at (leaf_hty t) (tp_mut_ref_addr (tgt E) w) [val]) with (tb_assign E (leaf_hty t) w [val]) in M.
        rewrite M1 in M. discriminate M.
    + intros r s2 M. split; [reflexivity|]. unfold bind at 1 in M. rewrite M1 in M. injection M as <- _. reflexivity.
  - (* KDropVal *)
    destruct (nth_error (kcells a) i) as [[id loc v|id v|]|] eqn:Hy; try contradiction.
    destruct (Forall2_nth _ _ _ _ _ (ki_rel _ _ _ _ _ _ Hi) Hy) as ([w|v'|] & Hz & Rz); cbn [krel] in Rz; try contradiction.
    destruct Rz as [-> (k & Hin & Ht)]. rewrite Hz in *. injection S as <-.
    eexists. split; [reflexivity|]. split; [|split].
    + apply (klike_bind fussy _ _ _ (fun _ => (KNothing, put i KGone c))). apply klike_pin; [apply drop_evalue_like, x_no_drop| |].
      * intros r s2 M. unfold drop_evalue in M. injection M as _ <-. rewrite x_no_drop. cbn [events app]. rewrite destroyed_app. f_equal.
        rewrite (value_destructors_eq v _ Hin), (xp_enum _ _ (expand_inv _ _ Hx)), (assoc_in _ _ _ (do_names _ Hd) Hin). reflexivity.
      * intros q s2 M. discriminate M.
    + intros r s2 M. split; [reflexivity|]. injection M as <- _. reflexivity.
    + intros q s2 M. discriminate M.
Qed.

Lemma put_put {A} (y z : A) l : forall i, put i y (put i z l) = put i y l.
Proof. induction l as [|b l IH]; intros [|i]; cbn [put]; [reflexivity..|rewrite IH; reflexivity]. Qed.
Lemma put_end {A} (y z : A) l : put (List.length l) y (l ++ [z]) = l ++ [y].
Proof. induction l as [|b l IH]; cbn [List.length app put]; [reflexivity|rewrite IH; reflexivity]. Qed.

Lemma kinv_burst s0 s c a i w : kinv E def s0 s c a -> nth_error c i = Some (KBox w) -> kinv E def s0 s (put i KGone c) (kburst i a).
Proof.
  intros H Hz.
  destruct (nth_error (kcells a) i) as [y|] eqn:Hy.
  - destruct (Forall2_nth _ _ _ _ _ (ki_rel _ _ _ _ _ _ H) Hy) as (z & Hz' & Rz). rewrite Hz in Hz'. injection Hz' as <-.
    destruct y as [id loc v|id v|]; cbn [krel] in Rz; try contradiction. unfold kburst. rewrite Hy.
    eapply (kinv_put E def x Hs s0 s s c a); [exact H|apply keeps_refl|reflexivity|reflexivity|exact Logic.I|intros; exact Logic.I].
  - exfalso. apply nth_error_None in Hy. assert (i < List.length c)%nat by (apply nth_error_Some; congruence).
    pose proof (Forall2_len _ _ _ (ki_rel _ _ _ _ _ _ H)). lia.
Qed.

(** A step of a program: as without panics; or all done, but for a container made; or aborted. *)
Lemma kd_step_sim s0 s c a o : kinv E def s0 s c a -> kcontract E def (F s) a o -> kastep def (F s) false o a <> None ->
  let fail := kstarved E def x I o c s in
  exists r a' c' s' dm, kastep def (F s) fail o a = Some (r, a') /\ kd_step E x I fussy o c = Some dm /\
    kinv E def s0 s' c' a' /\
    ((R s (kcalled I o a s) \/ kcalled I o a s = s) /\ ktracks def (kcalled I o a s) a s' a') /\
    (((dm false s = DOk (r, c') s' \/ exists p, r = KSawPanic p /\ dm false s = DPanic (InCrate p) s' /\ c' = kd_after_panic o c) /\
      mellow fussy (kloses def (F s) fail o a)) \/
     (exists n v, fail = false /\ dm false s = DPanic (InDrop n v) s' /\ In (n, v) (kloses def (F s) false o a) /\ (exists t, fussy t n v = true) /\
        kinv E def s0 s' (kd_after_panic o c) (kblown o a a')) \/
     (exists s2, dm false s = DAbort s2 /\ kmay_abort def fussy (F s) fail o a)).
Proof.
  intros H Hc Hn fail. destruct (kstep_sim E def x I F R Hs HI HR s0 s c a o H Hc Hn) as (f & m & r & a' & c' & s' & H1 & H2 & H3 & H4 & H5 & H6).
  subst f. fold fail in H1. exists r, a', c', s'. destruct (kdestroys o) eqn:De.
  - destruct (kstep_like s0 s c a o m De H Hc Hn H2) as (dm & S1 & L & A1 & A2). fold fail in L, A1. exists dm. do 4 (split; [assumption|]).
    unfold klike in L. destruct H3 as [M|(q & -> & M & ->)]; rewrite M in L.
    + destruct (A1 _ _ M) as [Nf A3]. destruct L as [[L1 L2]|[(n & v & L1 & L2 & L3)|(s2 & L1 & L2 & L3)]].
      * left. split; [left; exact L1|exact L2].
      * right; left. exists n, v. split; [exact Nf|]. split; [exact L1|]. rewrite Nf in L2. split; [exact L2|]. split; [exact L3|].
        destruct o; try discriminate De; cbn [kstores kmakes kblown kd_after_panic kafter_panic snd] in *.
        -- destruct A3 as (w & A3). injection A3 as -> ->. rewrite <- (put_put KGone (KBox w)). eapply kinv_burst; [exact H4|].
           apply put_same. apply nth_error_Some. cbn [kstep] in H2. destruct (nth_error c i); [discriminate|discriminate H2].
        -- destruct A3 as (w & A3). injection A3 as -> ->. rewrite <- (put_end KGone (KBox w)), <- (Forall2_len _ _ _ (ki_rel _ _ _ _ _ _ H)).
           eapply kinv_burst; [exact H4|]. rewrite nth_error_app2 by lia. rewrite Nat.sub_diag. reflexivity.
        -- destruct A3 as (w & A3). injection A3 as -> ->. rewrite <- (put_end KGone (KBox w)), <- (Forall2_len _ _ _ (ki_rel _ _ _ _ _ _ H)).
           eapply kinv_burst; [exact H4|]. rewrite nth_error_app2 by lia. rewrite Nat.sub_diag. reflexivity.
        -- rewrite A3. exact H4.
        -- rewrite A3. exact H4.
      * right; right. exists s2. split; [exact L1|]. split; [exact L2|right; exact L3].
    + destruct L as [[L1 L2]|(s2 & L1 & L2 & Lq)].
      * left. split; [right|exact L2]. exists q. split; [reflexivity|]. split; [exact L1|]. symmetry. exact (A2 _ _ M).
      * right; right. exists s2. split; [exact L1|]. split; [exact L2|]. left. subst q.
        destruct L2 as (n & v & t & L2 & _). destruct fail eqn:Ef; [reflexivity|exfalso].
        destruct o; try discriminate De; cbn [kastep kloses] in H1, L2.
        -- destruct (nth_error (kcells a) i) as [[]|]; try discriminate H1. unfold kstore in H1. rewrite andb_false_r in H1. discriminate H1.
        -- destruct (payload_variant def src); try discriminate H1. unfold kstore in H1. rewrite andb_false_r in H1. discriminate H1.
        -- destruct (nth_error (kcells a) i) as [[]|]; try discriminate H1. destruct (m_clone (F s) v0); [|destruct L2].
           unfold kstore in H1. rewrite andb_false_r in H1. discriminate H1.
        -- destruct (nth_error (kcells a) i) as [[]|]; try discriminate H1. destruct (only_field def n0); discriminate H1.
        -- destruct (nth_error (kcells a) i) as [[]|]; discriminate H1.
  - destruct (kstep_plainly o c De) as (S1 & S2 & S3 & S4). rewrite S1, H2. exists (plainly m). do 4 (split; [assumption || reflexivity|]).
    left. rewrite S3. split; [|apply mellow_nil].
    unfold plainly. destruct H3 as [M|(q & -> & M & ->)]; rewrite M; [left; reflexivity|right]. exists q. rewrite S2. auto.
Qed.

End Step.
