(** Property C70: programs using the [TaggedBox] API with destructors that panic. *)
From Coq Require Import Arith NArith String Bool List Lia.
From Verif Require Import Words Config Spec ConfigFacts Pointer PointerFacts Mem SpecMem MemFacts Box BoxFacts Bump
  Props_Pointer Props_Box Session SpecSession SessionFacts Props_Session DropPanics SpecDropPanics DropPanicsFacts.
Import ListNotations.
Local Open Scope N_scope.

(** ** C70 Destructors that panic *)

Lemma counted_blown o a x a' : astep false o a = Some (x, a') -> counted a' -> counted (blown o a a').
Proof.
  intros H C. destruct o; try exact C. cbn [blown]. intros n. specialize (C n). unfold live_ids in *. cbn [cells dead next].
  cbn [astep] in H. destruct (h_size U =? 0); injection H as <- <-; cbn [cells dead next] in *;
    unfold occ in *; rewrite !flat_map_app, !count_occ_app in *; cbn [flat_map cell_id app count_occ] in *; lia.
Qed.

Lemma blown_rest o a a' : dead (blown o a a') = dead a' /\ made (blown o a a') = made a' /\ freed (blown o a a') = freed a'.
Proof. destruct o; auto. Qed.

Lemma tracks_trans E s a s1 a1 s2 a2 : tracks E s a s1 a1 -> tracks E s1 a1 s2 a2 -> tracks E s a s2 a2.
Proof.
  intros [(l1 & D1 & D2) B1] [(l2 & D3 & D4) B2]. split; [|lia].
  exists (l1 ++ l2). rewrite D3, D1, D4, D2, dead_destructors_app, !app_assoc. auto.
Qed.

Lemma aborted_some E fussy p c s seen s' : d_run E fussy p c s = (seen, DAborted s') -> d_shortages E fussy p c s <> [].
Proof. destruct p; discriminate. Qed.

Lemma d_run_sim E fussy : env_ok E -> forall p c s0 s a, inv E s0 s c a -> counted a -> d_follows E p a ->
  exists seen q b, d_goes fussy p a seen q b /\
    ((q = DStop /\ exists c' s', d_run E fussy p c s = (seen, DFinished c' s') /\ inv E s0 s' c' b /\ tracks E s a s' b /\ counted b) \/
     (exists o k s', q = DDo o k /\ d_run E fussy p c s = (seen, DAborted s') /\ may_abort (last (d_shortages E fussy p c s) false) fussy o b)).
Proof.
  intros HE p. induction p as [|o k IH]; intros c s0 s a I C F.
  - exists [], DStop, a. split; [constructor|]. left. split; [reflexivity|]. exists c, s. split; [reflexivity|]. split; [exact I|].
    split; [apply tracks_refl; reflexivity|exact C].
  - destruct F as [Hc Hf].
    assert (Hn : astep false o a <> None) by (specialize (Hf false); destruct (astep false o a); [discriminate|contradiction]).
    destruct (d_step_sim E fussy HE s0 s c a o I Hc Hn) as (fail & x & a' & c' & s' & dm & H1 & H2 & H3 & H4 & H).
    pose proof (counted_step _ _ _ _ _ C H1) as C'.
    assert (Lm : forall b0 l o b, may_abort (last l false) fussy o b -> l <> [] -> may_abort (last (b0 :: l) false) fussy o b)
      by (intros b0 [|b1 l] o1 b1' Q X; [contradiction|exact Q]).
    cbn [d_run d_shortages]. rewrite H2. destruct H as [[R M]|[(n & v & Hb & R & V & (s1 & Fs) & I')|(s2 & R & A)]].
    + specialize (Hf fail). rewrite H1 in Hf. destruct Hf as [Hf _].
      destruct (IH (Saw x) c' s0 s' a' H3 C' Hf) as (seen & q & b & G & K).
      exists (Saw x :: seen), q, b. split; [eapply goes_on; eassumption|].
      assert (D : exists e, d_run E fussy (k (Saw x)) c' s' = (seen, e) /\ (let (l, e0) := d_run E fussy (k (Saw x)) c' s' in (Saw x :: l, e0)) = (Saw x :: seen, e)).
      { destruct K as [(_ & c2 & s2 & K & _)|(o2 & k2 & s2 & _ & K & _)]; rewrite K; eauto. }
      destruct D as (e & D1 & D2).
      assert (T : (match dm false s with
                   | DOk (x0, c'0) s'0 => let (l, e0) := d_run E fussy (k (Saw x0)) c'0 s'0 in (Saw x0 :: l, e0)
                   | DPanic q0 s'0 => let (l, e0) := d_run E fussy (k (caught q0)) (d_after_panic o c) s'0 in (caught q0 :: l, e0)
                   | DAbort s'0 => ([], DAborted s'0)
                   | DUB u => ([], DUndefined u)
                   end) = (Saw x :: seen, e) /\
                  (match dm false s with
                   | DOk (x0, c'0) s'0 => d_shortages E fussy (k (Saw x0)) c'0 s'0
                   | DPanic q0 s'0 => d_shortages E fussy (k (caught q0)) (d_after_panic o c) s'0
                   | DAbort _ | DUB _ => []
                   end) = d_shortages E fussy (k (Saw x)) c' s').
      { destruct R as [R|(pq & -> & R & ->)]; rewrite R; (split; [exact D2|reflexivity]). }
      destruct T as [T T']. rewrite T, T'.
      assert (K' : forall o2 k2 s2, q = DDo o2 k2 -> (seen, e) = (seen, DAborted s2) -> d_shortages E fussy (k (Saw x)) c' s' <> [])
        by (intros o2 k2 s2 _ Q; rewrite Q in D1; eapply aborted_some, D1).
      rewrite D1 in K.
      destruct K as [(-> & c2 & s2 & K & Ki & Kt & Kc)|(o2 & k2 & s2 & -> & K & Ka)]; injection K as ->.
      * left. split; [reflexivity|]. exists c2, s2. split; [reflexivity|]. split; [exact Ki|]. split; [eapply tracks_trans; eassumption|exact Kc].
      * right. exists o2, k2, s2. split; [reflexivity|]. split; [reflexivity|]. apply Lm; [exact Ka|]. eapply K'; reflexivity.
    + specialize (Hf false). rewrite Hb in Hf. destruct Hf as [_ Hf]. specialize (Hf n v eq_refl V).
      destruct (IH (SawDropPanic n v) (d_after_panic o c) s0 s' (blown o a a') I' (counted_blown _ _ _ _ Hb C') Hf) as (seen & q & b & G & K).
      exists (SawDropPanic n v :: seen), q, b. split; [eapply goes_blown; eauto|]. rewrite R. cbn [caught].
      destruct (blown_rest o a a') as (B1 & B2 & B3).
      destruct K as [(-> & c2 & s2 & K & Ki & Kt & Kc)|(o2 & k2 & s2 & -> & K & Ka)]; rewrite K.
      * left. split; [reflexivity|]. exists c2, s2. split; [reflexivity|]. split; [exact Ki|]. split; [|exact Kc].
        eapply tracks_trans; [exact H4|]. unfold tracks in *. rewrite B1, B2, B3 in Kt. exact Kt.
      * right. exists o2, k2, s2. split; [reflexivity|]. split; [reflexivity|]. apply Lm; [exact Ka|]. eapply aborted_some, K.
    + rewrite R. exists [], (DDo o k), a. split; [constructor|]. right. exists o, k, s2. auto.
Qed.

(** Whatever destructors panic, a program that keeps the contract never runs into undefined behaviour. It sees what the program on plain
    variables sees. A call in which a destructor panics has still done all of its work: the new value of an assignment is in place, the
    block of a [Box] is freed, the other fields are destroyed. No value is destroyed twice, none that was destroyed is still held, and
    other memory is not touched. The program is aborted only in a call that destroys something with a panicking destructor while there is
    another panic: out of memory, or another destructor's. *)
Theorem C70_history : forall E fussy p s, env_ok E -> d_follows E p a0 ->
  exists seen q a, d_goes fussy p a0 seen q a /\
    ((q = DStop /\ exists c s', d_run E fussy p [] s = (seen, DFinished c s') /\ keeps s s' /\
        Forall2 (shows E s') c (cells a) /\
        destroyed (events s') = destroyed (events s) ++ dead_destructors (dead a) /\
        NoDup (live_ids a ++ dead_ids (dead a)) /\
        (List.length (blocks s') + freed a = List.length (blocks s) + made a)%nat) \/
     (exists o k s', q = DDo o k /\ d_run E fussy p [] s = (seen, DAborted s') /\ may_abort (last (d_shortages E fussy p [] s) false) fussy o a)).
Proof.
  intros E fussy p s HE F.
  assert (I0 : inv E s s [] a0).
  { constructor; [reflexivity| | | |apply keeps_refl]; intros i; [intros x y H|intros j x y _ H|intros x b H]; destruct i; discriminate. }
  assert (C0 : counted a0) by (intros m; cbn; destruct (m <? 0)%nat; lia).
  destruct (d_run_sim E fussy HE p [] s s a0 I0 C0 F) as (seen & q & a & G & K). exists seen, q, a. split; [exact G|].
  destruct K as [(-> & c & s' & R & I & [(l & D1 & D2) B] & C)|K]; [left|right; exact K].
  split; [reflexivity|]. exists c, s'. cbn in D1, B. subst l. split; [exact R|]. split; [exact (iv_base _ _ _ _ _ I)|].
  split; [exact (inv_shows _ _ _ _ _ I)|]. split; [exact D2|]. split; [|lia].
  apply (NoDup_count_occ Nat.eq_dec). intros n. specialize (C n). unfold occ in C. rewrite count_occ_app. destruct (n <? next a)%nat; lia.
Qed.

(** *** Destructors that do not panic *)

(** Then nothing is different from [Session.v]. *)
Theorem C70_calm : forall E fussy p c s, (forall s n v, fussy s n v = false) ->
  d_run E fussy p c s =
    (map Saw (fst (run E (without_panics p) c s)),
     match snd (run E (without_panics p) c s) with
     | Finished c' s' => DFinished c' s'
     | Undefined u => DUndefined u
     | DoesNotCompile => DDoesNotCompile
     end).
Proof.
  intros E fussy p c s Q. revert c s.
  assert (G : forall tys vs u s, d_drop_fields fussy tys vs u s = DOk tt (St (bytes s) (blocks s) (events s ++ drop_events tys vs))).
  { induction tys as [|t tys IH]; intros [|v vs] u s0; cbn [d_drop_fields drop_events];
      try (unfold dret; rewrite app_nil_r; destruct s0; reflexivity).
    unfold finally, d_drop_leaf, dbind. destruct (ty_drop t); [rewrite Q|]; rewrite IH; cbn [log bytes blocks events app]; [|reflexivity].
    rewrite <- app_assoc. reflexivity. }
  assert (D : forall U vs u s, d_drop fussy U vs u s = DOk tt (dropped U vs s)) by (intros; apply G).
  assert (P : forall A (m : M A) s, plainly m false s = match m s with Ok a s' => DOk a s' | Panicked p s' => DPanic (InCrate p) s' | UB u => DUB u end)
    by reflexivity.
  assert (S : forall o c s, match d_step E fussy o c, step E o c with
              | Some dm, Some m => dm false s = plainly m false s /\ forall q s', m s = Panicked q s' -> d_after_panic o c = after_panic o c
              | None, None => True | _, _ => False end).
  { intros o c s.
    assert (N1 : forall U p s q s', read_at U p s <> Panicked q s').
    { intros U p0 s1 q s'. unfold read_at, bind, check_access. repeat (match goal with |- context [if ?b then _ else _] => destruct b end; try discriminate).
      destruct (read_fields _ _ _); discriminate. }
    assert (As : forall U p val s, d_assign fussy U p val false s = plainly (assign_at U p val) false s).
    { intros U p0 val s1. unfold d_assign, assign_at, plainly, dbind, bind. destruct (read_at U p0 s1) as [old s2|q s2|u]; try reflexivity.
      unfold finally. rewrite D. unfold drop_hval, dbind, dret. fold (dropped U old s2). destruct (write_at U p0 val (dropped U old s2)) as [[] ?|? ?|?]; reflexivity. }
    destruct o as [u U val d|i|i|i|i f|i val|i|i|i d|i|i|i|i|i|i|i|i val|i|i val].
    { cbn [d_step step]. split; [|reflexivity].
      assert (Hu : (if u then tb_new_unchecked E U val d else tb_new E U val d) = tb_new E U val d) by (destruct u; reflexivity). rewrite Hu. clear Hu.
      assert (K : d_new E fussy U val d false s = plainly (tb_new E U val d) false s).
      { unfold d_new, tb_new. destruct (h_size U =? 0).
        - unfold finally, dret, dbind. rewrite D. reflexivity.
        - unfold dbind, plainly, bind. unfold alloc. destruct (alloc_fn E s (h_size U) (h_align U)) as [p0|].
          + set (s1 := St _ _ _). destruct (write_at U p0 val s1) as [[] ?|? ?|?]; reflexivity.
          + unfold finally, draise. rewrite D. reflexivity. }
      unfold dbind. rewrite K. unfold plainly, bind. destruct (tb_new E U val d s); reflexivity. }
    all: try (cbn [d_step option_map]; match goal with |- context [option_map plainly ?x] => destruct x as [m|] eqn:Em end; cbn [option_map]; [split; reflexivity|exact Logic.I]).
    all: cbn [d_step step]; try (destruct (nth_error c i) as [[U w|U p0|U p0|U v|]|]; try exact Logic.I).
    all: try (cbn [option_map]; split; reflexivity).
    - change (tb_assign E U w val) with (assign_at U (tp_mut_ref_addr (tgt E) w) val).
      split; [|reflexivity]. unfold dbind. rewrite As. unfold plainly, bind at 1. destruct (assign_at U (tp_mut_ref_addr (tgt E) w) val s); reflexivity.
    - assert (K : d_rbox_drop fussy U p0 false s = plainly (rbox_drop U p0) false s).
      { unfold d_rbox_drop, rbox_drop, plainly, dbind, bind. destruct (read_at U p0 s) as [v s2|q s2|e]; try reflexivity.
        unfold finally. rewrite D. unfold drop_hval, dbind, dret. fold (dropped U v s2). destruct (h_size U =? 0); [reflexivity|].
        destruct (dealloc p0 (h_size U) (h_align U) (dropped U v s2)) as [[] ?|? ?|?]; reflexivity. }
      split; [unfold dbind; rewrite K; unfold plainly, bind at 1; destruct (rbox_drop U p0 s); reflexivity|].
      intros q s'. unfold bind at 1. destruct (rbox_drop U p0 s) as [? ?|q0 s0|?] eqn:R; intros X; try discriminate X. exfalso.
      unfold rbox_drop, bind, drop_hval, ret in R. destruct (read_at U p0 s) as [v s1|q1 s1|u1] eqn:R1; try discriminate R.
      + destruct (h_size U =? 0); [discriminate R|]. unfold dealloc in R. destruct (existsb _ _) in R; discriminate R.
      + exact (N1 _ _ _ _ _ R1).
    - split; [|intros q s' X; discriminate X]. unfold dbind. rewrite D. reflexivity.
    - split; [|reflexivity]. unfold dbind. rewrite As. unfold plainly, bind at 1. destruct (assign_at U (tb_as_mut_ptr E w) val s); reflexivity.
    - split; [|reflexivity]. unfold dbind. rewrite As. unfold plainly, bind at 1. destruct (assign_at U p0 val s); reflexivity. }
  induction p as [|o k IH]; intros c s; cbn [d_run without_panics run]; [reflexivity|].
  specialize (S o c s). destruct (d_step E fussy o c) as [dm|], (step E o c) as [m|]; try contradiction; [|reflexivity].
  destruct S as [S1 S2]. rewrite S1, P. destruct (m s) as [[x c'] s'|q s'|u]; [| |reflexivity].
  - rewrite IH. destruct (run E (without_panics (k (Saw x))) c' s') as [l e]. reflexivity.
  - rewrite (S2 q s' eq_refl). cbn [caught]. rewrite IH. destruct (run E (without_panics (k (Saw (SawPanic q)))) (after_panic o c) s') as [l e]. reflexivity.
Qed.

(** *** Aborting *)

Definition cell_simple (y : acell) : Prop :=
  match y with ABox U _ _ _ | ARaw U _ _ | ARust U _ _ | AVal U _ _ => simple U | AGone => True end.

Lemma simple_destructors U v : simple U -> (List.length (destructors U v) <= 1)%nat.
Proof.
  unfold simple, destructors. rewrite map_length. intros H. eapply Nat.le_trans; [|exact H]. clear H.
  generalize (h_types U) as tys. induction v as [|w v IH]; intros [|t tys]; cbn [combine filter List.length]; try lia.
  specialize (IH tys). cbn [fst]. destruct (ty_drop t); cbn [List.length]; lia.
Qed.

Lemma simple_put l i y : Forall cell_simple l -> cell_simple y -> Forall cell_simple (put i y l).
Proof. intros H Hy. revert i. induction H as [|z l Hz H IH]; intros [|i]; cbn [put]; constructor; auto. Qed.

Lemma simple_step fail o a x a' : Forall cell_simple (cells a) -> match o with NewBox _ U _ _ => simple U | _ => True end ->
  astep fail o a = Some (x, a') ->
  Forall cell_simple (cells a') /\ exists l, dead a' = dead a ++ l /\ (List.length (dead_destructors l) <= 1)%nat.
Proof.
  intros F Ho H.
  assert (N : forall n, exists l, dead a = dead a ++ l /\ (List.length (dead_destructors l) <= S n)%nat)
    by (intros n; exists []; rewrite app_nil_r; cbn; split; [reflexivity|lia]).
  assert (K : forall id U v, simple U -> exists l, dead a ++ [(id, U, v)] = dead a ++ l /\ (List.length (dead_destructors l) <= 1)%nat).
  { intros id U v Hs. eexists. split; [reflexivity|]. cbn. rewrite app_nil_r. apply simple_destructors, Hs. }
  destruct o as [u U val d|i|i|i|i f|i val|i|i|i d|i|i|i|i|i|i|i|i val|i|i val]; cbn [astep] in H.
  { assert (A : forall y, cell_simple y -> Forall cell_simple (cells a ++ [y])) by (intros y Hy; apply Forall_app; auto).
    destruct (h_size U =? 0); [|destruct fail]; injection H as <- <-; cbn [cells dead]; (split; [apply A; cbn; auto|auto]). }
  all: destruct (nth_error (cells a) i) as [[]|] eqn:Hy; try discriminate H; injection H as <- <-; cbn [set kill free cells dead];
    rewrite Forall_forall in F; pose proof (F _ (nth_error_In _ _ Hy)) as Hs; rewrite <- Forall_forall in F; cbn [cell_simple] in Hs;
    (split; [first [exact F | apply simple_put; [exact F|cbn; auto]]|auto]).
Qed.

Lemma goes_simple fussy p a seen q b : d_goes fussy p a seen q b -> all_simple p -> Forall cell_simple (cells a) ->
  all_simple q /\ Forall cell_simple (cells b).
Proof.
  intros G. induction G as [p a|o k a fail x a' l q b H M G IH|o k a x a' n v l q b H V M G IH]; intros S F.
  - auto.
  - destruct S as [S1 S2]. destruct (simple_step _ _ _ _ _ F S1 H) as [F' _]. apply IH; auto.
  - destruct S as [S1 S2]. destruct (simple_step _ _ _ _ _ F S1 H) as [F' _]. apply IH; [auto|].
    destruct o; try exact F'. cbn [blown cells]. apply Forall_app. split; [exact F|]. repeat constructor.
Qed.

(** While there is memory, a program whose types have at most one destructor each is never aborted. *)
Theorem C70_no_abort : forall E fussy p s, env_ok E -> d_follows E p a0 -> all_simple p -> ~ In true (d_shortages E fussy p [] s) ->
  exists seen c s', d_run E fussy p [] s = (seen, DFinished c s').
Proof.
  intros E fussy p s HE F S A. destruct (C70_history E fussy p s HE F) as (seen & q & a & G & [(_ & c & s' & R & _)|(o & k & s' & -> & _ & M)]).
  - eauto.
  - exfalso. destruct (goes_simple _ _ _ _ _ _ G S) as [[S1 _] F1]; [constructor|].
    destruct M as (x & a' & l & H1 & H2 & _ & [H3|H3]).
    + apply A. clear - H3. induction (d_shortages E fussy p [] s) as [|b l IH]; [discriminate H3|].
      destruct l as [|b2 l]; [left; exact H3|right; apply IH, H3].
    + destruct (simple_step _ _ _ _ _ F1 S1 H1) as (_ & l2 & H4 & H5). rewrite H2 in H4. apply app_inv_head in H4. subst l2. lia.
Qed.

(** *** Examples *)

(** The destructors of strings panic. A string is assigned to a box holding one, which panics, but the new one is there; the box is turned into a
    [Box] and dropped, which panics, but its block is freed. *)
Definition all_fussy : st -> string -> leafval -> bool := fun _ _ _ => true.
Definition d_go (l : list op) : dprog := fold_right (fun o p => DDo o (fun _ => p)) DStop l.
Definition b_string : leafval := le_bytes 8 0x8000 ++ le_bytes 8 4 ++ le_bytes 8 4.
Definition fussy_prog : dprog :=
  DDo (NewBox false U_str v_str 3) (fun x =>
    match x with Saw SawNothing => d_go [Assign 0 [b_string]; Read 0; IntoBox 0; RustDrop 0] | _ => DStop end).

Lemma fussy_follows : d_follows (bump_env dbg60) fussy_prog a0.
Proof.
  destruct example_values_ok as (_ & _ & L2 & V2 & _).
  assert (V3 : hval_ok U_str [b_string]) by (repeat constructor).
  cbn [fussy_prog d_follows]. split; [split; [exact L2|]; split; [exact V2|]; vm_compute max_discriminant; discriminate|].
  assert (G : forall a, cells a = [ABox U_str 0 v_str 3] -> d_follows (bump_env dbg60) (d_go [Assign 0 [b_string]; Read 0; IntoBox 0; RustDrop 0]) a).
  { intros a Ca. cbn [d_go fold_right d_follows contract astep nth_error put cells set kill free blown]. rewrite Ca.
    repeat (cbn [put nth_error cells set kill free]; first [exact Logic.I | exact V3 | split | intro]). }
  intros []; cbn [astep]; change (h_size U_str =? 0) with false; cbv beta iota.
  - split; [exact Logic.I|]. intros n v Q. discriminate Q.
  - split; [apply G; reflexivity|]. intros n v _ _. exact Logic.I.
Qed.

Example C70_example : let E := bump_env dbg60 in
  env_ok E /\ d_follows E fussy_prog a0 /\ all_simple fussy_prog /\ ~ In true (d_shortages E all_fussy fussy_prog [] st0) /\
  fst (d_run E all_fussy fussy_prog [] st0)
    = [Saw SawNothing; SawDropPanic "String" a_string; Saw (SawValue [b_string]); Saw SawNothing; SawDropPanic "String" b_string] /\
  match snd (d_run E all_fussy fussy_prog [] st0) with
  | DFinished c s => c = [CGone] /\ blocks s = [] /\ destroyed (events s) = [("String", a_string); ("String", b_string)]%string
  | _ => False
  end.
Proof.
  split; [apply bump_env_ok, example_targets_ok|]. split; [exact fussy_follows|]. split.
  { split; [unfold simple; cbn; lia|]. intros [[]|]; cbn; intuition. }
  vm_compute. intuition discriminate.
Qed.

(** Two panics end the program: of two fields, or out of memory. A zero-sized value is destroyed by [new] itself, which then returns no box. *)
Definition U_pair : hty := reprC [ty_string; ty_string].
Definition pair_prog : dprog := d_go [NewBox false U_pair [a_string; b_string] 3; IntoInner 0; DropValue 0].
Example C70_abort_example :
  (exists s, d_run (bump_env dbg60) all_fussy pair_prog [] st0 = ([Saw SawNothing; Saw (SawValue [a_string; b_string])], DAborted s) /\
     destroyed (events s) = [("String", a_string); ("String", b_string)]%string) /\
  (exists s, d_run (bump_env dbg60) (fun _ _ v => match v with Byte 0 :: Byte 112 :: _ => true | _ => false end) pair_prog [] st0
     = ([Saw SawNothing; Saw (SawValue [a_string; b_string]); SawDropPanic "String" a_string], DFinished [CGone] s) /\
     destroyed (events s) = [("String", a_string); ("String", b_string)]%string) /\
  (exists s, d_run (Env dbg60 no_memory reprC) all_fussy fussy_prog [] st0 = ([], DAborted s)) /\
  (exists s, d_run (bump_env dbg60) all_fussy (d_go [NewBox false U_guard v_guard 3]) [] st0
     = ([SawDropPanic "Guard" []], DFinished [CGone] s)).
Proof. repeat split; eexists; vm_compute; intuition reflexivity. Qed.

(** ** Instances: each theorem applied to a concrete case that meets its hypotheses *)

Example C70_history_example : exists a, d_goes all_fussy fussy_prog a0
    [Saw SawNothing; SawDropPanic "String" a_string; Saw (SawValue [b_string]); Saw SawNothing; SawDropPanic "String" b_string] DStop a /\
  NoDup (dead_ids (dead a)).
Proof.
  destruct C70_example as (HE & F & _ & _ & R1 & R2).
  destruct (C70_history _ all_fussy _ st0 HE F) as (seen & q & a & G & [(-> & c & s & R & _ & _ & _ & N & _)|(o & k & s & _ & R & _)]);
    rewrite R in R1, R2; cbn [fst snd] in R1, R2; [|contradiction].
  subst seen. exists a. split; [exact G|]. clear - N. induction (live_ids a) as [|x l IH]; [exact N|]. inversion N; auto.
Qed.

Example C70_calm_example :
  d_run (bump_env dbg60) (fun _ _ _ => false) fussy_prog [] st0 =
    (map Saw [SawNothing; SawNothing; SawValue [b_string]; SawNothing; SawNothing],
     match snd (run (bump_env dbg60) (without_panics fussy_prog) [] st0) with
     | Finished c' s' => DFinished c' s' | Undefined u => DUndefined u | DoesNotCompile => DDoesNotCompile end).
Proof. rewrite C70_calm by reflexivity. f_equal. Qed.

Example C70_no_abort_example : exists seen c s, d_run (bump_env dbg60) all_fussy fussy_prog [] st0 = (seen, DFinished c s).
Proof. destruct C70_example as (HE & F & S & A & _). exact (C70_no_abort _ _ _ _ HE F S A). Qed.

Print Assumptions C70_history.
Print Assumptions C70_calm.
Print Assumptions C70_no_abort.
