(** Property C72: programs using the [TaggedBox] API with destructors that do things. *)
From Coq Require Import Arith NArith String Bool List Lia.
From Verif Require Import Words Config Spec ConfigFacts Pointer PointerFacts Mem SpecMem MemFacts Box BoxFacts Bump
  Props_Pointer Props_Box Session SpecSession SessionFacts Props_Session DropPanics SpecDropPanics DropPanicsFacts Props_DropPanics
  Destructors SpecDestructors DestructorsFacts.
Import ListNotations.
Local Open Scope N_scope.

(** ** C72 Destructors that do things *)

Lemma logs_refl act s a : logs act s a s a.
Proof. exists []. rewrite app_nil_r. split; [reflexivity|]. intros _. cbn. rewrite app_nil_r. reflexivity. Qed.

Lemma logs_trans act s a s1 a1 s2 a2 : logs act s a s1 a1 -> logs act s1 a1 s2 a2 -> logs act s a s2 a2.
Proof.
  intros (l1 & D1 & D2) (l2 & D3 & D4). exists (l1 ++ l2). rewrite D3, D1, app_assoc. split; [reflexivity|].
  intros L. rewrite D4, D2, dead_destructors_app, app_assoc by exact L. reflexivity.
Qed.

Lemma e_aborted_some E act p c s seen s' : e_run E act p c s = (seen, DAborted s') -> e_shortages E act p c s <> [].
Proof. destruct p; discriminate. Qed.

Lemma e_run_sim E act : env_ok E -> forall p c s0 s a, inv E s0 s c a -> counted a -> d_follows E p a -> polite E act s0 p c s ->
  exists seen q b, d_goes (panics act) p a seen q b /\
    ((q = DStop /\ exists c' s', e_run E act p c s = (seen, DFinished c' s') /\ inv E s0 s' c' b /\ logs act s a s' b /\ counted b) \/
     (exists o k s', q = DDo o k /\ e_run E act p c s = (seen, DAborted s') /\ may_abort (last (e_shortages E act p c s) false) (panics act) o b)).
Proof.
  intros HE p. induction p as [|o k IH]; intros c s0 s a I C F P.
  - exists [], DStop, a. split; [constructor|]. left. split; [reflexivity|]. exists c, s. split; [reflexivity|]. split; [exact I|].
    split; [apply logs_refl|exact C].
  - destruct F as [Hc Hf]. destruct P as [P0 P].
    assert (Hn : astep false o a <> None) by (specialize (Hf false); destruct (astep false o a); [discriminate|contradiction]).
    destruct (e_step_sim E act HE s0 s c a o I Hc Hn P0) as (dm & H2 & H). rewrite H2 in P.
    assert (Lm : forall b0 l o b, may_abort (last l false) (panics act) o b -> l <> [] -> may_abort (last (b0 :: l) false) (panics act) o b)
      by (intros b0 [|b1 l] o1 b1' Q X; [contradiction|exact Q]).
    cbn [e_run e_shortages]. rewrite H2.
    destruct H as [(fail & x & a' & c' & s' & H1 & H3 & H4 & R & M)|[(x & a' & s' & n & v & Hb & R & V & Fs & I' & L')|(s2 & R & A)]].
    + pose proof (counted_step _ _ _ _ _ C H1) as C'. specialize (Hf fail). rewrite H1 in Hf. destruct Hf as [Hf _].
      assert (P' : polite E act s0 (k (Saw x)) c' s') by (destruct R as [R|(pq & -> & R & ->)]; rewrite R in P; exact P).
      destruct (IH (Saw x) c' s0 s' a' H3 C' Hf P') as (seen & q & b & G & K).
      exists (Saw x :: seen), q, b. split; [eapply goes_on; eassumption|].
      assert (D : exists e, e_run E act (k (Saw x)) c' s' = (seen, e) /\ (let (l, e0) := e_run E act (k (Saw x)) c' s' in (Saw x :: l, e0)) = (Saw x :: seen, e)).
      { destruct K as [(_ & c2 & s2 & K & _)|(o2 & k2 & s2 & _ & K & _)]; rewrite K; eauto. }
      destruct D as (e & D1 & D2).
      assert (T : (match dm false s with
                   | DOk (x0, c'0) s'0 => let (l, e0) := e_run E act (k (Saw x0)) c'0 s'0 in (Saw x0 :: l, e0)
                   | DPanic q0 s'0 => let (l, e0) := e_run E act (k (caught q0)) (d_after_panic o c) s'0 in (caught q0 :: l, e0)
                   | DAbort s'0 => ([], DAborted s'0)
                   | DUB u => ([], DUndefined u)
                   end) = (Saw x :: seen, e) /\
                  (match dm false s with
                   | DOk (x0, c'0) s'0 => e_shortages E act (k (Saw x0)) c'0 s'0
                   | DPanic q0 s'0 => e_shortages E act (k (caught q0)) (d_after_panic o c) s'0
                   | DAbort _ | DUB _ => []
                   end) = e_shortages E act (k (Saw x)) c' s').
      { destruct R as [R|(pq & -> & R & ->)]; rewrite R; (split; [exact D2|reflexivity]). }
      destruct T as [T T']. rewrite T, T'.
      assert (K' : forall o2 k2 s2, q = DDo o2 k2 -> (seen, e) = (seen, DAborted s2) -> e_shortages E act (k (Saw x)) c' s' <> [])
        by (intros o2 k2 s2 _ Q; rewrite Q in D1; eapply e_aborted_some, D1).
      rewrite D1 in K.
      destruct K as [(-> & c2 & s2 & K & Ki & Kt & Kc)|(o2 & k2 & s2 & -> & K & Ka)]; injection K as ->.
      * left. split; [reflexivity|]. exists c2, s2. split; [reflexivity|]. split; [exact Ki|]. split; [eapply logs_trans; eassumption|exact Kc].
      * right. exists o2, k2, s2. split; [reflexivity|]. split; [reflexivity|]. apply Lm; [exact Ka|]. eapply K'; reflexivity.
    + pose proof (counted_step _ _ _ _ _ C Hb) as C'. specialize (Hf false). rewrite Hb in Hf. destruct Hf as [_ Hf]. specialize (Hf n v eq_refl V).
      rewrite R in P. cbn [caught] in P.
      destruct (IH (SawDropPanic n v) (d_after_panic o c) s0 s' (blown o a a') I' (counted_blown _ _ _ _ Hb C') Hf P) as (seen & q & b & G & K).
      exists (SawDropPanic n v :: seen), q, b. split; [eapply goes_blown; eauto|]. rewrite R. cbn [caught].
      destruct K as [(-> & c2 & s2 & K & Ki & Kt & Kc)|(o2 & k2 & s2 & -> & K & Ka)]; rewrite K.
      * left. split; [reflexivity|]. exists c2, s2. split; [reflexivity|]. split; [exact Ki|]. split; [|exact Kc].
        eapply logs_trans; eassumption.
      * right. exists o2, k2, s2. split; [reflexivity|]. split; [reflexivity|]. apply Lm; [exact Ka|]. eapply e_aborted_some, K.
    + rewrite R. exists [], (DDo o k), a. split; [constructor|]. right. exists o, k, s2. auto.
Qed.

(** Whatever destructors do, as long as they leave alone what the program's variables stand for, a program that keeps the contract never
    runs into undefined behaviour, and sees what the program on plain variables sees. No value is destroyed twice, and none that was destroyed
    is still held. The memory of [others] is not touched. The program is aborted only as in C70. *)
Theorem C72_history : forall E act others p s, env_ok E -> d_follows E p a0 -> keeps others s -> polite E act others p [] s ->
  exists seen q a, d_goes (panics act) p a0 seen q a /\
    ((q = DStop /\ exists c s', e_run E act p [] s = (seen, DFinished c s') /\ keeps others s' /\
        Forall2 (shows E s') c (cells a) /\
        NoDup (live_ids a ++ dead_ids (dead a)) /\
        (lonely act -> destroyed (events s') = destroyed (events s) ++ dead_destructors (dead a))) \/
     (exists o k s', q = DDo o k /\ e_run E act p [] s = (seen, DAborted s') /\
        may_abort (last (e_shortages E act p [] s) false) (panics act) o a)).
Proof.
  intros E act s0 p s HE F K0 P.
  assert (I0 : inv E s0 s [] a0).
  { constructor; [reflexivity| | | |exact K0]; intros i; [intros x y H|intros j x y _ H|intros x b H]; destruct i; discriminate. }
  assert (C0 : counted a0) by (intros m; cbn; destruct (m <? 0)%nat; lia).
  destruct (e_run_sim E act HE p [] s0 s a0 I0 C0 F P) as (seen & q & a & G & K). exists seen, q, a. split; [exact G|].
  destruct K as [(-> & c & s' & R & I & (l & D1 & D2) & C)|K]; [left|right; exact K].
  split; [reflexivity|]. exists c, s'. cbn in D1. subst l. split; [exact R|]. split; [exact (iv_base _ _ _ _ _ I)|].
  split; [exact (inv_shows _ _ _ _ _ I)|]. split; [|exact D2].
  apply (NoDup_count_occ Nat.eq_dec). intros n. specialize (C n). unfold occ in C. rewrite count_occ_app. destruct (n <? next a)%nat; lia.
Qed.

(** While there is memory, a program whose types have at most one destructor each is never aborted. *)
Theorem C72_no_abort : forall E act others p s, env_ok E -> d_follows E p a0 -> keeps others s -> polite E act others p [] s ->
  all_simple p -> ~ In true (e_shortages E act p [] s) ->
  exists seen c s', e_run E act p [] s = (seen, DFinished c s').
Proof.
  intros E act s0 p s HE F K P S A. destruct (C72_history E act s0 p s HE F K P) as (seen & q & a & G & [(_ & c & s' & R & _)|(o & k & s' & -> & _ & M)]).
  - eauto.
  - exfalso. destruct (goes_simple _ _ _ _ _ _ G S) as [[S1 _] F1]; [constructor|].
    destruct M as (x & a' & l & H1 & H2 & _ & [H3|H3]).
    + apply A. clear - H3. induction (e_shortages E act p [] s) as [|b l IH]; [discriminate H3|].
      destruct l as [|b2 l]; [left; exact H3|right; apply IH, H3].
    + destruct (simple_step _ _ _ _ _ F1 S1 H1) as (_ & l2 & H4 & H5). rewrite H2 in H4. apply app_inv_head in H4. subst l2. lia.
Qed.

(** Destructors that do nothing but panic are those of C70, and leave everything alone. *)
Theorem C72_still : forall E fussy p c s, let act := fun n v s => (s, fussy s n v) in
  e_run E act p c s = d_run E fussy p c s /\ (forall others, polite E act others p c s) /\ lonely act.
Proof.
  intros E fussy p c s act. split; [|split; [|intros n v t; reflexivity]].
  - revert c s. induction p as [|o k IH]; intros c s; [reflexivity|]. cbn [e_run d_run]. change (e_step E act o c) with (d_step E fussy o c).
    destruct (d_step E fussy o c) as [m|]; [|reflexivity]. destruct (m false s) as [[x c'] s'|q s'|s'|u]; try rewrite IH; reflexivity.
  - intros others. revert c s. induction p as [|o k IH]; intros c s; [exact Logic.I|]. cbn [polite]. split; [intros; apply spares_refl|].
    destruct (e_step E act o c) as [m|]; [|exact Logic.I]. destruct (m false s) as [[x c'] s'|q s'|s'|u]; auto.
Qed.

(** *** What destructors do is done *)

Definition back {A} (m : DM A) (u : bool) (s s' : st) : Prop := (exists r, m u s = DOk r s') \/ (exists q, m u s = DPanic q s').

Lemma back_ret A B (m : DM A) (f : A -> B) u s s' : back (dbind m (fun x => dret (f x))) u s s' -> back m u s s'.
Proof.
  unfold back, dbind, dret. destruct (m u s) as [r t|q t|t|e]; intros [[r' H]|[q' H]]; try discriminate H; injection H; intros; subst; eauto.
Qed.

Lemma e_drop_after act tys : forall vs u s s', back (e_drop_fields act tys vs) u s s' -> s' = after act (destroyed (drop_events tys vs)) s.
Proof.
  induction tys as [|t tys IH]; intros [|v vs] u s s' H; cbn [e_drop_fields drop_events] in *;
    try (destruct H as [[r H]|[q H]]; [injection H as _ <-; reflexivity|discriminate H]).
  unfold back, finally, e_drop_leaf, dbind, draise, dret in H. destruct (ty_drop t); cbn [app destroyed]; [|apply (IH vs u)].
  - unfold after. cbn [fold_left]. set (s1 := log _ _) in *. fold (after act (destroyed (drop_events tys vs)) s1).
    destruct (snd (act (ty_name t) v s)).
    + destruct u; [destruct H as [[r H]|[q H]]; discriminate H|]. apply (IH vs true). unfold back.
      destruct (e_drop_fields act tys vs true s1) as [r s2|q s2|s2|e]; destruct H as [[r' H]|[q' H]]; try discriminate H.
      injection H as _ <-. eauto.
    + apply (IH vs u). unfold back. destruct (e_drop_fields act tys vs u s1) as [r s2|q s2|s2|e]; destruct H as [[r' H]|[q' H]]; try discriminate H;
        injection H; intros; subst; eauto.
  - unfold back. destruct (e_drop_fields act tys vs u s) as [r s2|q s2|s2|e]; destruct H as [[r' H]|[q' H]]; try discriminate H;
      injection H; intros; subst; eauto.
Qed.

Lemma e_drop_back act U v u s s' : back (e_drop act U v) u s s' -> s' = after act (destructors U v) s.
Proof. rewrite <- destroyed_drop. apply e_drop_after. Qed.

Lemma e_drop_then act U v (fin : DM unit) u s s' : (forall u t q t', fin u t <> DPanic q t') ->
  back (finally (e_drop act U v) fin) u s s' -> exists u, fin u (after act (destructors U v) s) = DOk tt s'.
Proof.
  intros N1. pose proof (e_drop_back act U v u s) as A. unfold back in *. unfold finally.
  destruct (e_drop act U v u s) as [r t|q t|t|e]; [| |intros [[r H]|[q H]]; discriminate H|intros [[r H]|[q H]]; discriminate H].
  - rewrite <- (A t) by eauto. unfold dbind, dret. intros H. exists u.
    destruct (fin u t) as [[] t2|q t2|t2|e] eqn:Ft; destruct H as [[r' H]|[q' H]]; try discriminate H; [injection H as _ <-; reflexivity|destruct (N1 _ _ _ _ Ft)].
  - rewrite <- (A t) by eauto. intros H. exists true.
    destruct (fin true t) as [[] t2|q2 t2|t2|e] eqn:Ft; destruct H as [[r' H]|[q' H]]; try discriminate H. injection H as _ <-. reflexivity.
Qed.

(** A call that destroys something and comes back, with or without a panic of theirs, has run the destructors one after the other, each in
    the state left by the one before. Then it has put the new value in place, or freed the block. *)
Theorem C72_effects : forall E act o c s m s', e_step E act o c = Some m ->
  (exists r, m false s = DOk r s') \/ (exists q, m false s = DPanic q s') ->
  match o with
  | DropValue i => forall U v, nth_error c i = Some (CVal U v) -> s' = after act (destructors U v) s
  | RustDrop i => forall U p v t, nth_error c i = Some (CRust U p) -> read_at U p s = Ok v t ->
      if h_size U =? 0 then s' = after act (destructors U v) s
      else dealloc p (h_size U) (h_align U) (after act (destructors U v) s) = Ok tt s'
  | Assign i new | AssignPtr i new => forall U w v t, nth_error c i = Some (CBox U w) -> read_at U (tp_as_ptr (tgt E) w) s = Ok v t ->
      write_at U (tp_as_ptr (tgt E) w) new (after act (destructors U v) s) = Ok tt s'
  | RawAssign i new => forall U p v t, nth_error c i = Some (CRaw U p) -> read_at U p s = Ok v t ->
      write_at U p new (after act (destructors U v) s) = Ok tt s'
  | NewBox _ U v _ => h_size U = 0 \/ no_block E U s = true -> s' = after act (destructors U v) s
  | _ => True
  end.
Proof.
  intros E act o c s m s' H K. fold (back m false s s') in K.
  assert (W : forall U p v u t q t', plainly (write_at U p v) u t <> DPanic q t').
  { intros U p v u t q t'. unfold plainly, write_at, bind, check_access. destruct (p =? 0); [discriminate|].
    destruct (negb (p mod h_align U =? 0)); [discriminate|]. destruct (negb (accessible t p (h_size U))); discriminate. }
  assert (As : forall U p val v t, read_at U p s = Ok v t -> back (dbind (e_assign act U p val) (fun _ => dret (SawNothing, c))) false s s' ->
     write_at U p val (after act (destructors U v) s) = Ok tt s').
  { intros U p val v t R Q. pose proof (read_at_inv _ _ _ _ _ R) as (-> & _). apply back_ret in Q.
    assert (Q' : back (finally (e_drop act U v) (plainly (write_at U p val))) false s s').
    { unfold back, e_assign, dbind in Q. unfold plainly at 1 3 in Q. rewrite R in Q. exact Q. }
    apply e_drop_then in Q' as [u F]; [|apply W].
    unfold plainly in F. destruct (write_at U p val (after act (destructors U v) s)) as [[] t2|q t2|e]; try (destruct u; discriminate F). injection F as ->. reflexivity. }
  destruct o as [u U val d|i|i|i|i f|i val|i|i|i d|i|i|i|i|i|i|i|i val|i|i val]; try exact Logic.I; cbn [e_step] in H.
  - injection H as <-. apply back_ret in K. intros Hz. unfold e_new in K. destruct (N.eqb_spec (h_size U) 0) as [Z|Z].
    + unfold back, finally, dret, dbind in K. apply (e_drop_back act U val false). unfold back.
      destruct (e_drop act U val false s); destruct K as [[r' K]|[q' K]]; try discriminate K; injection K; intros; subst; eauto.
    + destruct Hz as [Hz|Hz]; [contradiction|]. unfold no_block in Hz. apply andb_true_iff in Hz as [_ Hz].
      unfold back, dbind, plainly, alloc in K. destruct (alloc_fn E s (h_size U) (h_align U)) as [p|]; [discriminate Hz|].
      unfold finally, draise in K. apply (e_drop_back act U val true). unfold back.
      destruct (e_drop act U val true s); destruct K as [[r' K]|[q' K]]; try discriminate K; injection K; intros; subst; eauto.
  - intros U w v t Hi R. rewrite Hi in H. injection H as <-. eapply As; eassumption.
  - intros U p v t Hi R. rewrite Hi in H. injection H as <-. apply back_ret in K.
    pose proof (read_at_inv _ _ _ _ _ R) as (-> & _).
    assert (Q' : back (finally (e_drop act U v) (if h_size U =? 0 then dret tt else plainly (dealloc p (h_size U) (h_align U)))) false s s').
    { unfold back, e_rbox_drop, dbind in K. unfold plainly at 1 3 in K. rewrite R in K. exact K. }
    apply e_drop_then in Q' as [u F].
    + destruct (h_size U =? 0); [injection F as <-; reflexivity|]. unfold plainly in F.
      destruct (dealloc p (h_size U) (h_align U) (after act (destructors U v) s)) as [[] t2|q t2|e]; try (destruct u; discriminate F). injection F as ->. reflexivity.
    + intros u t q t'. destruct (h_size U =? 0); [discriminate|]. unfold plainly, dealloc. destruct (existsb _ _); discriminate.
  - intros U v Hi. rewrite Hi in H. injection H as <-. apply back_ret in K. eapply e_drop_back, K.
  - intros U w v t Hi R. rewrite Hi in H. injection H as <-. eapply As; eassumption.
  - intros U p v t Hi R. rewrite Hi in H. injection H as <-. eapply As; eassumption.
Qed.

(** *** Enough for being polite *)

Definition cell_size (z : N -> Prop) (y : acell) : Prop :=
  match y with ABox U _ _ _ | ARaw U _ _ | ARust U _ _ | AVal U _ _ => h_size U = 0 \/ z (h_size U) | AGone => True end.

Lemma size_put z l i y : Forall (cell_size z) l -> cell_size z y -> Forall (cell_size z) (put i y l).
Proof. intros H Hy. revert i. induction H as [|x l Hx H IH]; intros [|i]; cbn [put]; constructor; auto. Qed.

Lemma size_step z fail o a x a' : Forall (cell_size z) (cells a) ->
  match o with NewBox _ U _ _ => h_size U = 0 \/ z (h_size U) | _ => True end ->
  astep fail o a = Some (x, a') -> Forall (cell_size z) (cells a').
Proof.
  intros F Ho H. destruct o as [u U val d|i|i|i|i f|i val|i|i|i d|i|i|i|i|i|i|i|i val|i|i val]; cbn [astep] in H.
  { assert (A : forall y, cell_size z y -> Forall (cell_size z) (cells a ++ [y])) by (intros y Hy; apply Forall_app; auto).
    destruct (h_size U =? 0); [|destruct fail]; injection H as <- <-; cbn [cells]; (apply A; cbn; auto). }
  all: destruct (nth_error (cells a) i) as [[]|] eqn:Hy; try discriminate H; injection H as <- <-; cbn [set kill free cells];
    rewrite Forall_forall in F; pose proof (F _ (nth_error_In _ _ Hy)) as Hs; rewrite <- Forall_forall in F; cbn [cell_size] in Hs;
    first [exact F | apply size_put; [exact F|cbn; auto]].
Qed.

Lemma size_place E z s c a s0 i y p n : inv E s0 s c a -> Forall (cell_size z) (cells a) -> nth_error c i = Some y -> its_block E y = Some (p, n) -> z n.
Proof.
  intros I F Hy Hp. assert (L : (i < List.length (cells a))%nat) by (rewrite <- (iv_len _ _ _ _ _ I); eapply nth_some_lt, Hy).
  destruct (nth_error (cells a) i) as [x|] eqn:Hx; [|apply nth_error_None in Hx; lia].
  pose proof (iv_rel _ _ _ _ _ I i y x Hy Hx) as R. rewrite Forall_forall in F. pose proof (F _ (nth_error_In _ _ Hx)) as Hs.
  destruct y, x; cbn [its_block rel cell_size] in *; try contradiction; try discriminate; destruct (N.eqb_spec (h_size U) 0) as [|Z]; try discriminate;
    injection Hp as <- <-; destruct R as [<- _]; (destruct Hs; [contradiction|assumption]).
Qed.

(** Destructors that never touch a block of a size the program's boxes have are polite. *)
Theorem C72_by_size : forall E act z others p s, env_ok E -> d_follows E p a0 -> keeps others s ->
  minds_sizes act z -> of_sizes z p -> (forall b, In b (blocks others) -> z (b_size b)) ->
  polite E act others p [] s.
Proof.
  intros E act z s0 p s HE F0 K0 Hm Hz0 Ho.
  assert (G : forall p c s a, inv E s0 s c a -> d_follows E p a -> of_sizes z p -> Forall (cell_size z) (cells a) -> polite E act s0 p c s).
  2:{ apply (G p [] s a0); [|exact F0|exact Hz0|constructor].
      constructor; [reflexivity| | | |exact K0]; intros i; [intros x y H|intros j x y _ H|intros x b H]; destruct i; discriminate. }
  clear p s F0 K0 Hz0. induction p as [|o k IH]; intros c s a I F Z Hc; [exact Logic.I|]. destruct F as [C Hf]. destruct Z as [Z1 Z2]. cbn [polite].
  assert (P : forall n v t, In (n, v) (victims E o c s) -> spares E s0 c (slot o) s t -> spares E s0 c (slot o) t (fst (act n v t))).
  { intros n v t _ _. split.
    - intros i y q m al Hy Hq Hb. destruct (Hm n v t _ Hb) as [M1 M2]; [eapply size_place; eassumption|]. split; [exact M1|]. intros _. exact M2.
    - intros b Hb Ht. apply Hm; auto. }
  split; [exact P|].
  assert (Hn : astep false o a <> None) by (specialize (Hf false); destruct (astep false o a); [discriminate|contradiction]).
  destruct (e_step_sim E act HE s0 s c a o I C Hn P) as (dm & H2 & H). rewrite H2.
  destruct H as [(fail & x & a' & c' & s' & H1 & H3 & _ & R & M)|[(x & a' & s' & n & v & Hb & R & V & Fs & I' & _)|(s2 & R & A)]].
  - specialize (Hf fail). rewrite H1 in Hf. destruct Hf as [Hf _]. pose proof (size_step _ _ _ _ _ _ Hc Z1 H1) as Hc'.
    destruct R as [R|(pq & -> & R & ->)]; rewrite R; cbn [caught]; eapply IH; eauto.
  - specialize (Hf false). rewrite Hb in Hf. destruct Hf as [_ Hf]. pose proof (size_step _ _ _ _ _ _ Hc Z1 Hb) as Hc'. rewrite R. cbn [caught].
    eapply IH; [exact I'|exact (Hf n v eq_refl V)|apply Z2|]. destruct o; try exact Hc'. cbn [blown cells]. apply Forall_app. split; [exact Hc|]. repeat constructor.
  - rewrite R. exact Logic.I.
Qed.

(** *** Examples *)

(** The destructor of a string frees its buffer, of four bytes, and then panics. The program is that of C70. *)
Definition buffer (v : leafval) : N :=
  fold_right (fun b n => match b with Byte x => x + 256 * n | Uninit => 256 * n end) 0 (firstn 8 v).
Definition frees_buffer (bad : bool) (n : string) (v : leafval) (s : st) : st * bool :=
  (match dealloc (buffer v) 4 1 s with Ok _ s' => s' | _ => s end, bad).
Definition st_buffers : st := St (bytes st0) [Block (buffer a_string) 4 1; Block (buffer b_string) 4 1] [].

Lemma frees_minds bad : minds_sizes (frees_buffer bad) (fun k => k <> 4).
Proof.
  intros n v t b B H. unfold frees_buffer, dealloc. destruct (existsb _ _); [|split; [exact B|reflexivity]]. split; [|reflexivity]. cbn [fst blocks].
  apply remove_block_other; [exact B|]. intros ->. apply H. reflexivity.
Qed.

Lemma fussy_sizes : of_sizes (fun k => k <> 4) fussy_prog.
Proof. split; [right; change (h_size U_str) with 24; discriminate|]. intros [[]|]; cbn; intuition. Qed.

Lemma frees_prog_polite bad : polite (bump_env dbg60) (frees_buffer bad) st0 fussy_prog [] st_buffers.
Proof.
  apply (C72_by_size _ _ (fun k => k <> 4)); [apply bump_env_ok, example_targets_ok|exact fussy_follows|intros b []|apply frees_minds|exact fussy_sizes|intros b []].
Qed.

Lemma frees_lonely bad : lonely (frees_buffer bad).
Proof.
  intros n v s. unfold frees_buffer, dealloc. destruct (existsb _ _); [|reflexivity]. cbn [fst events]. rewrite destroyed_app. cbn. apply app_nil_r.
Qed.

Example C72_example : let E := bump_env dbg60 in
  env_ok E /\ d_follows E fussy_prog a0 /\ keeps st0 st_buffers /\ polite E (frees_buffer true) st0 fussy_prog [] st_buffers /\
  all_simple fussy_prog /\ ~ In true (e_shortages E (frees_buffer true) fussy_prog [] st_buffers) /\
  fst (e_run E (frees_buffer true) fussy_prog [] st_buffers)
    = [Saw SawNothing; SawDropPanic "String" a_string; Saw (SawValue [b_string]); Saw SawNothing; SawDropPanic "String" b_string] /\
  match snd (e_run E (frees_buffer true) fussy_prog [] st_buffers) with
  | DFinished c s => c = [CGone] /\ blocks s = [] /\ destroyed (events s) = [("String", a_string); ("String", b_string)]%string
  | _ => False
  end.
Proof.
  split; [apply bump_env_ok, example_targets_ok|]. split; [exact fussy_follows|]. split; [intros b []|]. split; [apply frees_prog_polite|]. split.
  { split; [unfold simple; cbn; lia|]. intros [[]|]; cbn; intuition. }
  vm_compute. intuition discriminate.
Qed.

(** Without the buffers' destructors the blocks would stay; and a destructor that frees the box's own block, which is not polite, makes the
    [Box] free it again. *)
Definition frees_all (n : string) (v : leafval) (s : st) : st * bool := (St (bytes s) [] (events s), false).
Example C72_needs :
  (exists s, d_run (bump_env dbg60) all_fussy fussy_prog [] st_buffers
     = ([Saw SawNothing; SawDropPanic "String" a_string; Saw (SawValue [b_string]); Saw SawNothing; SawDropPanic "String" b_string], DFinished [CGone] s) /\
     List.length (blocks s) = 2%nat) /\
  (exists u, e_run (bump_env dbg60) frees_all (d_go [NewBox false U_str v_str 3; IntoBox 0; RustDrop 0]) [] st0
     = ([Saw SawNothing; Saw SawNothing], DUndefined u)) /\
  (exists u, e_run (bump_env dbg60) frees_all (d_go [NewBox false U_str v_str 3; Assign 0 [b_string]]) [] st0
     = ([Saw SawNothing], DUndefined u)).
Proof. repeat split; eexists; vm_compute; intuition reflexivity. Qed.

(** ** Instances: each theorem applied to a concrete case that meets its hypotheses *)

Example C72_history_example : exists a, d_goes (panics (frees_buffer true)) fussy_prog a0
    [Saw SawNothing; SawDropPanic "String" a_string; Saw (SawValue [b_string]); Saw SawNothing; SawDropPanic "String" b_string] DStop a /\
  dead_destructors (dead a) = [("String", a_string); ("String", b_string)]%string.
Proof.
  destruct C72_example as (HE & F & K & P & _ & _ & R1 & R2).
  destruct (C72_history _ _ _ _ st_buffers HE F K P) as (seen & q & a & G & [(-> & c & s & R & _ & _ & _ & D)|(o & k & s & _ & R & _)]);
    rewrite R in R1, R2; cbn [fst snd] in R1, R2; [|contradiction].
  subst seen. exists a. split; [exact G|]. destruct R2 as (_ & _ & R2). rewrite (D (frees_lonely true)) in R2. exact R2.
Qed.

Example C72_no_abort_example : exists seen c s, e_run (bump_env dbg60) (frees_buffer true) fussy_prog [] st_buffers = (seen, DFinished c s).
Proof. destruct C72_example as (HE & F & K & P & S & A & _). exact (C72_no_abort _ _ _ _ _ HE F K P S A). Qed.

(** A string taken out of its box is dropped, and its buffer is freed. *)
Example C72_effects_example : exists m s', e_step (bump_env dbg60) (frees_buffer true) (DropValue 0) [CVal U_str v_str] = Some m /\
  m false st_buffers = DPanic (InDrop "String" a_string) s' /\ s' = after (frees_buffer true) [("String", a_string)]%string st_buffers /\
  blocks s' = [Block (buffer b_string) 4 1].
Proof.
  eexists _, _. split; [reflexivity|]. split; [reflexivity|]. split; [|vm_compute; reflexivity].
  refine (C72_effects (bump_env dbg60) (frees_buffer true) (DropValue 0) [CVal U_str v_str] st_buffers _ _ eq_refl _ U_str v_str eq_refl).
  right. eexists. reflexivity.
Qed.

Example C72_by_size_example : polite (bump_env dbg60) (frees_buffer false) st0 fussy_prog [] st_buffers.
Proof. exact (frees_prog_polite false). Qed.

Example C72_still_example : e_run (bump_env dbg60) (fun n v s => (s, true)) fussy_prog [] st0 = d_run (bump_env dbg60) all_fussy fussy_prog [] st0.
Proof. exact (proj1 (C72_still (bump_env dbg60) all_fussy fussy_prog [] st0)). Qed.

Print Assumptions C72_history.
Print Assumptions C72_no_abort.
Print Assumptions C72_effects.
Print Assumptions C72_by_size.
Print Assumptions C72_still.
