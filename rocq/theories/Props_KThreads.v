(** C64: threads that use the generated containers at the same time. *)
From Coq Require Import Arith ZArith NArith String Bool List Lia.
From Verif Require Import Words Config Spec ConfigFacts Pointer PointerFacts Fmt Mem SpecMem MemFacts Box BoxFacts Bump
  Arms Macro SpecMacro MacroFacts Props_Pointer Props_Box Props_Macro Props_Layout Props_Clone Session SpecSession SessionFacts
  Threads SpecThreads ThreadsFacts Containers SpecContainers KThreads SpecKThreads KThreadsFacts KThreadsWp KThreadsInv.
From Verif Require Props_Containers.
Import ListNotations.
Local Open Scope N_scope.
Local Open Scope list_scope.

(** ** The calls are those of C35 *)

(** A call as a list of accesses, run without interruption, does what the call of [Containers.v] does; and one
    compiles exactly when the other does (calls that change a value in place are not considered). *)
Theorem C64_calls : forall (E : env) (x : expansion) (I : impls) (o : kop) (c : list kcell),
  considered o = true ->
  match kstep E x I o c, kc_call E x I o c with
  | Some m, Some j =>
      let now z := match kresult o with Nowhere => c | There i => put i z c | Anew => c ++ [z] end in
      (forall s, m s = match kdenote E j s with
                       | Ok (r, z) s' => Ok (r, now z) s'
                       | Panicked p s' => Panicked p s'
                       | UB u => UB u
                       end) /\
      (forall s p s', kdenote E j s = Panicked p s' -> kafter_panic o c = now KGone)
  | None, None => True
  | _, _ => False
  end.
Proof.
  intros E x I o c Co. pose proof (kcalls E x I o c) as H. destruct (kstep E x I o c) as [m|], (kc_call E x I o c) as [j|]; try exact H.
  congruence.
Qed.

(** ** Every interleaving *)

(** Whatever the order in which the threads' accesses happen, and whatever the user's impls do between them: no undefined
    behaviour, and every thread is where it would be, and has seen what it would see, had every call happened at once,
    on plain enum values, at the moment it returned. *)
Theorem C64_threads : forall E def x I F (ps : list ktprog) (order : list nat) (s : st),
  macro_setup E def x -> implements keeps def I F -> kwell_behaved def F E (kaboot ps) ->
  exists trace y a, kmoves E x I order (kboot ps s) = (trace, inl y) /\ kamoves def F trace (kaboot ps) = Some a /\
    Forall2 ksame_place (kthreads y) (kathreads a).
Proof.
  intros E def x I F ps order s Hs HI W.
  destruct (kmoves_ok E def x I F s Hs HI order _ _ _ _ _ _ (kinv_boot E def F s ps W)) as (trace & y & a & D & C & efs & H1 & H2 & H3).
  exists trace, y, a. split; [exact H1|]. split; [exact H2|]. apply H3.
Qed.

(** At no moment are two threads about to touch the same memory, one of them changing it. *)
Theorem C64_no_race : forall E def x I F (ps : list ktprog) (order : list nat) (s : st) trace y,
  macro_setup E def x -> implements keeps def I F -> kwell_behaved def F E (kaboot ps) ->
  kmoves E x I order (kboot ps s) = (trace, inl y) -> ~ kdata_race y.
Proof.
  intros E def x I F ps order s trace y Hs HI W M.
  destruct (kmoves_ok E def x I F s Hs HI order _ _ _ _ _ _ (kinv_boot E def F s ps W)) as (trace' & y' & a & D & C & efs & H1 & _ & H3).
  rewrite H1 in M. injection M as _ <-. eapply kno_race; eassumption.
Qed.

(** The memory in use before is as it was at every moment. When no thread is inside a call there is one more block per
    value stored in non-zero-sized storage, and the destructors that ran are those of the values the plain threads
    destroyed, apart from the user's own blocks and destructors. *)
Theorem C64_memory : forall E def x I F (ps : list ktprog) (order : list nat) (s : st) trace y a,
  macro_setup E def x -> implements keeps def I F -> kwell_behaved def F E (kaboot ps) ->
  kmoves E x I order (kboot ps s) = (trace, inl y) -> kamoves def F trace (kaboot ps) = Some a ->
  keeps s (kmemory y) /\
  ((forall h, In h (kthreads y) -> exists p, kdoing h = KIdle p) ->
   (Z.of_nat (List.length (blocks (kmemory y))) = Z.of_nat (List.length (blocks s)) + Z.of_nat (kmade (kplain a))
      + grown (fun t => List.length (blocks t)) (user_work trace))%Z /\
   ((forall v k, In (v, k) (e_variants def) -> no_zst_drop def k) ->
    forall d, (Z.of_nat (times d (destroyed (events (kmemory y)))) =
               Z.of_nat (times d (destroyed (events s))) + Z.of_nat (times d (kdead_destructors def (kdead (kplain a))))
               + grown (fun t => times d (destroyed (events t))) (user_work trace))%Z)).
Proof.
  intros E def x I F ps order s trace y a Hs HI W M A.
  destruct (kmoves_ok E def x I F s Hs HI order _ _ _ _ _ _ (kinv_boot E def F s ps W)) as (trace' & y' & a' & D & C & efs & H1 & H2 & H3).
  rewrite H1 in M. injection M as <- <-. rewrite H2 in A. injection A as <-. pose proof H3 as [I1 I2 I3 I4 I5 I6 I7 I8 I9 I10 I11].
  split; [exact I8|]. intros Hi. cbn [app] in *.
  assert (Z : Forall zeroed efs).
  { apply Forall_forall. intros e He. apply In_nth_error in He as [t Ht]. pose proof (nth_some_lt _ _ _ Ht) as L. rewrite I4 in L.
    apply nth_error_Some in L. destruct (nth_error (kthreads y') t) as [h|] eqn:Hh; [|contradiction].
    destruct (Hi h (nth_error_In _ _ Hh)) as [p Hp]. pose proof (I6 t h e Hh Ht) as K. rewrite Hp in K. apply K. }
  assert (T : forall f g, (forall e, zeroed e -> g e = 0%nat) -> ktotal (weigh f g) efs = 0%Z).
  { intros f g Hg. clear - Z Hg. induction Z as [|e l Ze _ IH]; [reflexivity|]. unfold ktotal in *. cbn [fold_right].
    rewrite IH, weigh_zero; [reflexivity|exact Hg|exact Ze]. }
  rewrite T in I9 by (intros e Ze; apply Ze). split; [unfold n_blocks in I9; lia|].
  intros Hn d. specialize (I10 Hn d). rewrite T in I10; [unfold n_times in I10; lia|]. intros e (Z1 & _). rewrite Z1. reflexivity.
Qed.

(** ** No waiting *)

Fixpoint kshort {A} (n : nat) (m : kcode A) {struct m} : Prop :=
  match m with
  | KStep X _ k => match n with O => False | S r => forall y, kshort r (k y) end
  | _ => True
  end.

Lemma kshort_more {A} (m : kcode A) : forall n, kshort n m -> kshort (S n) m.
Proof.
  induction m as [a|p|u|X a k IH]; intros n H; try exact Logic.I. destruct n as [|n]; [destruct H|]. cbn [kshort] in *. intros y. apply IH, H.
Qed.

Lemma kshort_le {A} (m : kcode A) n n' : (n <= n')%nat -> kshort n m -> kshort n' m.
Proof. induction 1; auto using kshort_more. Qed.

Lemma kshort_bind {A B} (m : kcode A) (f : A -> kcode B) b : (forall a, kshort b (f a)) -> forall n, kshort n m -> kshort (n + b) (kc_bind m f).
Proof.
  intros Hf. induction m as [a|p|u|X a k IH]; intros n H; cbn [kc_bind]; try exact Logic.I.
  - eapply kshort_le; [|apply Hf]. lia.
  - destruct n as [|n]; [destruct H|]. change (forall y, kshort (n + b) (kc_bind (k y) f)). intros y. apply IH, H.
Qed.

Lemma kshort_finally {A} ev (m : kcode A) : forall n, kshort n m -> kshort (S n) (kc_finally ev m).
Proof.
  induction m as [a|p|u|X a k IH]; intros n H; cbn [kc_finally]; try exact Logic.I; try (intros y; exact Logic.I).
  destruct n as [|n]; [destruct H|]. intros y. apply IH, H.
Qed.

Lemma kshort_exit {A} b ev (m : kcode A) n : kshort n m -> kshort (S n) (kc_exit b ev m).
Proof. intros H. destruct b; cbn [kc_exit]; [apply kshort_finally, H|apply kshort_more, H]. Qed.

Lemma kshort_user {A} (m : M A) : kshort 1 (kc_user m).
Proof. intros [a|p]; exact Logic.I. Qed.

Lemma kshort_build E x p v b : kshort 1 (kc_build E x p v b).
Proof. unfold kc_build. destruct (reads E b); [|exact Logic.I]. intros got. destruct (assemble x v b got); exact Logic.I. Qed.

Lemma kshort_match {A} E x w arms (body : read_arm -> kcode A) q n : (forall a, kshort n (body a)) -> kshort n (kc_match E x w arms body q).
Proof. intros H. unfold kc_match. destruct (pick x (tb_discriminant E w) arms) as [[a|]|]; [apply H|exact Logic.I|exact Logic.I]. Qed.

Lemma kshort_look {A} E x w (f : evalue -> kcode A) n : (forall v, kshort n (f v)) -> kshort (S (S n)) (kc_look E x w f).
Proof.
  intros H. apply kshort_match. intros a. apply (kshort_bind _ _ (S n) (fun v => kshort_exit _ _ _ _ (H v)) 1), kshort_build.
Qed.

Lemma kshort_into E x v : kshort 3 (kc_into E x v).
Proof.
  apply kshort_exit. destruct (into_plan x v) as [[[[U vs]|] tag]|]; try exact Logic.I.
  unfold c_new. destruct (h_size U =? 0).
  - intros y. exact Logic.I.
  - intros [p|]; [|intros y; exact Logic.I]. intros _. destruct (tp_new (tgt E) p tag); exact Logic.I.
Qed.

Lemma kcall_short E x I o c m : kc_call E x I o c = Some m -> kshort 6 m.
Proof.
  assert (S : forall A (f : A -> kobs) (n : kcode A) k, kshort k n -> kshort k (kc_bind n (fun r => KRet (f r, KGone)))).
  { intros A f n k H. rewrite <- (Nat.add_0_r k). apply kshort_bind; [intros a; exact Logic.I|exact H]. }
  assert (B : forall (n : kcode tagged_ptr) k, kshort k n -> kshort k (kc_bind n (fun w => KRet (KNothing, KBox w)))).
  { intros n k H. rewrite <- (Nat.add_0_r k). apply kshort_bind; [intros a; exact Logic.I|exact H]. }
  assert (T : forall (n : kcode evalue) k, kshort k n -> kshort k (kc_bind n (fun v => KRet (KSawValues [v], KVal v)))).
  { intros n k H. rewrite <- (Nat.add_0_r k). apply kshort_bind; [intros a; exact Logic.I|exact H]. }
  assert (U : forall A (n : M A), kshort 1 (kc_user n)) by (intros A n; apply kshort_user).
  assert (G : forall v, kshort 6 (kc_into E x v)) by (intros v; eapply (kshort_le _ 3); [lia|apply kshort_into]).
  destruct o as [v|i|src vals|i|i|i j|i j|i j|i op out|i op out|i op out|i|i|i n f|i n val|i|i|i|i]; cbn [kc_call]; unfold with_box;
    try destruct (nth_error c i) as [[w|v|]|]; try discriminate; try (intros H; injection H as <-).
  all: try exact Logic.I.
  all: try (apply B, G).
  - destruct (find _ (x_froms x)) as [f|]; [|discriminate]. intros H; injection H as <-. apply B.
    unfold kc_from_payload. destruct f as [t v|tys v idx]; [apply G|]. destruct (project vals idx); [apply G|exact Logic.I].
  - apply B. change 6%nat with (3 + 3)%nat. apply kshort_bind; [intros a; apply kshort_into|]. apply kshort_look. intros v. apply U.
  - destruct (x_copy x); [|discriminate]. intros H; injection H as <-. exact Logic.I.
  - destruct (x_copy x); discriminate.
  - destruct (x_copy x); discriminate.
  - destruct (x_copy x); discriminate.
  - destruct (nth_error c j) as [[b|v|]|]; try discriminate. intros H; injection H as <-. apply S, (kshort_le _ 5); [lia|].
    apply kshort_look. intros v. apply kshort_look. intros w'. apply U.
  - destruct (nth_error c j) as [[b|v|]|]; try discriminate. intros H; injection H as <-. apply S, (kshort_le _ 5); [lia|].
    apply kshort_look. intros v. apply kshort_look. intros w'. apply U.
  - destruct (nth_error c j) as [[b|v|]|]; try discriminate. intros H; injection H as <-. apply S, (kshort_le _ 5); [lia|].
    apply kshort_look. intros v. apply kshort_look. intros w'. apply U.
  - apply S, (kshort_le _ 3); [lia|]. apply kshort_look. intros v. apply U.
  - apply S, (kshort_le _ 3); [lia|]. apply kshort_look. intros v. apply U.
  - apply S, (kshort_le _ 3); [lia|]. apply kshort_look. intros v. apply U.
  - apply S, (kshort_le _ 2); [lia|]. apply kshort_look. intros v. exact Logic.I.
  - apply T, (kshort_le _ 1); [lia|]. apply kshort_match. intros a. apply kshort_build.
  - apply T, (kshort_le _ 1); [lia|]. apply kshort_match. intros a. apply kshort_build.
  - intros y. exact Logic.I.
Qed.

Lemma kmove_other E x I t u y y' f h : kmove E x I t y = KMoved y' f -> u <> t -> nth_error (kthreads y) u = Some h ->
  exists h', nth_error (kthreads y') u = Some h' /\ kdoing h' = kdoing h.
Proof.
  intros M N Hu. unfold kmove in M. destruct (nth_error (kthreads y) t) as [ht|] eqn:Ht; [|injection M as <- _; eauto].
  assert (K : forall z, nth_error (put t z (kthreads y)) u = Some h) by (intros z; rewrite put_other by auto; exact Hu).
  assert (R : forall z, exists h', nth_error (kthreads (kwith t z y)) u = Some h' /\ kdoing h' = kdoing h) by (intros z; exists h; split; [apply K|reflexivity]).
  destruct (kdoing ht) as [p|o out usr m k|] eqn:Hd; [| |injection M as <- _; eauto].
  - destruct p as [|o k|i t' k|i k|k].
    + injection M as <- _; eauto.
    + destruct (if kallowed (kowners y) t o then _ else _); injection M as <- _; apply R.
    + destruct (nth_error (kowners y) i) as [w|]; [|injection M as <- _; apply R].
      destruct (nth_error (put t _ (kthreads y)) t') as [h'|] eqn:Ht'; [|injection M as <- _; apply R].
      destruct (match w with By z => _ | Everyone => _ end); injection M as <- _; [|apply R]. cbn [kthreads].
      rewrite (nth_put _ _ _ _ _ Ht'). destruct (Nat.eqb_spec u t') as [->|]; [|eauto].
      eexists. split; [reflexivity|]. cbn. rewrite K in Ht'. congruence.
    + destruct (nth_error (kowners y) i) as [[z|]|]; try (injection M as <- _; apply R).
      destruct (nth_error (kvars y) i) as [[]|]; try (injection M as <- _; apply R).
      destruct (Nat.eqb t z); injection M as <- _; [|apply R]. cbn [kthreads]. eauto.
    + destruct (kmail ht); injection M as <- _; [eauto|apply R].
  - destruct m as [[r c]|q|b|X a next].
    + injection M as <- _. unfold kreturns. destruct (kresult o); cbn [kthreads]; eauto.
    + injection M as <- _. unfold kreturns. destruct (kresult o); cbn [kthreads]; eauto.
    + discriminate M.
    + destruct (run_kact E a (kmemory y)); [| |discriminate]; injection M as <- _; [cbn [kthreads]; eauto|apply R].
Qed.

Section Finishes.
Variables (E : env) (def : edef) (x : expansion) (I : impls) (F : st -> meaning) (s0 : st).
Hypothesis Hs : macro_setup E def x.
Hypothesis HI : implements keeps def I F.

Lemma krejected_no y a D C efs G t h : KInv E def F s0 y a D C efs G -> nth_error (kthreads y) t = Some h -> kdoing h <> KRejected.
Proof.
  intros Iv Ht Hr. destruct (Forall2_nth _ _ _ (kv_place _ _ _ _ _ _ _ _ _ _ Iv) t h Ht) as (ah & _ & (_ & _ & A)). rewrite Hr in A. exact A.
Qed.

Definition kin_trace (t : nat) (l : list kdone) : Prop := In t (map (fun e => fst (fst e)) l).

Lemma kbusy_finishes t n : forall order y a D C efs G h o out usr m k, KInv E def F s0 y a D C efs G -> nth_error (kthreads y) t = Some h ->
  kdoing h = KBusy o out usr m k -> kshort n m -> (n < count_occ Nat.eq_dec order t)%nat -> kin_trace t (fst (kmoves E x I order y)).
Proof.
  intros order. revert n. induction order as [|u r IH]; intros n y a D C efs G h o out usr m k Iv Ht Hd Hsh L; [cbn in L; lia|].
  destruct (step_any E def x I F s0 Hs HI y a D C efs G u Iv) as (y1 & f & a1 & D1 & C1 & efs1 & H1 & H2 & H3).
  cbn [kmoves]. rewrite H1. destruct (kmoves E x I r y1) as [l z] eqn:Mr. cbn [fst].
  assert (Gt : kin_trace t l -> kin_trace t (match f with Some e => e :: l | None => l end)) by (destruct f; unfold kin_trace; cbn; auto).
  assert (Fl : l = fst (kmoves E x I r y1)) by (rewrite Mr; reflexivity).
  destruct (Nat.eq_dec u t) as [->|N].
  - cbn [count_occ] in L. destruct (Nat.eq_dec t t) as [_|X]; [|contradiction].
    unfold kmove in H1. rewrite Ht, Hd in H1. destruct m as [[v c]|q|b|X a' next].
    + injection H1 as _ <-. left. reflexivity.
    + injection H1 as _ <-. left. reflexivity.
    + discriminate H1.
    + cbn [kshort] in Hsh. destruct n as [|n]; [destruct Hsh|].
      destruct (run_kact E a' (kmemory y)) as [v s1|q s1|b] eqn:Ra; [| |discriminate]; injection H1 as <- <-.
      * rewrite Fl. eapply IH; [exact H3|cbn [kthreads]; apply put_same; eapply nth_some_lt, Ht|reflexivity|apply Hsh|lia].
      * exfalso. eapply krejected_no; [exact H3|apply put_same; eapply nth_some_lt, Ht|reflexivity].
  - apply Gt. rewrite Fl. destruct (kmove_other E x I u t y y1 f h H1 (not_eq_sym N) Ht) as (h' & K1 & K2).
    cbn [count_occ] in L. destruct (Nat.eq_dec u t) as [X|_]; [contradiction|].
    eapply IH; [exact H3|exact K1|rewrite K2; exact Hd|exact Hsh|exact L].
Qed.

End Finishes.

Lemma kmove_length E x I t y y' f : kmove E x I t y = KMoved y' f -> List.length (kthreads y') = List.length (kthreads y).
Proof.
  intros M. unfold kmove in M. destruct (nth_error (kthreads y) t) as [ht|]; [|injection M as <- _; reflexivity].
  assert (R : forall z, List.length (kthreads (kwith t z y)) = List.length (kthreads y)) by (intros z; apply put_length).
  destruct (kdoing ht) as [p|o out usr m k|]; [| |injection M as <- _; reflexivity].
  - destruct p as [|o k|i t' k|i k|k].
    + injection M as <- _; reflexivity.
    + destruct (if kallowed (kowners y) t o then _ else _); injection M as <- _; apply R.
    + destruct (nth_error (kowners y) i) as [w|]; [|injection M as <- _; apply R].
      destruct (nth_error (put t _ (kthreads y)) t') as [h'|]; [|injection M as <- _; apply R].
      destruct (match w with By z => _ | Everyone => _ end); injection M as <- _; [|apply R]. cbn [kthreads]. rewrite !put_length. reflexivity.
    + destruct (nth_error (kowners y) i) as [[z|]|]; try (injection M as <- _; apply R).
      destruct (nth_error (kvars y) i) as [[]|]; try (injection M as <- _; apply R).
      destruct (Nat.eqb t z); injection M as <- _; apply R.
    + destruct (kmail ht); injection M as <- _; [reflexivity|apply R].
  - destruct m as [[r c]|q|b|X a next].
    + injection M as <- _. unfold kreturns. destruct (kresult o); apply put_length.
    + injection M as <- _. unfold kreturns. destruct (kresult o); apply put_length.
    + discriminate M.
    + destruct (run_kact E a (kmemory y)); [| |discriminate]; injection M as <- _; [apply put_length|apply R].
Qed.

Definition kall_short (y : ksys) : Prop :=
  forall t h o out usr m k, nth_error (kthreads y) t = Some h -> kdoing h = KBusy o out usr m k -> kshort 6 m.

Lemma kmove_short E x I t y y' f : kmove E x I t y = KMoved y' f -> kall_short y -> kall_short y'.
Proof.
  intros M A u h' o' out' usr' m' k' Hu Hb.
  assert (X : exists h, nth_error (kthreads y) u = Some h).
  { pose proof (nth_some_lt _ _ _ Hu) as L. rewrite (kmove_length _ _ _ _ _ _ _ M) in L. apply nth_error_Some in L.
    destruct (nth_error (kthreads y) u); [eauto|contradiction]. }
  destruct X as [h Hh]. destruct (Nat.eq_dec u t) as [->|N].
  - unfold kmove in M. rewrite Hh in M.
    assert (S : forall z, nth_error (put t z (kthreads y)) t = Some z) by (intros z; apply put_same; eapply nth_some_lt, Hh).
    assert (W : forall z, (forall o2 out2 usr2 m2 k2, kdoing z <> KBusy o2 out2 usr2 m2 k2) -> nth_error (put t z (kthreads y)) t = Some h' -> kshort 6 m').
    { intros z Hx K. rewrite S in K. injection K as ->. destruct (Hx _ _ _ _ _ Hb). }
    destruct (kdoing h) as [p|o out usr m k|] eqn:Hd.
    + destruct p as [|o k|i t' k|i k|k].
      * injection M as <- _. rewrite Hh in Hu. injection Hu as <-. congruence.
      * destruct (kallowed (kowners y) t o); [|injection M as <- _; refine (W _ _ Hu); discriminate].
        destruct (kc_call E x I o _) as [m|] eqn:Cc; injection M as <- _; [|refine (W _ _ Hu); discriminate].
        unfold kwith in Hu. cbn [kthreads] in Hu. rewrite S in Hu. injection Hu as <-. cbn in Hb. injection Hb as <- <- <- <- <-.
        eapply kcall_short, Cc.
      * destruct (nth_error (kowners y) i) as [w|]; [|injection M as <- _; refine (W _ _ Hu); discriminate].
        destruct (nth_error (put t _ (kthreads y)) t') as [h1|] eqn:Ht'; [|injection M as <- _; refine (W _ _ Hu); discriminate].
        destruct (match w with By z => _ | Everyone => _ end); injection M as <- _; [|refine (W _ _ Hu); discriminate].
        cbn [kthreads] in Hu. rewrite (nth_put _ _ _ _ _ Ht') in Hu. destruct (Nat.eqb_spec t t') as [<-|].
        -- injection Hu as <-. rewrite S in Ht'. injection Ht' as <-. discriminate.
        -- refine (W _ _ Hu); discriminate.
      * destruct (nth_error (kowners y) i) as [[z|]|]; try (injection M as <- _; refine (W _ _ Hu); discriminate).
        destruct (nth_error (kvars y) i) as [[]|]; try (injection M as <- _; refine (W _ _ Hu); discriminate).
        destruct (Nat.eqb t z); injection M as <- _; refine (W _ _ Hu); discriminate.
      * destruct (kmail h); injection M as <- _; [rewrite Hh in Hu; injection Hu as <-; congruence|refine (W _ _ Hu); discriminate].
    + pose proof (A t h o out usr m k Hh Hd) as Sh. destruct m as [[r c]|q|b|X a next].
      * injection M as <- _. unfold kreturns in Hu. destruct (kresult o); refine (W _ _ Hu); discriminate.
      * injection M as <- _. unfold kreturns in Hu. destruct (kresult o); refine (W _ _ Hu); discriminate.
      * discriminate M.
      * destruct (run_kact E a (kmemory y)); [| |discriminate]; injection M as <- _; [|refine (W _ _ Hu); discriminate].
        cbn [kthreads] in Hu. rewrite S in Hu. injection Hu as <-. cbn [kdoing] in Hb. injection Hb as <- <- <- <- <-. apply (kshort_more _ 5), Sh.
    + injection M as <- _. rewrite Hh in Hu. injection Hu as <-. congruence.
  - destruct (kmove_other E x I t u y y' f h M N Hh) as (h2 & K1 & K2). rewrite Hu in K1. injection K1 as <-.
    eapply A; [exact Hh|]. rewrite <- K2. exact Hb.
Qed.

Lemma kmoves_short E x I order : forall y trace y', kmoves E x I order y = (trace, inl y') -> kall_short y -> kall_short y'.
Proof.
  induction order as [|t r IH]; intros y trace y' H A; cbn [kmoves] in H; [injection H as _ <-; exact A|].
  destruct (kmove E x I t y) as [y1 f|] eqn:M; [|discriminate]. destruct (kmoves E x I r y1) as [l z] eqn:R. injection H as _ ->.
  eapply IH; [exact R|]. eapply kmove_short; eassumption.
Qed.

(** A thread about to make a call, or inside one, completes it with its next eight moves at the latest, whatever the
    others do in between (the user's own code counted as one move). *)
Theorem C64_wait_free : forall E def x I F (ps : list ktprog) (order more : list nat) (s : st) trace y t h,
  macro_setup E def x -> implements keeps def I F -> kwell_behaved def F E (kaboot ps) ->
  kmoves E x I order (kboot ps s) = (trace, inl y) -> nth_error (kthreads y) t = Some h ->
  (exists o k, kdoing h = KIdle (KTCall o k)) \/ (exists o out usr m k, kdoing h = KBusy o out usr m k) ->
  (8 <= count_occ Nat.eq_dec more t)%nat -> In t (map (fun e => fst (fst e)) (fst (kmoves E x I more y))).
Proof.
  intros E def x I F ps order more s trace y t h Hs HI W M Ht Hd L.
  destruct (kmoves_ok E def x I F s Hs HI order _ _ _ _ _ _ (kinv_boot E def F s ps W)) as (trace' & y' & a & D & C & efs & H1 & _ & Iv).
  rewrite H1 in M. injection M as _ <-.
  assert (A : kall_short y').
  { eapply kmoves_short; [exact H1|]. intros u hu o out usr m k Hu Hb. cbn [kboot kthreads] in Hu. rewrite nth_error_map in Hu.
    destruct (nth_error ps u); [|discriminate]. injection Hu as <-. discriminate. }
  destruct Hd as [(o & k & Hd)|(o & out & usr & m & k & Hd)].
  - clear H1 A. cbn [app] in Iv. revert Iv. generalize (user_work trace'). intros G Iv.
    revert y' a D C efs G h Iv Ht Hd L. induction more as [|u r IH]; intros y a D C efs G h Iv Ht Hd L; [cbn in L; lia|].
    destruct (step_any E def x I F s Hs HI y a D C efs G u Iv) as (y1 & f & a1 & D1 & C1 & efs1 & M1 & M2 & M3).
    cbn [kmoves]. rewrite M1. destruct (kmoves E x I r y1) as [l z] eqn:Mr. cbn [fst].
    assert (Gt : kin_trace t l -> kin_trace t (match f with Some e => e :: l | None => l end)) by (destruct f; unfold kin_trace; cbn; auto).
    assert (Fl : l = fst (kmoves E x I r y1)) by (rewrite Mr; reflexivity). apply Gt. rewrite Fl.
    cbn [count_occ] in L. destruct (Nat.eq_dec u t) as [->|N].
    + unfold kmove in M1. rewrite Ht, Hd in M1. destruct (kallowed (kowners y) t o) eqn:Al.
      * destruct (kc_call E x I o _) as [m|] eqn:Cc; injection M1 as <- <-.
        -- eapply (kbusy_finishes E def x I F s Hs HI t 6); [exact M3|cbn [kwith kthreads]; apply put_same; eapply nth_some_lt, Ht|reflexivity
             |eapply kcall_short, Cc|lia].
        -- exfalso. eapply krejected_no; [exact M3|apply put_same; eapply nth_some_lt, Ht|reflexivity].
      * injection M1 as <- <-. exfalso. eapply krejected_no; [exact M3|apply put_same; eapply nth_some_lt, Ht|reflexivity].
    + destruct (kmove_other E x I u t y y1 f h M1 (not_eq_sym N) Ht) as (h' & K1 & K2).
      eapply IH; [exact M3|exact K1|rewrite K2; exact Hd|exact L].
  - eapply (kbusy_finishes E def x I F s Hs HI t 6); [exact Iv|exact Ht|exact Hd|eapply A; eassumption|lia].
Qed.

(** ** Examples *)

(** To show that threads keep the rules: a set of states closed under all steps. *)
Lemma kwell_behaved_by (E : env) def F (S : kasys -> Prop) a : S a ->
  (forall a e, S a -> exists a', kamove def F e a = Some a' /\ S a') ->
  (forall a t h, S a -> nth_error (kathreads a) t = Some h ->
     match kaprog h with KTCall o _ => forall s, kcontract E def (F s) (kplain a) o | _ => True end) ->
  kwell_behaved def F E a.
Proof.
  intros Ha Hs Hc l. revert a Ha. induction l as [|e l IH]; intros a Ha.
  - exists a. split; [reflexivity|]. intros t h. apply Hc, Ha.
  - destruct (Hs a e Ha) as (a' & H1 & H2). destruct (IH a' H2) as (b & K1 & K2). exists b. cbn [kamoves]. rewrite H1. auto.
Qed.

(** Thread 0 makes a container of a text, shares it with thread 1, clones it, and compares the two.
    Thread 1 clones it as well, takes the text out of its clone, and drops it. *)
Definition kdemo0 : ktprog :=
  KTCall (KNew v_text) (fun i _ => KTCall (KFrom i) (fun _ r =>
    match r with
    | KNothing => KTShare i (KTGive i 1 (KTCall (KClone i) (fun j r =>
        match r with KNothing => KTCall (KEq i j) (fun _ _ => KTStop) | _ => KTStop end)))
    | _ => KTStop
    end)).
Definition kdemo1 : ktprog :=
  KTTake (fun i => KTCall (KClone i) (fun j r =>
    match r with KNothing => KTCall (KIntoInner j) (fun _ _ => KTCall (KDropVal j) (fun _ _ => KTStop)) | _ => KTStop end)).
Definition kdemo_threads : list ktprog := [kdemo0; kdemo1].

Definition item_at : st -> meaning := fun _ => Props_Containers.item_meaning.
Definition item_impls : impls := Props_Containers.pure_impls Props_Containers.item_meaning.
Lemma item_implements : implements keeps item item_impls item_at.
Proof.
  refine (Props_Containers.implements_weak harmless keeps item item_impls item_at _ (Props_Containers.pure_implements item Props_Containers.item_meaning _));
    [intros s s' H; apply H|Props_Containers.item_clones].
Qed.

(** The plain threads after the given steps (thread, out of memory). *)
Definition kdemo_at (l : list (nat * bool)) : kasys :=
  match kamoves item item_at (map (fun e => (e, (st0, st0))) l) (kaboot kdemo_threads) with Some a => a | None => kaboot [] end.

(** A step that changes something, with the allocator's failure forgotten where it does not matter. *)
Definition kdemo_step (a : kasys) (t : nat) (f : bool) : option (nat * bool) :=
  match nth_error (kathreads a) t with
  | Some h =>
      match kaprog h with
      | KTStop => None
      | KTTake _ => match kamail h with [] => None | _ => Some (t, false) end
      | KTCall (KFrom _) _ | KTCall (KClone _) _ => Some (t, f)
      | _ => Some (t, false)
      end
  | None => None
  end.
Definition kdemo_next (e : nat * bool) (l : list (nat * bool)) : list (nat * bool) :=
  match kdemo_step (kdemo_at l) (fst e) (snd e) with Some e' => l ++ [e'] | None => l end.

(** All the ways to get somewhere. *)
Fixpoint kdemo_paths (n : nat) (l : list (nat * bool)) : list (list (nat * bool)) :=
  match n with
  | O => []
  | S n => l :: flat_map (fun e => match kdemo_step (kdemo_at l) (fst e) (snd e) with
                                   | Some (t, f) => if Bool.eqb f (snd e) then kdemo_paths n (l ++ [(t, f)]) else []
                                   | None => []
                                   end) [(0%nat, false); (0%nat, true); (1%nat, false); (1%nat, true)]
  end.
Definition kdemo_all : list (list (nat * bool)) := Eval vm_compute in kdemo_paths 20 [].

Lemma path_dec : forall l m : list (nat * bool), {l = m} + {l <> m}.
Proof. repeat decide equality. Defined.

Lemma kdemo_two l t : In l kdemo_all -> nth_error (kathreads (kdemo_at l)) (S (S t)) = None.
Proof.
  intros H. apply nth_error_None.
  assert (B : forallb (fun l => Nat.eqb (List.length (kathreads (kdemo_at l))) 2) kdemo_all = true) by (vm_compute; reflexivity).
  rewrite forallb_forall in B. specialize (B l H). apply Nat.eqb_eq in B. rewrite B. lia.
Qed.

Lemma kdemo_closed t f l : In l kdemo_all -> In (kdemo_next (t, f) l) kdemo_all.
Proof.
  assert (C : forall u g, (u = 0%nat \/ u = 1%nat) -> forall l, In l kdemo_all -> In (kdemo_next (u, g) l) kdemo_all).
  { intros u g Hu l' Hl.
    assert (B : forallb (fun m => existsb (fun n => if path_dec n (kdemo_next (u, g) m) then true else false) kdemo_all) kdemo_all = true)
      by (destruct Hu as [-> | ->], g; vm_compute; reflexivity).
    rewrite forallb_forall in B. specialize (B l' Hl). apply existsb_exists in B as (n & Hn & B).
    destruct (path_dec n (kdemo_next (u, g) l')) as [<-|]; [exact Hn|discriminate B]. }
  destruct t as [|[|t]]; intros H; [apply C; auto|apply C; auto|].
  unfold kdemo_next, kdemo_step. cbn [fst snd]. rewrite kdemo_two by exact H. exact H.
Qed.

Lemma kdemo_moves t f usr l : In l kdemo_all -> kamove item item_at (t, f, usr) (kdemo_at l) = Some (kdemo_at (kdemo_next (t, f) l)).
Proof.
  destruct t as [|[|t]]; intros H.
  - revert l H. apply Forall_forall. destruct f; repeat (apply Forall_cons; [vm_compute; reflexivity|]); apply Forall_nil.
  - revert l H. apply Forall_forall. destruct f; repeat (apply Forall_cons; [vm_compute; reflexivity|]); apply Forall_nil.
  - unfold kdemo_next, kdemo_step, kamove. cbn [fst snd]. rewrite kdemo_two by exact H. reflexivity.
Qed.

(** What the threads ask for. *)
Definition kdemo_asks (a : kasys) (h : kathread) : Prop :=
  match kaprog h with
  | KTCall (KNew v) _ => v = v_text
  | KTCall (KFrom i) _ => exists id, nth_error (kcells (kplain a)) i = Some (KAVal id v_text)
  | KTCall (KClone i) _ => exists id loc, nth_error (kcells (kplain a)) i = Some (KABox id loc v_text)
  | KTCall (KEq _ _) _ | KTCall (KIntoInner _) _ | KTCall (KDropVal _) _ => True
  | KTCall _ _ => False
  | _ => True
  end.

Lemma kdemo_asked t h l : In l kdemo_all -> nth_error (kathreads (kdemo_at l)) t = Some h -> kdemo_asks (kdemo_at l) h.
Proof.
  assert (K : Forall (fun l => Forall (kdemo_asks (kdemo_at l)) (kathreads (kdemo_at l))) kdemo_all).
  { repeat (apply Forall_cons; [vm_compute; repeat (apply Forall_cons || apply Forall_nil); repeat eexists|]). apply Forall_nil. }
  intros H Ht. rewrite Forall_forall in K. specialize (K l H). rewrite Forall_forall in K. apply K, (nth_error_In _ _ Ht).
Qed.

Lemma kdemo_well_behaved : kwell_behaved item item_at (bump_env dbg60) (kaboot kdemo_threads).
Proof.
  assert (V : evalue_ok item v_text) by (pose proof item_values_ok as H; rewrite Forall_forall in H; apply H; cbn; tauto).
  assert (T : tag_fits (bump_env dbg60) item (ev_variant v_text)) by (cbn [ev_variant v_text]; Props_Containers.kcontract_ok).
  apply (kwell_behaved_by _ _ _ (fun a => exists l, In l kdemo_all /\ a = kdemo_at l)).
  - exists []. split; [left; reflexivity|reflexivity].
  - intros a [[t f] usr] (l & Hl & ->). exists (kdemo_at (kdemo_next (t, f) l)). split; [apply kdemo_moves, Hl|].
    exists (kdemo_next (t, f) l). split; [apply kdemo_closed, Hl|reflexivity].
  - intros a t h (l & Hl & ->) Ht. pose proof (kdemo_asked t h l Hl Ht) as K. unfold kdemo_asks in K.
    destruct (kaprog h) as [|o k| | |]; try exact Logic.I. intros s.
    destruct o; try exact Logic.I; try (destruct K; fail).
    + cbn [kcontract]. rewrite K. exact V.
    + cbn [kcontract]. destruct K as [id H]. intros id' v' Hn. rewrite H in Hn. injection Hn as _ <-. exact T.
    + cbn [kcontract]. destruct K as (id & loc & H). intros id' loc' v' c Hn Hc. rewrite H in Hn. injection Hn as _ _ <-.
      cbn in Hc. injection Hc as <-. exact T.
Qed.

(** Both threads inside their clones at once. *)
Definition kdemo_order : list nat :=
  [0; 0; 1; 0; 0; 0; 0; 0; 0; 0; 1; 1; 0; 1; 0; 1; 0; 1; 0; 1; 0; 1; 0; 1; 0; 1; 0; 1; 0; 1; 0; 1; 0; 1; 0; 1; 0; 1; 0; 1; 0; 1; 1; 1; 1]%nat.
Local Notation kdemo_run := (kmoves (bump_env dbg60) item_x item_impls kdemo_order (kboot kdemo_threads st0)).
Definition kdemo_path : list (nat * bool) :=
  [(0, false); (0, false); (0, false); (0, false); (1, false); (0, false); (1, false); (1, false); (0, false); (1, false)]%nat.

Lemma item_moves l : forall y, kamoves item item_at l y = kamoves item item_at (map (fun e => (e, (st0, st0))) (map fst l)) y.
Proof.
  induction l as [|[e usr] l IH]; intros y; [reflexivity|]. cbn [map fst kamoves].
  assert (A : kamove item item_at (e, usr) y = kamove item item_at (e, (st0, st0)) y) by (destruct e; reflexivity).
  rewrite A. destruct (kamove item item_at (e, (st0, st0)) y); [apply IH|reflexivity].
Qed.

Lemma kdemo_end trace a : map fst trace = kdemo_path -> kamoves item item_at trace (kaboot kdemo_threads) = Some a -> a = kdemo_at kdemo_path.
Proof. intros T A. rewrite item_moves, T in A. unfold kdemo_at. rewrite A. reflexivity. Qed.

Example C64_threads_example : exists trace y, kdemo_run = (trace, inl y) /\
  map kseen (kthreads y) = [[KNothing; KNothing; KNothing; KSawBool true]; [KNothing; KSawValues [v_text]; KNothing]] /\
  Forall2 ksame_place (kthreads y) (kathreads (kdemo_at kdemo_path)).
Proof.
  destruct (C64_threads (bump_env dbg60) item item_x item_impls item_at kdemo_threads kdemo_order st0 item_setup item_implements kdemo_well_behaved)
    as (trace & y & a & H1 & H2 & H3).
  assert (T : map fst (fst kdemo_run) = kdemo_path) by (vm_compute; reflexivity). rewrite H1 in T. cbn [fst] in T.
  rewrite (kdemo_end _ _ T H2) in H3. exists trace, y. split; [exact H1|]. split; [|exact H3].
  assert (S : map kaseen (kathreads (kdemo_at kdemo_path)) = map kseen (kthreads y)).
  { clear - H3. induction H3 as [|h ah l l' (_ & K & _) _ IH]; cbn [map]; [reflexivity|]. rewrite K, IH. reflexivity. }
  rewrite <- S. vm_compute. reflexivity.
Qed.

(** In the middle: each thread is about to write to the block of its own clone. *)
Example C64_no_race_example : exists trace y,
  kmoves (bump_env dbg60) item_x item_impls (firstn 18 kdemo_order) (kboot kdemo_threads st0) = (trace, inl y) /\
  ~ kdata_race y /\ map kabout_to (kthreads y) = [Some (TWrite 4120 24); Some (TWrite 4144 24)].
Proof.
  set (r := kmoves (bump_env dbg60) item_x item_impls (firstn 18 kdemo_order) (kboot kdemo_threads st0)).
  assert (A : match snd r with inl y => map kabout_to (kthreads y) = [Some (TWrite 4120 24); Some (TWrite 4144 24)] | inr _ => False end)
    by (vm_compute; reflexivity).
  destruct r as [trace [y|u]] eqn:R; [|destruct A]. exists trace, y. split; [reflexivity|]. split; [|exact A].
  exact (C64_no_race (bump_env dbg60) item item_x item_impls item_at kdemo_threads _ st0 trace y item_setup item_implements kdemo_well_behaved R).
Qed.

Definition all_idle (y : ksys) : bool := forallb (fun h => match kdoing h with KIdle _ => true | _ => false end) (kthreads y).

(** At the end: three blocks, none of them freed, and one string destroyed. *)
Example C64_memory_example : exists trace y, kdemo_run = (trace, inl y) /\ List.length (blocks (kmemory y)) = 3%nat /\
  times ("String"%string, a_string) (destroyed (events (kmemory y))) = 1%nat.
Proof.
  destruct (C64_threads (bump_env dbg60) item item_x item_impls item_at kdemo_threads kdemo_order st0 item_setup item_implements kdemo_well_behaved)
    as (trace & y & a & H1 & H2 & _).
  destruct (C64_memory (bump_env dbg60) item item_x item_impls item_at kdemo_threads kdemo_order st0 trace y a item_setup item_implements
    kdemo_well_behaved H1 H2) as [_ H].
  assert (T : map fst (fst kdemo_run) = kdemo_path) by (vm_compute; reflexivity). rewrite H1 in T. cbn [fst] in T.
  pose proof (kdemo_end _ _ T H2) as ->.
  assert (A : match snd kdemo_run with inl y => all_idle y = true | inr _ => False end) by (vm_compute; reflexivity).
  assert (G : grown (fun t => List.length (blocks t)) (user_work (fst kdemo_run)) = 0%Z) by (vm_compute; reflexivity).
  assert (G' : grown (fun t => times ("String"%string, a_string) (destroyed (events t))) (user_work (fst kdemo_run)) = 0%Z) by (vm_compute; reflexivity).
  rewrite H1 in A, G, G'. cbn [fst snd] in A, G, G'. unfold all_idle in A. rewrite forallb_forall in A.
  destruct H as [B D].
  { intros h Hh. specialize (A h Hh). destruct (kdoing h) as [p| |]; try discriminate A. exists p. reflexivity. }
  specialize (D Props_Containers.item_no_zst_drop ("String"%string, a_string)). rewrite G in B. rewrite G' in D.
  assert (M : kmade (kplain (kdemo_at kdemo_path)) = 3%nat) by (vm_compute; reflexivity).
  assert (N : times ("String"%string, a_string) (kdead_destructors item (kdead (kplain (kdemo_at kdemo_path)))) = 1%nat) by (vm_compute; reflexivity).
  rewrite M in B. rewrite N in D. change (List.length (blocks st0)) with 0%nat in B. change (times ("String"%string, a_string) (destroyed (events st0))) with 0%nat in D.
  exists trace, y. split; [exact H1|]. split; lia.
Qed.

(** Thread 0 inside its clone finishes it although thread 1 moves in between. *)
Example C64_wait_free_example : exists trace y,
  kmoves (bump_env dbg60) item_x item_impls (firstn 15 kdemo_order) (kboot kdemo_threads st0) = (trace, inl y) /\
  In 0%nat (map (fun e => fst (fst e)) (fst (kmoves (bump_env dbg60) item_x item_impls [1; 0; 1; 0; 1; 0; 1; 0; 0; 0; 0; 0]%nat y))).
Proof.
  set (r := kmoves (bump_env dbg60) item_x item_impls (firstn 15 kdemo_order) (kboot kdemo_threads st0)).
  assert (A : match snd r with inl y => match nth_error (kthreads y) 0 with
      Some h => match kdoing h with KBusy (KClone _) _ _ _ _ => true | _ => false end | None => false end = true | inr _ => False end)
    by (vm_compute; reflexivity).
  destruct r as [trace [y|u]] eqn:R; [|destruct A]. exists trace, y. split; [reflexivity|].
  cbn [snd] in A. destruct (nth_error (kthreads y) 0) as [h|] eqn:Hh; [|discriminate A].
  apply (C64_wait_free (bump_env dbg60) item item_x item_impls item_at kdemo_threads _ _ st0 trace y 0 h item_setup item_implements kdemo_well_behaved R Hh).
  - right. destruct (kdoing h); try discriminate A. do 5 eexists. reflexivity.
  - cbn. lia.
Qed.

(** Cloning the container of a text, as one call and as a list of accesses. *)
Definition text_box (p : N) : tagged_ptr := match tp_new dbg60 p 2 with Done w => w | Panics _ => tb_dangling (bump_env dbg60) 1 0 end.
Example C64_calls_example : let E := bump_env dbg60 in
  match kstep E item_x item_impls (KFrom 0) [KVal v_text] with
  | Some m =>
      match m st0 with
      | Ok r s =>
          r = (KNothing, [KBox (text_box 4096)]) /\
          match kstep E item_x item_impls (KClone 0) [KBox (text_box 4096)], kc_call E item_x item_impls (KClone 0) [KBox (text_box 4096)] with
          | Some m', Some j => result (m' s) = Some (KNothing, [KBox (text_box 4096); KBox (text_box 4120)]) /\
                               result (kdenote E j s) = Some (KNothing, KBox (text_box 4120))
          | _, _ => False
          end
      | _ => False
      end
  | None => False
  end.
Proof. vm_compute. repeat split; reflexivity. Qed.

Print Assumptions C64_calls.
Print Assumptions C64_threads.
Print Assumptions C64_no_race.
Print Assumptions C64_memory.
Print Assumptions C64_wait_free.
