(** C60: threads that use boxes at the same time. *)
From Coq Require Import Arith NArith String Bool List Lia Permutation.
From Verif Require Import Words Config Spec ConfigFacts Pointer PointerFacts Mem SpecMem MemFacts Box BoxFacts Bump
  Props_Pointer Props_Box Session SpecSession SessionFacts Threads SpecThreads ThreadsFacts.
Import ListNotations.
Local Open Scope N_scope.

(** ** The calls are those of C38 *)

(** A call as a list of accesses, run without interruption, does what the call of [Session.v] does; and one
    compiles exactly when the other does. *)
Theorem C60_calls : forall (E : env) (o : op) (c : list cell),
  match step E o c, c_call E o (match target_of o with Some i => nth_error c i | None => None end) with
  | Some m, Some j => forall s, m s =
      match denote E j s with
      | Ok (x, c') s' => Ok (x, match target_of o with Some i => put i c' c | None => c ++ [c'] end) s'
      | Panicked p s' => Panicked p s'
      | UB u => UB u
      end
  | None, None => True
  | _, _ => False
  end.
Proof.
  intros E o c.
  assert (P : forall i x, nth_error c i = Some x -> put i x c = c) by (intros; apply put_id; assumption).
  destruct o as [u U val d|i|i|i|i f|i val|i|i|i d|i|i|i|i|i|i|i|i val|i|i val]; cbn [step c_call target_of];
    [|destruct (nth_error c i) as [x|] eqn:Hx; [|exact I]; specialize (P i x Hx); destruct x as [U w|U p|U p|U v|]; try exact I; intros s..].
  - intros s. assert (Hu : (if u then tb_new_unchecked E U val d else tb_new E U val d) = tb_new E U val d) by (destruct u; reflexivity).
    rewrite Hu. unfold tb_new, c_new. destruct (h_size U =? 0); [reflexivity|].
    cbn [denote]. unfold bind. cbn [run_act]. destruct (alloc (alloc_fn E) (h_size U) (h_align U) s) as [[p|] s1| |]; [|reflexivity..].
    cbn [denote]. unfold bind. cbn [run_act]. destruct (write_at U p val s1) as [[] s2| |]; [|reflexivity..].
    destruct (tp_new (tgt E) p d); reflexivity.
  - unfold tb_as_ref, bind. cbn [denote run_act]. unfold bind. destruct (read_at _ _ s) as [v s1| |]; cbn; rewrite ?P; reflexivity.
  - unfold tb_as_ptr, bind. cbn [denote run_act]. unfold bind. destruct (read_at _ _ s) as [v s1| |]; cbn; rewrite ?P; reflexivity.
  - cbn. rewrite P. reflexivity.
  - unfold tb_modify, bind. cbn [denote run_act]. unfold bind. destruct (read_at _ _ s) as [v s1| |]; try reflexivity.
    cbn [denote run_act]. unfold bind. destruct (write_at _ _ _ s1) as [[] s2| |]; cbn; rewrite ?P; reflexivity.
  - unfold tb_assign, c_assign, bind. cbn [denote run_act]. unfold bind. destruct (read_at _ _ s) as [v s1| |]; try reflexivity.
    cbn [denote run_act]. unfold bind. destruct (drop_hval U v s1) as [[] s2| |]; try reflexivity.
    destruct (write_at _ _ _ s2) as [[] s3| |]; cbn; rewrite ?P; reflexivity.
  - unfold tb_into_inner, bind. cbn [denote run_act]. unfold bind. destruct (read_at _ _ s) as [v s1| |]; reflexivity.
  - reflexivity.
  - unfold tb_from_raw, bind. destruct (tp_new (tgt E) p d); reflexivity.
  - reflexivity.
  - reflexivity.
  - unfold rbox_get, bind. cbn [denote run_act]. unfold bind. destruct (read_at _ _ s) as [v s1| |]; cbn; rewrite ?P; reflexivity.
  - unfold rbox_drop, c_free, bind. cbn [denote run_act]. unfold bind. destruct (read_at _ _ s) as [v s1| |]; try reflexivity.
    cbn [denote run_act]. unfold bind. destruct (drop_hval U v s1) as [[] s2| |]; try reflexivity.
    destruct (h_size U =? 0); [reflexivity|]. cbn [denote run_act]. unfold bind. destruct (dealloc _ _ _ s2) as [[] s3| |]; reflexivity.
  - unfold rbox_unbox, c_free, bind. cbn [denote run_act]. unfold bind. destruct (read_at _ _ s) as [v s1| |]; try reflexivity.
    destruct (h_size U =? 0); [reflexivity|]. cbn [denote run_act]. unfold bind. destruct (dealloc _ _ _ s1) as [[] s3| |]; reflexivity.
  - reflexivity.
  - cbn [denote run_act]. unfold bind. destruct (drop_hval U v s) as [[] s1| |]; reflexivity.
  - unfold assign_at, c_assign, bind. cbn [denote run_act]. unfold bind. destruct (read_at _ _ s) as [v s1| |]; try reflexivity.
    cbn [denote run_act]. unfold bind. destruct (drop_hval U v s1) as [[] s2| |]; try reflexivity.
    destruct (write_at _ _ _ s2) as [[] s3| |]; cbn; rewrite ?P; reflexivity.
  - unfold bind. cbn [denote run_act]. unfold bind. destruct (read_at _ _ s) as [v s1| |]; cbn; rewrite ?P; reflexivity.
  - unfold assign_at, c_assign, bind. cbn [denote run_act]. unfold bind. destruct (read_at _ _ s) as [v s1| |]; try reflexivity.
    cbn [denote run_act]. unfold bind. destruct (drop_hval U v s1) as [[] s2| |]; try reflexivity.
    destruct (write_at _ _ _ s2) as [[] s3| |]; cbn; rewrite ?P; reflexivity.
Qed.

(** ** Every interleaving *)

(** Whatever the order in which the threads' accesses happen: no undefined behaviour, and every thread is where it
    would be, and has seen what it would see, had every call happened at once, on plain values, at the moment it returned. *)
Theorem C60_threads : forall (E : env) (ps : list tprog) (order : list nat) (s : st),
  env_ok E -> well_behaved E (aboot ps) ->
  exists trace y a, moves E order (boot ps s) = (trace, inl y) /\ amoves trace (aboot ps) = Some a /\
    Forall2 same_place (threads y) (athreads a).
Proof.
  intros E ps order s HE W. destruct (moves_ok E HE s order _ _ _ _ (inv_boot E ps s W)) as (trace & y & a & C & efs & H1 & H2 & H3).
  exists trace, y, a. split; [exact H1|]. split; [exact H2|]. exact (i_place _ _ _ _ _ _ H3).
Qed.

(** At no moment are two threads about to touch the same memory, one of them changing it. *)
Theorem C60_no_race : forall (E : env) (ps : list tprog) (order : list nat) (s : st) trace y,
  env_ok E -> well_behaved E (aboot ps) -> moves E order (boot ps s) = (trace, inl y) -> ~ data_race y.
Proof.
  intros E ps order s trace y HE W M. destruct (moves_ok E HE s order _ _ _ _ (inv_boot E ps s W)) as (trace' & y' & a & C & efs & H1 & _ & H3).
  rewrite H1 in M. injection M as <- <-. eapply no_race; eassumption.
Qed.

(** When no thread is inside a call, exactly the values the plain threads destroyed are destroyed, each as often, and
    the blocks in use are those they would have; the memory in use before is as it was at every moment. *)
Theorem C60_memory : forall (E : env) (ps : list tprog) (order : list nat) (s : st) trace y a,
  env_ok E -> well_behaved E (aboot ps) -> moves E order (boot ps s) = (trace, inl y) -> amoves trace (aboot ps) = Some a ->
  keeps s (memory y) /\
  ((forall h, In h (threads y) -> exists p, doing h = Idle p) ->
   Permutation (destroyed (events (memory y))) (destroyed (events s) ++ dead_destructors (dead (plain a))) /\
   (List.length (blocks (memory y)) + freed (plain a) = List.length (blocks s) + made (plain a))%nat).
Proof.
  intros E ps order s trace y a HE W M A. destruct (moves_ok E HE s order _ _ _ _ (inv_boot E ps s W)) as (trace' & y' & a' & C & efs & H1 & H2 & H3).
  rewrite H1 in M. injection M as <- <-. rewrite H2 in A. injection A as <-. pose proof H3 as [I1 I2 I3 I4 I5 I6 I7 I8 I9 I10 I11 I12].
  split; [exact I9|]. intros Hi.
  assert (Z : Forall (fun e => e = no_effects) efs).
  { apply Forall_forall. intros e He. apply In_nth_error in He as [t Ht]. pose proof (nth_some_lt _ _ _ Ht) as L. rewrite I4 in L.
    apply nth_error_Some in L. destruct (nth_error (threads y') t) as [h|] eqn:Hh; [|contradiction].
    destruct (Hi h (nth_error_In _ _ Hh)) as [p Hp]. pose proof (I6 t h e Hh Ht) as K. rewrite Hp in K. apply K. }
  assert (D : flat_map e_died efs = []) by (clear - Z; induction Z as [|e l -> _ IH]; cbn; auto).
  assert (T : forall f, f no_effects = O -> total f efs = O).
  { intros f Hf. clear - Z Hf. unfold total, list_sum. induction Z as [|e l -> _ IH]; cbn; auto. rewrite Hf. auto. }
  rewrite D, app_nil_r in I10. rewrite !T in I11 by reflexivity. split; [exact I10|lia].
Qed.

(** ** No waiting *)

Fixpoint short {A} (n : nat) (m : code A) : Prop :=
  match m with
  | CStep X _ k => match n with O => False | S r => forall x, short r (k x) end
  | _ => True
  end.

Lemma c_call_short E o x m : c_call E o x = Some m -> short 3 m.
Proof.
  destruct o as [u U val d|i|i|i|i f|i val|i|i|i d|i|i|i|i|i|i|i|i val|i|i val];
    [|destruct x as [[U w|U p|U p|U v|]|]..]; cbn [c_call]; try discriminate; intros H; injection H as <-;
    unfold c_new, c_free, c_assign; try (destruct (h_size U =? 0)); try (destruct (tp_new (tgt E) p d)); cbn; auto.
  intros [p|]; cbn; [intros _; destruct (tp_new _ _ _); exact I|auto].
Qed.

(** Where the other threads leave a thread. *)
Lemma move_other E t u y y' f h : move E t y = Moved y' f -> u <> t -> nth_error (threads y) u = Some h ->
  exists h', nth_error (threads y') u = Some h' /\ doing h' = doing h.
Proof.
  intros M N Hu. unfold move in M. destruct (nth_error (threads y) t) as [ht|] eqn:Ht; [|injection M as <- _; eauto].
  assert (K : forall x, nth_error (put t x (threads y)) u = Some h) by (intros x; rewrite put_other by auto; exact Hu).
  assert (R : forall x, exists h', nth_error (threads (with_thread t x y)) u = Some h' /\ doing h' = doing h) by (intros x; exists h; split; [apply K|reflexivity]).
  destruct (doing ht) as [p|o out m k|] eqn:Hd; [|
    |injection M as <- _; eauto].
  - destruct p as [|o k|i t' k|i k|k].
    + injection M as <- _; eauto.
    + destruct (if allowed (owners y) t o then _ else _); injection M as <- _; apply R.
    + destruct (nth_error (owners y) i) as [w|]; [|injection M as <- _; apply R].
      destruct (nth_error (put t _ (threads y)) t') as [h'|] eqn:Ht'; [|injection M as <- _; apply R].
      destruct (match w with By x => _ | Everyone => _ end); injection M as <- _; [|apply R]. cbn [threads].
      rewrite (nth_put _ _ _ _ _ Ht'). destruct (Nat.eqb_spec u t') as [->|]; [|eauto].
      eexists. split; [reflexivity|]. cbn. rewrite K in Ht'. congruence.
    + destruct (nth_error (owners y) i) as [[x|]|]; try (injection M as <- _; apply R).
      destruct (nth_error (vars y) i) as [[]|]; try (injection M as <- _; apply R).
      destruct (Nat.eqb t x); injection M as <- _; [|apply R]. cbn [threads]. eauto.
    + destruct (mail ht); injection M as <- _; [eauto|apply R].
  - destruct m as [[x c]|q|X a next].
    + injection M as <- _. unfold returns. destruct (target_of o); cbn [threads]; eauto.
    + injection M as <- _. unfold returns. destruct (target_of o); cbn [threads]; eauto.
    + destruct (run_act E a (memory y)); [| |discriminate]; injection M as <- _; [cbn [threads]; eauto|apply R].
Qed.

Lemma busy_finishes E (HE : env_ok E) s0 t n : forall order y a C efs h o out m k, Inv E s0 y a C efs -> nth_error (threads y) t = Some h ->
  doing h = Busy o out m k -> short n m -> (n < count_occ Nat.eq_dec order t)%nat -> In t (map fst (fst (moves E order y))).
Proof.
  intros order. revert n. induction order as [|u r IH]; intros n y a C efs h o out m k Iv Ht Hd Hs L; [cbn in L; lia|].
  destruct (step_any E HE s0 y a C efs u Iv) as (y1 & f & a1 & C1 & efs1 & H1 & H2 & H3).
  cbn [moves]. rewrite H1. destruct (moves E r y1) as [l z] eqn:Mr. cbn [fst].
  assert (G : In t (map fst l) -> In t (map fst (match f with Some e => e :: l | None => l end))) by (destruct f; cbn; auto).
  assert (Fl : l = fst (moves E r y1)) by (rewrite Mr; reflexivity).
  destruct (Nat.eq_dec u t) as [->|N].
  - cbn [count_occ] in L. destruct (Nat.eq_dec t t) as [_|X]; [|contradiction].
    unfold move in H1. rewrite Ht, Hd in H1. destruct m as [[x c]|q|X a' next].
    + injection H1 as _ <-. left. reflexivity.
    + injection H1 as _ <-. left. reflexivity.
    + cbn [short] in Hs. destruct n as [|n]; [destruct Hs|].
      destruct (run_act E a' (memory y)) as [x s1|q s1|b] eqn:Ra; [| |discriminate]; injection H1 as <- <-.
      * rewrite Fl. eapply IH; [exact H3|cbn [threads]; apply put_same; eapply nth_some_lt, Ht|reflexivity|apply Hs|lia].
      * destruct (Forall2_nth _ _ _ (i_place _ _ _ _ _ _ H3) t _ (put_same _ _ _ (nth_some_lt _ _ _ Ht))) as (ah & _ & A2).
        unfold same_place in A2. destruct A2 as (_ & _ & []).
  - apply G. rewrite Fl. destruct (move_other E u t y y1 f h H1 (not_eq_sym N) Ht) as (h' & K1 & K2).
    cbn [count_occ] in L. destruct (Nat.eq_dec u t) as [X|_]; [contradiction|].
    eapply IH; [exact H3|exact K1|rewrite K2; exact Hd|exact Hs|exact L].
Qed.

Lemma move_length E t y y' f : move E t y = Moved y' f -> List.length (threads y') = List.length (threads y).
Proof.
  intros M. unfold move in M. destruct (nth_error (threads y) t) as [ht|]; [|injection M as <- _; reflexivity].
  assert (R : forall x, List.length (threads (with_thread t x y)) = List.length (threads y)) by (intros x; apply put_length).
  destruct (doing ht) as [p|o out m k|]; [| |injection M as <- _; reflexivity].
  - destruct p as [|o k|i t' k|i k|k].
    + injection M as <- _; reflexivity.
    + destruct (if allowed (owners y) t o then _ else _); injection M as <- _; apply R.
    + destruct (nth_error (owners y) i) as [w|]; [|injection M as <- _; apply R].
      destruct (nth_error (put t _ (threads y)) t') as [h'|]; [|injection M as <- _; apply R].
      destruct (match w with By x => _ | Everyone => _ end); injection M as <- _; [|apply R]. cbn [threads]. rewrite !put_length. reflexivity.
    + destruct (nth_error (owners y) i) as [[x|]|]; try (injection M as <- _; apply R).
      destruct (nth_error (vars y) i) as [[]|]; try (injection M as <- _; apply R).
      destruct (Nat.eqb t x); injection M as <- _; apply R.
    + destruct (mail ht); injection M as <- _; [reflexivity|apply R].
  - destruct m as [[x c]|q|X a next].
    + injection M as <- _. unfold returns. destruct (target_of o); apply put_length.
    + injection M as <- _. unfold returns. destruct (target_of o); apply put_length.
    + destruct (run_act E a (memory y)); [| |discriminate]; injection M as <- _; [apply put_length|apply R].
Qed.

Definition all_short (y : sys) : Prop := forall t h o out m k, nth_error (threads y) t = Some h -> doing h = Busy o out m k -> short 3 m.

Lemma short_more {A} (m : code A) : forall n, short n m -> short (S n) m.
Proof.
  induction m as [a|p|X a k IH]; intros n H; [exact I|exact I|]. destruct n as [|n]; [destruct H|]. intros x. apply IH, H.
Qed.

Lemma move_short E t y y' f : move E t y = Moved y' f -> all_short y -> all_short y'.
Proof.
  intros M A u h' o' out' m' k' Hu Hb.
  assert (X : exists h, nth_error (threads y) u = Some h).
  { pose proof (nth_some_lt _ _ _ Hu) as L. rewrite (move_length _ _ _ _ _ M) in L. apply nth_error_Some in L.
    destruct (nth_error (threads y) u); [eauto|contradiction]. }
  destruct X as [h Hh]. destruct (Nat.eq_dec u t) as [->|N].
  - unfold move in M. rewrite Hh in M.
    assert (S : forall x, nth_error (put t x (threads y)) t = Some x) by (intros x; apply put_same; eapply nth_some_lt, Hh).
    assert (W : forall x, (forall o2 out2 m2 k2, doing x <> Busy o2 out2 m2 k2) -> nth_error (put t x (threads y)) t = Some h' -> short 3 m').
    { intros x Hx K. rewrite S in K. injection K as ->. destruct (Hx _ _ _ _ Hb). }
    destruct (doing h) as [p|o out m k|] eqn:Hd.
    + destruct p as [|o k|i t' k|i k|k].
      * injection M as <- _. rewrite Hh in Hu. injection Hu as <-. congruence.
      * destruct (allowed (owners y) t o); [|injection M as <- _; refine (W _ _ Hu); discriminate].
        destruct (c_call E o _) as [m|] eqn:Cc; injection M as <- _; [|refine (W _ _ Hu); discriminate].
        unfold with_thread in Hu. cbn [threads] in Hu. rewrite S in Hu. injection Hu as <-. cbn in Hb. injection Hb as <- <- <- <-.
        eapply c_call_short, Cc.
      * destruct (nth_error (owners y) i) as [w|]; [|injection M as <- _; refine (W _ _ Hu); discriminate].
        destruct (nth_error (put t _ (threads y)) t') as [h1|] eqn:Ht'; [|injection M as <- _; refine (W _ _ Hu); discriminate].
        destruct (match w with By x => _ | Everyone => _ end); injection M as <- _; [|refine (W _ _ Hu); discriminate].
        cbn [threads] in Hu. rewrite (nth_put _ _ _ _ _ Ht') in Hu. destruct (Nat.eqb_spec t t') as [<-|].
        -- injection Hu as <-. rewrite S in Ht'. injection Ht' as <-. discriminate.
        -- refine (W _ _ Hu); discriminate.
      * destruct (nth_error (owners y) i) as [[x|]|]; try (injection M as <- _; refine (W _ _ Hu); discriminate).
        destruct (nth_error (vars y) i) as [[]|]; try (injection M as <- _; refine (W _ _ Hu); discriminate).
        destruct (Nat.eqb t x); injection M as <- _; refine (W _ _ Hu); discriminate.
      * destruct (mail h); injection M as <- _; [rewrite Hh in Hu; injection Hu as <-; congruence|refine (W _ _ Hu); discriminate].
    + pose proof (A t h o out m k Hh Hd) as Sh. destruct m as [[x c]|q|X a next].
      * injection M as <- _. unfold returns in Hu. destruct (target_of o); refine (W _ _ Hu); discriminate.
      * injection M as <- _. unfold returns in Hu. destruct (target_of o); refine (W _ _ Hu); discriminate.
      * destruct (run_act E a (memory y)); [| |discriminate]; injection M as <- _; [|refine (W _ _ Hu); discriminate].
        cbn [threads] in Hu. rewrite S in Hu. injection Hu as <-. cbn [doing] in Hb. injection Hb as <- <- <- <-. apply short_more, Sh.
    + injection M as <- _. rewrite Hh in Hu. injection Hu as <-. congruence.
  - destruct (move_other E t u y y' f h M N Hh) as (h2 & K1 & K2). rewrite Hu in K1. injection K1 as <-.
    eapply A; [exact Hh|]. rewrite <- K2. exact Hb.
Qed.

Lemma moves_short E order : forall y trace y', moves E order y = (trace, inl y') -> all_short y -> all_short y'.
Proof.
  induction order as [|t r IH]; intros y trace y' H A; cbn [moves] in H; [injection H as _ <-; exact A|].
  destruct (move E t y) as [y1 f|] eqn:M; [|discriminate]. destruct (moves E r y1) as [l z] eqn:R. injection H as _ ->.
  eapply IH; [exact R|]. eapply move_short; eassumption.
Qed.

(** A thread about to make a call, or inside one, completes it with its next five moves at the latest, whatever the
    others do in between. *)
Theorem C60_wait_free : forall (E : env) (ps : list tprog) (order more : list nat) (s : st) trace y t h,
  env_ok E -> well_behaved E (aboot ps) -> moves E order (boot ps s) = (trace, inl y) -> nth_error (threads y) t = Some h ->
  (exists o k, doing h = Idle (TCall o k)) \/ (exists o out m k, doing h = Busy o out m k) ->
  (5 <= count_occ Nat.eq_dec more t)%nat -> In t (map fst (fst (moves E more y))).
Proof.
  intros E ps order more s trace y t h HE W M Ht Hd L.
  destruct (moves_ok E HE s order _ _ _ _ (inv_boot E ps s W)) as (trace' & y' & a & C & efs & H1 & _ & Iv).
  rewrite H1 in M. injection M as <- <-.
  assert (A : all_short y').
  { eapply moves_short; [exact H1|]. intros u hu o out m k Hu Hb. cbn [boot threads] in Hu. rewrite nth_error_map in Hu.
    destruct (nth_error ps u); [|discriminate]. injection Hu as <-. discriminate. }
  destruct Hd as [(o & k & Hd)|(o & out & m & k & Hd)].
  - clear H1 A. revert y' a C efs h Iv Ht Hd L. induction more as [|u r IH]; intros y a C efs h Iv Ht Hd L; [cbn in L; lia|].
    destruct (step_any E HE s y a C efs u Iv) as (y1 & f & a1 & C1 & efs1 & M1 & M2 & M3).
    cbn [moves]. rewrite M1. destruct (moves E r y1) as [l z] eqn:Mr. cbn [fst].
    assert (G : In t (map fst l) -> In t (map fst (match f with Some e => e :: l | None => l end))) by (destruct f; cbn; auto).
    assert (Fl : l = fst (moves E r y1)) by (rewrite Mr; reflexivity). apply G. rewrite Fl.
    cbn [count_occ] in L. destruct (Nat.eq_dec u t) as [->|N].
    + unfold move in M1. rewrite Ht, Hd in M1. destruct (allowed (owners y) t o) eqn:Al.
      * destruct (c_call E o _) as [m|] eqn:Cc; injection M1 as <- <-.
        -- eapply (busy_finishes E HE s t 3); [exact M3|cbn [with_thread threads]; apply put_same; eapply nth_some_lt, Ht|reflexivity
             |eapply c_call_short, Cc|lia].
        -- destruct (Forall2_nth _ _ _ (i_place _ _ _ _ _ _ M3) t _ (put_same _ _ _ (nth_some_lt _ _ _ Ht))) as (ah & _ & A2).
           unfold same_place in A2. destruct A2 as (_ & _ & []).
      * injection M1 as <- <-.
        destruct (Forall2_nth _ _ _ (i_place _ _ _ _ _ _ M3) t _ (put_same _ _ _ (nth_some_lt _ _ _ Ht))) as (ah & _ & A2).
        unfold same_place in A2. destruct A2 as (_ & _ & []).
    + destruct (move_other E u t y y1 f h M1 (not_eq_sym N) Ht) as (h' & K1 & K2).
      eapply IH; [exact M3|exact K1|rewrite K2; exact Hd|exact L].
  - eapply (busy_finishes E HE s t 3); [exact Iv|exact Ht|exact Hd|eapply A; eassumption|lia].
Qed.

(** ** Examples *)

(** To show that threads keep the rules: a set of states closed under all steps. *)
Lemma well_behaved_by (E : env) (S : asys -> Prop) a : S a ->
  (forall a e, S a -> exists a', amove e a = Some a' /\ S a') ->
  (forall a t h, S a -> nth_error (athreads a) t = Some h -> match aprog h with TCall o _ => contract E (plain a) o | _ => True end) ->
  well_behaved E a.
Proof.
  intros Ha Hs Hc l. revert a Ha. induction l as [|e l IH]; intros a Ha.
  - exists a. split; [reflexivity|]. intros t h. apply Hc, Ha.
  - destruct (Hs a e Ha) as (a' & H1 & H2). destruct (IH a' H2) as (b & K1 & K2). exists b. cbn [amoves]. rewrite H1. auto.
Qed.

(** Thread 0 makes a box and shares it with thread 1, then makes a box with a string and hands it over.
    Thread 1 reads the first, overwrites the string, turns the box into a Rust box, and drops it. *)
Definition demo0 : tprog :=
  TCall (NewBox false U_u32 v_u32 3) (fun i x =>
    match x with
    | SawNothing => TShare i (TGive i 1 (TCall (NewBox true U_str v_str 9) (fun j z =>
        match z with SawNothing => TGive j 1 (TCall (Read i) (fun _ _ => TStop)) | _ => TStop end)))
    | _ => TStop
    end).
Definition demo1 : tprog :=
  TTake (fun i => TCall (Read i) (fun _ _ =>
    TTake (fun j => TCall (Assign j v_str) (fun _ _ => TCall (IntoBox j) (fun _ _ => TCall (RustDrop j) (fun _ _ => TStop)))))).
Definition demo_threads : list tprog := [demo0; demo1].

(** The states of the plain threads: thread 0 after [i] steps (7, 8: the allocator failed it the first or second time),
    thread 1 after [j]. *)
Definition demo_before (i : nat) : list (nat * bool) :=
  match i with
  | 7%nat => [(0%nat, true)]
  | 8%nat => [(0%nat, false); (0%nat, false); (0%nat, false); (0%nat, true)]
  | _ => repeat (0%nat, false) i
  end.
Definition demo_at (i j : nat) : asys :=
  match amoves (demo_before i ++ repeat (1%nat, false) j) (aboot demo_threads) with Some a => a | None => aboot [] end.
Definition demo_states : list (nat * nat) :=
  [(0,0); (1,0); (2,0); (7,0); (3,0); (3,1); (3,2); (4,0); (4,1); (4,2); (8,0); (8,1); (8,2);
   (5,0); (5,1); (5,2); (5,3); (5,4); (5,5); (5,6); (6,0); (6,1); (6,2); (6,3); (6,4); (6,5); (6,6)]%nat.
Definition demo_next (e : nat * bool) (p : nat * nat) : nat * nat :=
  let (i, j) := p in
  match e with
  | (0%nat, f) =>
      (match i with
       | 6%nat | 7%nat | 8%nat => i
       | O => if f then 7%nat else 1%nat
       | 3%nat => if f then 8%nat else 4%nat
       | _ => S i
       end, j)
  | (1%nat, _) =>
      (i, if Nat.ltb j (match i with 3%nat | 4%nat | 8%nat => 2 | 5%nat | 6%nat => 6 | _ => 0 end) then S j else j)
  | _ => p
  end.

Ltac fin60 Ht :=
  vm_compute in Ht; apply (f_equal (fun x => match x with Some y => aprog y | None => TStop end)) in Ht;
  cbn beta iota in Ht; cbn [aprog] in Ht; rewrite <- Ht; vm_compute; repeat split.

Lemma demo_well_behaved : well_behaved (bump_env dbg60) (aboot demo_threads).
Proof.
  destruct example_values_ok as (L1 & V1 & L2 & V2 & _).
  assert (M : forall d, d <= 15 -> d <= max_discriminant (cfg (tgt (bump_env dbg60)))).
  { intros d H. vm_compute max_discriminant. exact H. }
  apply (well_behaved_by _ (fun a => exists p, In p demo_states /\ a = demo_at (fst p) (snd p))).
  - exists (0%nat, 0%nat). split; [left; reflexivity|reflexivity].
  - intros a e (p & Hp & ->). exists (demo_at (fst (demo_next e p)) (snd (demo_next e p))).
    destruct e as [t f]. cbn [demo_states In] in Hp.
    split; [|exists (demo_next (t, f) p); split; [|reflexivity]].
    + repeat (destruct Hp as [<-|Hp]; [destruct t as [|[|t]]; destruct f; [vm_compute; reflexivity|vm_compute; reflexivity|vm_compute; reflexivity|vm_compute; reflexivity|destruct t; vm_compute; reflexivity..]|]). destruct Hp.
    + repeat (destruct Hp as [<-|Hp]; [destruct t as [|[|t]]; destruct f; vm_compute; repeat (first [left; reflexivity|right])|]). destruct Hp.
  - intros a t h (p & Hp & ->) Ht. cbn [demo_states In] in Hp.
    assert (K : match aprog h with TCall (NewBox false U v d) _ => U = U_u32 /\ v = v_u32 /\ d = 3
                | TCall (NewBox true U v d) _ => U = U_str /\ v = v_str /\ d = 9
                | TCall (Assign _ v) _ => v = v_str /\ nth_error (cells (plain (demo_at (fst p) (snd p)))) 1 = Some (ABox U_str 1 v_str 9)
                | TCall o _ => match o with Modify _ _ | AssignPtr _ _ | RawAssign _ _ | FromRaw _ _ => False | _ => True end
                | _ => True end /\ match aprog h with TCall (Assign i _) _ => i = 1%nat | _ => True end).
    { repeat (destruct Hp as [<-|Hp]; [destruct t as [|[|t]]; [fin60 Ht|fin60 Ht|destruct t; vm_compute in Ht; discriminate Ht]|]). destruct Hp. }
    destruct K as [K K']. destruct (aprog h) as [|o k| | |]; try exact Logic.I.
    destruct o as [[] U val d|i|i|i|i f|i val|i|i|i d|i|i|i|i|i|i|i|i val|i|i val]; try exact Logic.I; try destruct K; cbn [contract].
    + destruct H0 as [-> ->]. subst U. split; [exact L2|]. split; [exact V2|apply M; discriminate].
    + destruct H0 as [-> ->]. subst U. split; [exact L1|]. split; [exact V1|apply M; discriminate].
    + subst i val. rewrite H0. exact V2.
Qed.

(** Both threads at once: thread 1 reads the shared box while thread 0 makes the second one. *)
Definition demo_order : list nat := [0; 1; 0; 0; 0; 0; 0; 1; 1; 0; 0; 1; 0; 0; 1; 1; 0; 1; 0; 1; 0; 1; 1; 0; 1; 1; 1; 1; 1; 1; 1; 1; 1; 1; 1]%nat.

Example C60_threads_example : exists trace y,
  moves (bump_env dbg60) demo_order (boot demo_threads st0) = (trace, inl y) /\
  map seen (threads y) = [[SawNothing; SawNothing; SawValue v_u32]; [SawValue v_u32; SawNothing; SawNothing; SawNothing]] /\
  Forall2 same_place (threads y) (athreads (demo_at 6 6)).
Proof.
  destruct (C60_threads (bump_env dbg60) demo_threads demo_order st0 (bump_env_ok _ (proj1 example_targets_ok)) demo_well_behaved)
    as (trace & y & a & H1 & H2 & H3).
  exists trace, y. split; [exact H1|].
  assert (T : fst (moves (bump_env dbg60) demo_order (boot demo_threads st0)) = trace) by (rewrite H1; reflexivity).
  vm_compute in T. subst trace. assert (A : a = demo_at 6 6) by (vm_compute in H2; injection H2 as <-; vm_compute; reflexivity).
  subst a. split; [|exact H3].
  assert (S : map aseen (athreads (demo_at 6 6)) = map seen (threads y)).
  { clear - H3. induction H3 as [|h ah l l' (_ & K & _) _ IH]; cbn; [reflexivity|]. rewrite K, IH. reflexivity. }
  rewrite <- S. vm_compute. reflexivity.
Qed.

(** In the middle: both threads are about to read the shared box. That is no race. *)
Example C60_no_race_example : exists trace y,
  moves (bump_env dbg60) [0; 0; 0; 0; 0; 0; 0; 0; 0; 0; 0; 0; 1; 1]%nat (boot demo_threads st0) = (trace, inl y) /\
  ~ data_race y /\ map about_to (threads y) = [Some (TRead 4096 4); Some (TRead 4096 4)].
Proof.
  set (r := moves (bump_env dbg60) [0; 0; 0; 0; 0; 0; 0; 0; 0; 0; 0; 0; 1; 1]%nat (boot demo_threads st0)).
  assert (A : match snd r with inl y => map about_to (threads y) = [Some (TRead 4096 4); Some (TRead 4096 4)] | inr _ => False end)
    by (vm_compute; reflexivity).
  destruct r as [trace [y|u]] eqn:R; [|destruct A]. exists trace, y. split; [reflexivity|]. split; [|exact A].
  exact (C60_no_race (bump_env dbg60) demo_threads _ st0 trace y (bump_env_ok _ (proj1 example_targets_ok)) demo_well_behaved R).
Qed.

(** At the end of the run above: both strings destroyed, one block (of the shared box) left. *)
Example C60_memory_example : exists trace y,
  moves (bump_env dbg60) demo_order (boot demo_threads st0) = (trace, inl y) /\
  Permutation (destroyed (events (memory y))) [("String"%string, a_string); ("String"%string, a_string)] /\
  List.length (blocks (memory y)) = 1%nat.
Proof.
  set (r := moves (bump_env dbg60) demo_order (boot demo_threads st0)).
  assert (A : match snd r with inl y => forallb (fun h => match doing h with Idle _ => true | _ => false end) (threads y) = true | inr _ => False end)
    by (vm_compute; reflexivity).
  assert (T : exists a, amoves (fst r) (aboot demo_threads) = Some a /\
    dead_destructors (dead (plain a)) = [("String"%string, a_string); ("String"%string, a_string)] /\ freed (plain a) = 1%nat /\ made (plain a) = 2%nat).
  { eexists. split; [vm_compute; reflexivity|]. split; [vm_compute; reflexivity|]. split; reflexivity. }
  destruct T as (a & T & A1 & A2 & A3).
  destruct r as [trace [y|u]] eqn:R; [|destruct A]. exists trace, y. split; [reflexivity|].
  destruct (C60_memory (bump_env dbg60) demo_threads _ st0 trace y a (bump_env_ok _ (proj1 example_targets_ok)) demo_well_behaved R T) as [_ H].
  destruct H as [H1 H2].
  { intros h Hh. cbn [snd] in A. rewrite forallb_forall in A. specialize (A h Hh). destruct (doing h); try discriminate A. eexists. reflexivity. }
  rewrite A1 in H1. rewrite A2, A3 in H2. split; [exact H1|]. cbn [st0 blocks List.length] in H2. lia.
Qed.

(** Thread 0 inside its first call finishes it although thread 1 moves in between. *)
Example C60_wait_free_example : exists trace y,
  moves (bump_env dbg60) [0; 0]%nat (boot demo_threads st0) = (trace, inl y) /\
  In 0%nat (map fst (fst (moves (bump_env dbg60) [0; 1; 0; 1; 0; 1; 1; 0; 0]%nat y))).
Proof.
  set (r := moves (bump_env dbg60) [0; 0]%nat (boot demo_threads st0)).
  assert (A : match snd r with inl y => match nth_error (threads y) 0 with
      Some h => match doing h with Busy _ _ _ _ => true | _ => false end | None => false end = true | inr _ => False end)
    by (vm_compute; reflexivity).
  destruct r as [trace [y|u]] eqn:R; [|destruct A]. exists trace, y. split; [reflexivity|].
  cbn [snd] in A. destruct (nth_error (threads y) 0) as [h|] eqn:Hh; [|discriminate].
  apply (C60_wait_free (bump_env dbg60) demo_threads _ _ st0 trace y 0 h (bump_env_ok _ (proj1 example_targets_ok)) demo_well_behaved R Hh).
  - right. destruct (doing h); try discriminate A. do 4 eexists. reflexivity.
  - cbn. lia.
Qed.

(** Overwriting the contents of a box: three accesses. *)
Example C60_calls_example : exists w,
  let s := stored U_str 4096 v_str st0 in
  result (tb_new (bump_env dbg60) U_str v_str 9 st0) = Some w /\
  (exists j, c_call (bump_env dbg60) (Assign 0 v_str) (Some (CBox U_str w)) = Some j /\ short 3 j /\ ~ short 2 j) /\
  (exists m, step (bump_env dbg60) (Assign 0 v_str) [CBox U_str w] = Some m /\ result (m s) = Some (SawNothing, [CBox U_str w])).
Proof.
  eexists. cbv zeta. split; [vm_compute; reflexivity|]. split.
  - eexists. split; [reflexivity|]. split; [cbn; auto|]. cbn. intros H. exact (H v_str tt).
  - eexists. split; [reflexivity|]. vm_compute. reflexivity.
Qed.

(** ** Copies *)

(** [TaggedBox<T>] is [Copy] when [T] is ([/repo/src/tagged_box.rs:533]), whatever is inside. Two threads with a copy each,
    each using only its own as the documentation asks: both are about to write to the same memory. *)
Definition copies (U : hty) (v1 v2 : hval) (w : tagged_ptr) (s : st) : sys :=
  Sys [Thread (Idle (TCall (Assign 0 v1) (fun _ _ => TStop))) [] []; Thread (Idle (TCall (Assign 1 v2) (fun _ _ => TStop))) [] []]
      [CBox U w; CBox U (tb_copy w)] [By 0; By 1] s.

Theorem C60_copies_race : forall (E : env) (U : hty) (val v1 v2 : hval) (d : N) (s : st) (p : N),
  env_ok E -> layout_legal U -> hval_ok U val -> d <= max_discriminant (cfg (tgt E)) -> h_size U <> 0 ->
  alloc_fn E s (h_size U) (h_align U) = Some p ->
  exists w s' y, tb_new E U val d s = Ok w s' /\
    moves E [0; 0; 0; 1; 1; 1]%nat (copies U v1 v2 w s') = ([], inl y) /\ data_race y.
Proof.
  intros E U val v1 v2 d s p HE L V D Z Al. destruct HE as [Ht Ha Hf _].
  destruct (tb_new_spec E Ht Ha U val d s Hf L V D) as [(Z' & _)|[(_ & N0 & _)|(_ & q & w & Q & H1 & _ & A & _)]];
    [contradiction|congruence|].
  rewrite Al in Q. injection Q as <-.
  assert (R : read_at U (tp_mut_ref_addr (tgt E) w) (stored U p val s) = Ok val (stored U p val s)).
  { change (tp_mut_ref_addr (tgt E) w) with (tp_as_ptr (tgt E) w). rewrite A. apply (stored_read E Ha); assumption. }
  assert (R' : forall e, read_at U (tp_mut_ref_addr (tgt E) w) (St (bytes (stored U p val s)) (blocks (stored U p val s)) e)
                  = Ok val (St (bytes (stored U p val s)) (blocks (stored U p val s)) e)).
  { intros e. apply read_at_inv in R as (_ & Ca & Rf). rewrite read_at_eq by exact Ca. cbn [bytes]. rewrite Rf. reflexivity. }
  exists w, (stored U p val s). eexists. split; [exact H1|]. split.
  - unfold copies, tb_copy. cbn [moves]. unfold move.
    repeat (cbn [threads nth_error doing owners vars memory allowed target_of Nat.eqb by_shared_ref c_call c_assign with_thread put mail seen
      out_of_memory orb fst snd]; unfold c_assign; cbn [run_act]; try rewrite R; try rewrite R'; cbn [drop_hval]).
    reflexivity.
  - exists 0%nat, 1%nat. do 4 eexists. split; [discriminate|]. split; [reflexivity|]. split; [reflexivity|].
    unfold about_to. cbn [doing touches]. destruct (N.eqb_spec (h_size U) 0) as [|_]; [contradiction|].
    split; [reflexivity|]. split; [reflexivity|]. cbn [conflict]. lia.
Qed.

Example C60_copies_race_example : exists w s y, tb_new (bump_env dbg60) U_u32 v_u32 3 st0 = Ok w s /\
  moves (bump_env dbg60) [0; 0; 0; 1; 1; 1]%nat (copies U_u32 [le_bytes 4 1] [le_bytes 4 2] w s) = ([], inl y) /\ data_race y.
Proof.
  destruct example_values_ok as (L1 & V1 & _).
  apply (C60_copies_race (bump_env dbg60) U_u32 v_u32 [le_bytes 4 1] [le_bytes 4 2] 3 st0 4096 (bump_env_ok _ (proj1 example_targets_ok)) L1 V1);
    [vm_compute; discriminate|discriminate|vm_compute; reflexivity].
Qed.

Print Assumptions C60_calls.
Print Assumptions C60_threads.
Print Assumptions C60_no_race.
Print Assumptions C60_memory.
Print Assumptions C60_wait_free.
Print Assumptions C60_copies_race.
