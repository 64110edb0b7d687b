(** The invariant of threads using containers (for property C64). *)
From Coq Require Import Arith ZArith NArith String Bool List Lia.
From Verif Require Props_Containers.
From Verif Require Import Words Config Spec ConfigFacts Pointer PointerFacts Fmt Mem SpecMem MemFacts Box BoxFacts
  Arms Macro SpecMacro MacroFacts Props_Pointer Props_Box Props_Macro Props_Layout Props_Clone Session SpecSession SessionFacts
  Threads SpecThreads ThreadsFacts Containers SpecContainers KThreads SpecKThreads KThreadsFacts KThreadsWp.
Import ListNotations.
Local Open Scope N_scope.
Local Open Scope list_scope.

(** ** Counting *)

Definition ktotal (g : keff -> Z) (l : list keff) : Z := fold_right (fun e n => (g e + n)%Z) 0%Z l.

Lemma ktotal_put g l : forall t e e', nth_error l t = Some e -> ktotal g (put t e' l) = (ktotal g l - g e + g e')%Z.
Proof.
  unfold ktotal. induction l as [|z l IH]; intros [|t] e e' H; cbn in *; try discriminate.
  - injection H as ->. lia.
  - rewrite (IH t e e' H). lia.
Qed.

Lemma grown_app f l m : grown f (l ++ m) = (grown f l + grown f m)%Z.
Proof. unfold grown. induction l as [|p l IH]; cbn [app fold_right]; [lia|]. rewrite IH. lia. Qed.

Lemma grown_one f p : grown f [p] = (Z.of_nat (f (snd p)) - Z.of_nat (f (fst p)))%Z.
Proof. cbn. lia. Qed.

Definition weigh (f : st -> nat) (g : keff -> nat) (e : keff) : Z := (Z.of_nat (g e) + grown f [k_usr e])%Z.

Definition zeroed (e : keff) : Prop := k_died e = [] /\ k_got e = 0%nat /\ fst (k_usr e) = snd (k_usr e).

Definition n_blocks (s : st) : nat := List.length (blocks s).
Definition n_times (d : string * leafval) (s : st) : nat := times d (destroyed (events s)).

Lemma times_app d l m : times d (l ++ m) = (times d l + times d m)%nat.
Proof. apply count_occ_app. Qed.

Lemma kact_counts {X} E (D : list block) (a : kact X) e B s r s' : run_kact E a s = Ok r s' -> kpermitted D a e B ->
  (Z.of_nat (n_blocks s') - Z.of_nat (n_blocks s) = weigh n_blocks k_got (keffect a s s' r e) - weigh n_blocks k_got e)%Z /\
  forall d, (Z.of_nat (n_times d s') - Z.of_nat (n_times d s) =
             weigh (n_times d) (fun e => times d (k_died e)) (keffect a s s' r e) - weigh (n_times d) (fun e => times d (k_died e)) e)%Z.
Proof.
  intros R Pm. destruct a as [X a|X m|evs]; cbn [run_kact kpermitted] in *.
  - destruct (act_effects E a r (Eff (k_out e) (k_died e) (k_got e) 0) _ _ R) as (d & D1 & D2 & D3).
    assert (G : e_gave (effect a r (Eff (k_out e) (k_died e) (k_got e) 0)) = 0%nat).
    { destruct a; cbn [effect]; try reflexivity; [destruct r; reflexivity|destruct Pm as [_ []]]. }
    unfold weigh. cbn [keffect k_got k_died k_usr]. split.
    + unfold n_blocks in *. rewrite G in D3. cbn [e_got e_gave] in D3. lia.
    + intros d'. unfold n_times. rewrite D1, D2. cbn [e_died]. rewrite !times_app. lia.
  - unfold weigh. cbn [keffect k_got k_died k_usr].
    split; [|intros d]; rewrite !grown_one; cbn [fst snd]; rewrite Pm; lia.
  - injection R as <- <-. unfold weigh. cbn [keffect k_got k_died k_usr]. split; [unfold n_blocks; cbn; lia|].
    intros d. unfold n_times. cbn [events]. rewrite destroyed_app, !times_app. lia.
Qed.

Section Inv.
Variables (E : env) (def : edef) (x : expansion) (I : impls) (F : st -> meaning) (s0 : st).
Hypothesis Hs : macro_setup E def x.
Hypothesis HI : implements keeps def I F.
Let HE : env_ok E := ms_env _ _ _ Hs.

Definition kthread_ok (D : list block) (a : kastate) (B : option block) (e : keff) (s : st) (j : kjob) : Prop :=
  match j with
  | KBusy o out usr m k => k_out e = out /\ k_usr e = usr /\
      exists Dt a0, incl Dt D /\ agree o a a0 /\ kwp E Dt m e B s (q_after E def F Dt o a0) (p_after E def F Dt o a0)
  | KIdle _ => B = None /\ zeroed e
  | KRejected => False
  end.

Record kclaims_ok (s : st) (D : list block) (C : nat -> option block) : Prop := {
  kc_apart : forall t u, t <> u -> apart_o (C t) (C u);
  kc_sized : forall t, sized (C t);
  kc_live : forall t, live (C t) s;
  kc_frozen : forall b, In b D -> In b (blocks s);
  kc_clear : forall t b, In b D -> apart_o (C t) (Some b);
  kc_start : incl (blocks s0) D
}.

Record KInv (y : ksys) (a : kasys) (D : list block) (C : nat -> option block) (efs : list keff) (G : list (st * st)) : Prop := {
  kv_vars : Forall2 (kvrel E def D None (kmemory y)) (kvars y) (kcells (kplain a));
  kv_own : kowners y = kaowners a;
  kv_ownlen : List.length (kowners y) = List.length (kvars y);
  kv_efs : List.length efs = List.length (kthreads y);
  kv_place : Forall2 ksame_place (kthreads y) (kathreads a);
  kv_thr : forall t h e, nth_error (kthreads y) t = Some h -> nth_error efs t = Some e ->
    kthread_ok D (kplain a) (C t) e (kmemory y) (kdoing h);
  kv_claims : kclaims_ok (kmemory y) D C;
  kv_base : keeps s0 (kmemory y);
  kv_blocks : Z.of_nat (n_blocks (kmemory y)) = (Z.of_nat (n_blocks s0) + Z.of_nat (kmade (kplain a)) +
    ktotal (weigh n_blocks k_got) efs + grown n_blocks G)%Z;
  kv_dead : nz def -> forall d, Z.of_nat (n_times d (kmemory y)) = (Z.of_nat (n_times d s0) +
    Z.of_nat (times d (kdead_destructors def (kdead (kplain a)))) +
    ktotal (weigh (n_times d) (fun e => times d (k_died e))) efs + grown (n_times d) G)%Z;
  kv_wb : kwell_behaved def F E a
}.

(** ** The specification *)

Lemma kwb_step a e : kwell_behaved def F E a -> exists a', kamove def F e a = Some a' /\ kwell_behaved def F E a'.
Proof.
  intros H. destruct (H [e]) as (a' & H1 & _). cbn [kamoves] in H1. destruct (kamove def F e a) as [a1|] eqn:A; [|discriminate H1].
  exists a1. split; [reflexivity|]. intros l. destruct (H (e :: l)) as (a2 & K1 & K2). cbn [kamoves] in K1. rewrite A in K1.
  exists a2. split; assumption.
Qed.

Lemma kwb_contract a t h o k : kwell_behaved def F E a -> nth_error (kathreads a) t = Some h -> kaprog h = KTCall o k ->
  kallowed (kaowners a) t o = true /\ considered o = true /\ (forall s, kcontract E def (F s) (kplain a) o) /\
  forall s fail, kastep def (F s) fail o (kplain a) <> None.
Proof.
  intros H Ht Hp.
  assert (K : forall s fail, kallowed (kaowners a) t o = true /\ considered o = true /\ kastep def (F s) fail o (kplain a) <> None).
  { intros s fail. destruct (kwb_step a (t, fail, (s, s)) H) as (a' & H1 & _). cbn [kamove fst] in H1. rewrite Ht, Hp in H1.
    destruct (kallowed (kaowners a) t o); [|discriminate H1]. destruct (considered o); [|discriminate H1]. cbn [andb] in H1.
    split; [reflexivity|]. split; [reflexivity|]. intros N. rewrite N in H1. discriminate H1. }
  split; [apply (K s0 false)|]. split; [apply (K s0 false)|]. split.
  - destruct (H []) as (a' & H1 & H2). cbn in H1. injection H1 as <-. specialize (H2 t h Ht). rewrite Hp in H2. exact H2.
  - intros s fail. apply K.
Qed.

(** ** Variables *)

Lemma within_mono D D' B B' b : incl D D' -> (forall c, B = Some c -> In c D' \/ B' = Some c) -> within D B b -> within D' B' b.
Proof. intros H1 H2. destruct b as [b|]; cbn; [|auto]. intros [H|H]; [left; apply H1, H|apply H2, H]. Qed.

Lemma kvrel_mono D D' B B' s c y : incl D D' -> (forall b, B = Some b -> In b D' \/ B' = Some b) -> kvrel E def D B s c y -> kvrel E def D' B' s c y.
Proof.
  intros H1 H2. destruct c, y; cbn [kvrel]; try tauto. intros (K1 & K2 & K3). split; [exact K1|]. split; [exact K2|].
  eapply within_mono; eassumption.
Qed.

Lemma kvars_rely D s s' l m : Forall2 (kvrel E def D None s) l m -> rely D None s s' -> Forall2 (kvrel E def D None s') l m.
Proof.
  intros H R. induction H as [|c y l m Hc _ IH]; constructor; [|exact IH]. eapply (kvrel_rely _ _ _ Hs); eassumption.
Qed.

Lemma kvars_mono D D' s l m : incl D D' -> Forall2 (kvrel E def D None s) l m -> Forall2 (kvrel E def D' None s) l m.
Proof.
  intros Hi H. induction H as [|c y l m Hc _ IH]; constructor; [|exact IH]. eapply kvrel_mono; [exact Hi| |exact Hc]. intros b Nb; discriminate Nb.
Qed.

Lemma rely_incl D D' B s s' : incl D D' -> rely D' B s s' -> rely D B s s'.
Proof. intros H [R1 R2]. split; [|exact R2]. intros b Hb. apply R1, H, Hb. Qed.

Lemma kthread_frame D a C e s j D' a' s' : kthread_ok D a C e s j -> incl D D' ->
  (forall o out usr m k, j = KBusy o out usr m k -> agree o a' a) ->
  rely D C s s' -> kthread_ok D' a' C e s' j.
Proof.
  intros H Hi Ha R. destruct j as [p|o out usr m k|]; cbn [kthread_ok] in *; try exact H.
  destruct H as (H1 & H2 & Dt & a0 & H3 & H4 & H5). split; [exact H1|]. split; [exact H2|]. exists Dt, a0.
  split; [intros b Hb; apply Hi, H3, Hb|]. split.
  - intros i Hi'. rewrite (Ha o out usr m k eq_refl i Hi'). apply H4, Hi'.
  - eapply kwp_rely; [apply (q_closed _ _ _ _ Hs)|apply (p_closed _ _ _ _ Hs)|exact H5|]. eapply rely_incl; eassumption.
Qed.

(** ** Steps between calls *)

Lemma inv_idle y a D C efs G y' a' efs' G' : KInv y a D C efs G ->
  kvars y' = kvars y -> kmemory y' = kmemory y -> kplain a' = kplain a -> kowners y' = kaowners a' ->
  List.length (kowners y') = List.length (kowners y) -> List.length efs' = List.length (kthreads y') ->
  Forall2 ksame_place (kthreads y') (kathreads a') ->
  (forall t h e, nth_error (kthreads y') t = Some h -> nth_error efs' t = Some e ->
     kthread_ok D (kplain a) (C t) e (kmemory y) (kdoing h)) ->
  (forall f g, (forall e, zeroed e -> g e = 0%nat) ->
     (ktotal (weigh f g) efs' + grown f G' = ktotal (weigh f g) efs + grown f G)%Z) ->
  kwell_behaved def F E a' -> KInv y' a' D C efs' G'.
Proof.
  intros [I1 I2 I3 I4 I5 I6 I7 I8 I9 I10 I11] H1 H2 H3 H4 H5 H6 H7 H8 H9 H10.
  constructor; rewrite ?H1, ?H2, ?H3; try assumption.
  - congruence.
  - specialize (H9 n_blocks k_got (fun e Ze => proj1 (proj2 Ze))). lia.
  - intros N d. specialize (I10 N d). specialize (H9 (n_times d) (fun e => times d (k_died e))).
    rewrite <- Z.add_assoc, H9, Z.add_assoc; [exact I10|]. intros e (Z1 & _). rewrite Z1. reflexivity.
Qed.

Lemma weigh_zero f g e : (forall e, zeroed e -> g e = 0%nat) -> zeroed e -> weigh f g e = 0%Z.
Proof. intros Hg Z. unfold weigh. rewrite (Hg e Z), grown_one. destruct Z as (_ & _ & ->). lia. Qed.

Definition kext (D : list block) (C : nat -> option block) (t : nat) : list block :=
  match C t with Some b => b :: D | None => D end.
Definition kupd (C : nat -> option block) (t : nat) (B : option block) : nat -> option block :=
  fun u => if Nat.eqb u t then B else C u.

Definition kstepped (t : nat) (y : ksys) (a : kasys) (G : list (st * st)) : Prop :=
  exists y' fin a' D' C' efs', kmove E x I t y = KMoved y' fin /\
    match fin with Some e => kamove def F e a = Some a' | None => a' = a end /\
    KInv y' a' D' C' efs' (G ++ match fin with Some e => [snd e] | None => [] end).

(** Nothing happens. *)
Lemma step_still t y a D C efs G : KInv y a D C efs G -> kmove E x I t y = KMoved y None -> kstepped t y a G.
Proof. intros H M. exists y, None, a, D, C, efs. rewrite app_nil_r. auto. Qed.

(** A call starts. *)
Lemma step_start t y a D C efs G h o k : KInv y a D C efs G -> nth_error (kthreads y) t = Some h -> kdoing h = KIdle (KTCall o k) ->
  kstepped t y a G.
Proof.
  intros Hinv Ht Hdo. pose proof Hinv as [I1 I2 I3 I4 I5 I6 I7 I8 I9 I10 I11].
  destruct (Forall2_nth _ _ _ I5 t h Ht) as (ah & At & (P1 & P2 & P3)). rewrite Hdo in P3.
  destruct (kwb_contract a t ah o k I11 At P3) as (W1 & W2 & W3 & W4).
  destruct (call_kwp E def x I F Hs HI D o (kplain a) (kvars y) (kmemory y) W2 W3 (fun s => W4 s false)) as (m & M1 & M2).
  { intros i z _ Hz. destruct (Props_Containers.Forall2_nth _ _ _ _ _ I1 Hz) as (c & Hc & Rc). eauto. }
  unfold kstepped. unfold kmove. rewrite Ht, Hdo, I2, W1, M1. do 2 eexists. exists a, D, C, (put t (call_start (kmemory y)) efs).
  split; [reflexivity|]. split; [reflexivity|]. rewrite app_nil_r.
  assert (He : exists e, nth_error efs t = Some e).
  { destruct (nth_error efs t) as [e|] eqn:N; [eauto|]. apply nth_error_None in N. apply nth_some_lt in Ht. lia. }
  destruct He as [e He]. pose proof (I6 t h e Ht He) as Ok. rewrite Hdo in Ok. cbn [kthread_ok] in Ok. destruct Ok as [Cn Ze].
  eapply inv_idle; [exact Hinv|reflexivity|reflexivity|reflexivity|exact I2|reflexivity| | | | |exact I11]; cbn [kwith kthreads].
  - rewrite !put_length. exact I4.
  - rewrite <- (put_id _ _ _ At). apply Forall2_put; [exact I5|]. split; [exact P1|]. split; [exact P2|exact P3].
  - intros u h' e' Hu Hue. rewrite (nth_put _ _ _ _ _ Ht) in Hu. rewrite (nth_put _ _ _ _ _ He) in Hue.
    destruct (Nat.eqb_spec u t) as [->|N]; [|eapply I6; eassumption]. injection Hu as <-. injection Hue as <-. cbn [kdoing kthread_ok].
    split; [reflexivity|]. split; [reflexivity|]. exists D, (kplain a). split; [apply incl_refl|]. split; [intros i _; reflexivity|].
    rewrite Cn. exact M2.
  - intros f g Hg. rewrite (ktotal_put _ _ _ _ _ He), !weigh_zero; try assumption; [lia|]. repeat split.
Qed.

Lemma grown_same f s : grown f [(s, s)] = 0%Z.
Proof. rewrite grown_one. cbn. lia. Qed.

(** Handing over, sharing, taking. *)
Lemma step_other t y a D C efs G h p : KInv y a D C efs G -> nth_error (kthreads y) t = Some h -> kdoing h = KIdle p ->
  match p with KTCall _ _ => False | _ => True end -> kstepped t y a G.
Proof.
  intros Hinv Ht Hdo Hp. pose proof Hinv as [I1 I2 I3 I4 I5 I6 I7 I8 I9 I10 I11].
  destruct (Forall2_nth _ _ _ I5 t h Ht) as (ah & At & (P1 & P2 & P3)). rewrite Hdo in P3.
  destruct (kwb_step a (t, false, (kmemory y, kmemory y)) I11) as (a' & A1 & A2). pose proof A1 as A0.
  assert (Gr : forall f g efs', efs' = efs -> (ktotal (weigh f g) efs' + grown f (G ++ [(kmemory y, kmemory y)]) = ktotal (weigh f g) efs + grown f G)%Z).
  { intros f g efs' ->. rewrite grown_app, grown_same. lia. }
  assert (Ok : forall u h' e' p', nth_error (kthreads y) u = Some h' -> kdoing h' = KIdle p' -> nth_error efs u = Some e' ->
             forall p'', kthread_ok D (kplain a) (C u) e' (kmemory y) (KIdle p'')).
  { intros u h' e' p' Hu Hq He' p''. pose proof (I6 u h' e' Hu He') as K. rewrite Hq in K. exact K. }
  destruct p as [|o k|i t' k|i k|k]; [| destruct Hp| | |].
  - eapply step_still; [exact Hinv|]. unfold kmove. rewrite Ht, Hdo. reflexivity.
  - (* KTGive *)
    unfold kstepped, kmove. rewrite Ht, Hdo. cbn [kamove] in A1. rewrite At, P3 in A1. rewrite I2.
    set (l := put t (KThread (KIdle k) (kmail h) (kseen h)) (kthreads y)).
    set (la := put t (KAThread k (kamail ah) (kaseen ah)) (kathreads a)) in *.
    assert (Fl : Forall2 ksame_place l la) by (apply Forall2_put; [exact I5|]; split; [exact P1|]; split; [exact P2|reflexivity]).
    destruct (nth_error la t') as [ah'|] eqn:Ha'; [|discriminate A1].
    destruct (Props_Containers.Forall2_nth _ _ _ _ _ Fl Ha') as (h' & Hh' & (Q1 & Q2 & Q3)). rewrite Hh'.
    assert (Hl : forall u z, nth_error l u = Some z -> forall e', nth_error efs u = Some e' -> kthread_ok D (kplain a) (C u) e' (kmemory y) (kdoing z)).
    { intros u z Hu e' He'. unfold l in Hu. rewrite (nth_put _ _ _ _ _ Ht) in Hu. destruct (Nat.eqb_spec u t) as [->|N].
      - injection Hu as <-. cbn [kdoing]. eapply Ok; eassumption.
      - eapply I6; eassumption. }
    assert (Fl' : Forall2 ksame_place (put t' (KThread (kdoing h') (kmail h' ++ [i]) (kseen h')) l)
                    (put t' (KAThread (kaprog ah') (kamail ah' ++ [i]) (kaseen ah')) la)).
    { apply Forall2_put; [exact Fl|]. split; [cbn; congruence|]. split; [exact Q2|exact Q3]. }
    assert (Hl' : forall u z e', nth_error (put t' (KThread (kdoing h') (kmail h' ++ [i]) (kseen h')) l) u = Some z -> nth_error efs u = Some e' ->
                  kthread_ok D (kplain a) (C u) e' (kmemory y) (kdoing z)).
    { intros u z e' Hu He'. rewrite (nth_put _ _ _ _ _ Hh') in Hu. destruct (Nat.eqb_spec u t') as [->|N].
      - injection Hu as <-. cbn [kdoing]. eapply Hl; eassumption.
      - eapply Hl; eassumption. }
    assert (Fin : forall w, nth_error (kaowners a) i = Some w -> List.length (match w with By _ => put i (By t') (kaowners a) | Everyone => kaowners a end) = List.length (kaowners a)).
    { intros [z|] _; [apply put_length|reflexivity]. }
    destruct (nth_error (kaowners a) i) as [w|] eqn:Ow; [|discriminate A1]. specialize (Fin w eq_refl).
    assert (Hw : (match w with By z => Nat.eqb t z | Everyone => true end) = true /\
      a' = KASys (put t' (KAThread (kaprog ah') (kamail ah' ++ [i]) (kaseen ah')) la)
             (match w with By _ => put i (By t') (kaowners a) | Everyone => kaowners a end) (kplain a)).
    { destruct w as [z|]; [destruct (Nat.eqb t z); [|discriminate A1]|]; injection A1 as <-; split; reflexivity. }
    destruct Hw as [-> ->]. do 2 eexists. eexists. exists D, C, efs. split; [reflexivity|]. split; [exact A0|].
    eapply inv_idle; [exact Hinv|reflexivity|reflexivity|reflexivity|reflexivity|cbn [kowners]; rewrite I2; exact Fin| |exact Fl'|exact Hl'| |exact A2];
      cbn [kthreads snd].
    + unfold l. rewrite !put_length. exact I4.
    + intros f g _. apply Gr. reflexivity.
  - (* KTShare *)
    unfold kstepped, kmove. rewrite Ht, Hdo. cbn [kamove] in A1. rewrite At, P3 in A1. rewrite I2.
    destruct (nth_error (kaowners a) i) as [[z|]|] eqn:Ow; try discriminate A1.
    destruct (nth_error (kcells (kplain a)) i) as [cy|] eqn:Oc; [|discriminate A1].
    destruct (Props_Containers.Forall2_nth _ _ _ _ _ I1 Oc) as (c & Hc & Rc). rewrite Hc.
    destruct cy as [n l v| |]; try discriminate A1. destruct c as [w| |]; try (destruct Rc; fail).
    destruct (Nat.eqb t z) eqn:Tz; [|discriminate A1]. injection A1 as <-.
    do 2 eexists. eexists. exists D, C, efs. split; [reflexivity|]. split; [exact A0|].
    eapply inv_idle; [exact Hinv|reflexivity|reflexivity|reflexivity|reflexivity|cbn [kowners]; rewrite I2; apply put_length| | | | |exact A2];
      cbn [kthreads kathreads snd].
    + rewrite !put_length. exact I4.
    + apply Forall2_put; [exact I5|]. split; [exact P1|]. split; [exact P2|reflexivity].
    + intros u h' e' Hu He'. rewrite (nth_put _ _ _ _ _ Ht) in Hu. destruct (Nat.eqb_spec u t) as [->|N]; [|eapply I6; eassumption].
      injection Hu as <-. cbn [kdoing]. eapply Ok; eassumption.
    + intros f g _. apply Gr. reflexivity.
  - (* KTTake *)
    cbn [kamove] in A1. rewrite At, P3, <- P1 in A1. destruct (kmail h) as [|i r] eqn:Hm.
    { eapply step_still; [exact Hinv|]. unfold kmove. rewrite Ht, Hdo, Hm. reflexivity. }
    injection A1 as <-. unfold kstepped, kmove. rewrite Ht, Hdo, Hm.
    do 2 eexists. eexists. exists D, C, efs. split; [reflexivity|]. split; [exact A0|].
    eapply inv_idle; [exact Hinv|reflexivity|reflexivity|reflexivity|exact I2|reflexivity| | | | |exact A2];
      cbn [kthreads kathreads kwith snd].
    + rewrite !put_length. exact I4.
    + apply Forall2_put; [exact I5|]. split; [reflexivity|]. split; [exact P2|reflexivity].
    + intros u h' e' Hu He'. rewrite (nth_put _ _ _ _ _ Ht) in Hu. destruct (Nat.eqb_spec u t) as [->|N]; [|eapply I6; eassumption].
      injection Hu as <-. cbn [kdoing]. eapply Ok; eassumption.
    + intros f g _. apply Gr. reflexivity.
Qed.

(** ** An access *)

Lemma kclaims_guarantee s D C t B' s' : kclaims_ok s D C -> keeps s0 s -> guarantee (C t) B' s s' ->
  kclaims_ok s' D (kupd C t B') /\ keeps s0 s' /\ (forall b, In b D -> same_on (Some b) s s') /\ forall u, u <> t -> same_on (C u) s s'.
Proof.
  intros [H1 H2 H3 H4 H5 H6] K (G1 & G2 & G3 & G4).
  assert (S : forall u, u <> t -> same_on (C u) s s').
  { intros u N. destruct (C u) as [c|] eqn:Cu; [|exact Logic.I]. apply G1; [specialize (H3 u); rewrite Cu in H3; exact H3|].
    rewrite <- Cu. apply H1. auto. }
  assert (SD : forall b, In b D -> same_on (Some b) s s').
  { intros b Hb. apply G1; [apply H4, Hb|apply H5, Hb]. }
  split; [|split; [|split; [exact SD|exact S]]].
  - assert (A : forall u, u <> t -> apart_o B' (C u)).
    { intros u N. destruct G4 as [->|[->|G4]]; [exact Logic.I|apply H1; auto|].
      destruct (C u) as [c|] eqn:Cu; [|destruct B'; exact Logic.I]. apply G4. specialize (H3 u). rewrite Cu in H3. exact H3. }
    constructor.
    + intros u w N. unfold kupd. destruct (Nat.eqb_spec u t) as [->|Nu], (Nat.eqb_spec w t) as [->|Nw]; try contradiction.
      * apply A, Nw.
      * apply apart_o_sym, A, Nu.
      * apply H1, N.
    + intros u. unfold kupd. destruct (Nat.eqb_spec u t); [exact G2|apply H2].
    + intros u. unfold kupd. destruct (Nat.eqb_spec u t); [exact G3|]. eapply same_on_live, S. assumption.
    + intros b Hb. apply (SD b Hb).
    + intros u b Hb. unfold kupd. destruct (Nat.eqb_spec u t) as [->|N]; [|apply H5, Hb].
      destruct G4 as [->|[->|G4]]; [exact Logic.I|apply H5, Hb|apply G4, H4, Hb].
    + exact H6.
  - intros b Hb. destruct (K b Hb) as [K1 K2]. destruct (SD b (H6 b Hb)) as [L1 L2]. split; [exact L1|].
    intros q Q. rewrite L2 by exact Q. apply K2, Q.
Qed.

Lemma khas_effects y a D C efs G t h : KInv y a D C efs G -> nth_error (kthreads y) t = Some h ->
  exists e, nth_error efs t = Some e /\ kthread_ok D (kplain a) (C t) e (kmemory y) (kdoing h).
Proof.
  intros Hi Ht. pose proof (nth_some_lt _ _ _ Ht) as L. rewrite <- (kv_efs _ _ _ _ _ _ Hi) in L. apply nth_error_Some in L.
  destruct (nth_error efs t) as [e|] eqn:He; [|contradiction]. exists e. split; [reflexivity|]. eapply kv_thr; eassumption.
Qed.

Lemma step_access y a D C efs G t h o out usr X (b : kact X) next k : KInv y a D C efs G -> nth_error (kthreads y) t = Some h ->
  kdoing h = KBusy o out usr (KStep X b next) k -> kstepped t y a G.
Proof.
  intros Iv Ht Hd. destruct (khas_effects _ _ _ _ _ _ _ _ Iv Ht) as (e & He & Hok).
  pose proof Iv as [I1 I2 I3 I4 I5 I6 I7 I8 I9 I10 I11]. rewrite Hd in Hok. cbn [kthread_ok] in Hok.
  destruct Hok as (O1 & O2 & Dt & a0 & O3 & O4 & O5). cbn [kwp] in O5. destruct O5 as [Pm O5].
  destruct (O5 (kmemory y)) as (r & s' & B' & R & Gu & W).
  { split; [intros c Hc; apply same_on_refl, (kc_frozen _ _ _ I7), O3, Hc|apply same_on_refl, (kc_live _ _ _ I7)]. }
  destruct (kclaims_guarantee _ _ _ _ _ _ I7 I8 Gu) as (N1 & N2 & N3 & N4).
  destruct (kact_counts E Dt b e (C t) _ r s' R Pm) as (Cb & Cd).
  unfold kstepped, kmove. rewrite Ht, Hd, R. do 2 eexists. exists a, D, (kupd C t B'), (put t (keffect b (kmemory y) s' r e) efs).
  split; [reflexivity|]. split; [reflexivity|]. rewrite app_nil_r.
  constructor; cbn [kvars kowners kthreads kmemory]; try assumption.
  - eapply kvars_rely; [exact I1|]. split; [exact N3|exact Logic.I].
  - rewrite !put_length. exact I4.
  - destruct (Forall2_nth _ _ _ I5 t h Ht) as (ah & A1 & A2). rewrite <- (put_id _ _ _ A1). apply Forall2_put; [exact I5|].
    unfold ksame_place in *. rewrite Hd in A2. exact A2.
  - intros u h' e' Hu Hue. rewrite (nth_put _ _ _ _ _ Ht) in Hu. rewrite (nth_put _ _ _ _ _ He) in Hue. unfold kupd.
    destruct (Nat.eqb_spec u t) as [->|N].
    + injection Hu as <-. injection Hue as <-. cbn [kdoing kthread_ok]. rewrite keffect_out, keffect_usr, O1, O2.
      split; [reflexivity|]. split; [reflexivity|]. exists Dt, a0. auto.
    + eapply kthread_frame; [eapply I6; eassumption|apply incl_refl|intros; intros i _; reflexivity|]. split; [exact N3|apply N4, N].
  - rewrite (ktotal_put _ _ _ _ _ He). lia.
  - intros Hn d. specialize (I10 Hn d). specialize (Cd d). rewrite (ktotal_put _ _ _ _ _ He). lia.
Qed.

(** ** A call returns *)

Lemma kallowed_used owners t o i : kallowed owners t o = true -> In i (kuses o) ->
  nth_error owners i = Some (By t) \/ nth_error owners i = Some Everyone /\ forall j, kresult o <> There j.
Proof.
  unfold kallowed. intros H Hi. rewrite forallb_forall in H. specialize (H i Hi). destruct (nth_error owners i) as [[t'|]|]; [| |discriminate H].
  - apply Nat.eqb_eq in H as ->. left. reflexivity.
  - right. split; [reflexivity|]. intros j Hj. rewrite Hj in H. discriminate H.
Qed.

Lemma there_used o i : kresult o = There i -> In i (kuses o).
Proof. destruct o; cbn; intros H; try discriminate H; injection H as ->; auto. Qed.

(** What a call changes is used by no other thread. *)
Lemma agree_kput owners t u o o' (l : list kacell) y : t <> u -> kallowed owners t o = true -> kallowed owners u o' = true ->
  List.length owners = List.length l ->
  forall i, In i (kuses o') -> nth_error (kput o y l) i = nth_error l i.
Proof.
  intros N A A' L i Hi. assert (Li : (i < List.length l)%nat).
  { rewrite <- L. destruct (kallowed_used _ _ _ _ A' Hi) as [K|[K _]]; eapply nth_some_lt, K. }
  unfold kput. destruct (kresult o) as [|j|] eqn:R; [reflexivity| |apply nth_error_app1, Li].
  destruct (Nat.eq_dec i j) as [->|Nj]; [|apply put_other; auto]. exfalso.
  destruct (kallowed_used _ _ _ _ A (there_used _ _ R)) as [K|[_ K]]; [|eapply K, R].
  destruct (kallowed_used _ _ _ _ A' Hi) as [K'|[K' _]]; rewrite K in K'; [injection K' as <-; contradiction|discriminate K'].
Qed.

Lemma kdead_app l m : kdead_destructors def (l ++ m) = kdead_destructors def l ++ kdead_destructors def m.
Proof. unfold kdead_destructors. apply flat_map_app. Qed.

Lemma kclaims_return s D C t : kclaims_ok s D C -> kclaims_ok s (kext D C t) (kupd C t None).
Proof.
  intros [H1 H2 H3 H4 H5 H6].
  assert (HD : forall b, In b (kext D C t) -> In b D \/ C t = Some b).
  { intros b. unfold kext. destruct (C t) as [c|]; cbn [In]; [intros [->|Hb]; auto|auto]. }
  constructor.
  - intros u w N. unfold kupd. destruct (Nat.eqb_spec u t), (Nat.eqb_spec w t); try exact Logic.I; [destruct (C u); exact Logic.I|apply H1, N].
  - intros u. unfold kupd. destruct (Nat.eqb u t); [exact Logic.I|apply H2].
  - intros u. unfold kupd. destruct (Nat.eqb u t); [exact Logic.I|apply H3].
  - intros b Hb. destruct (HD b Hb) as [Hb'|Hb']; [apply H4, Hb'|]. specialize (H3 t). rewrite Hb' in H3. exact H3.
  - intros u b Hb. unfold kupd. destruct (Nat.eqb_spec u t) as [->|N]; [exact Logic.I|].
    destruct (HD b Hb) as [Hb'|Hb']; [apply H5, Hb'|]. rewrite <- Hb'. apply H1, N.
  - intros b Hb. unfold kext. destruct (C t); [right|]; apply H6, Hb.
Qed.

Lemma step_return y a D C efs G t h o out usr m k r z : KInv y a D C efs G -> nth_error (kthreads y) t = Some h ->
  kdoing h = KBusy o out usr m k ->
  kmove E x I t y = KMoved (kreturns t h o k r z y) (Some (t, out, usr)) ->
  (forall e Dt a0, k_out e = out -> k_usr e = usr ->
     kwp E Dt m e (C t) (kmemory y) (q_after E def F Dt o a0) (p_after E def F Dt o a0) ->
     kafter E def F Dt o a0 e r z (C t) (kmemory y)) ->
  kstepped t y a G.
Proof.
  intros Iv Ht Hd Mv Aft. destruct (khas_effects _ _ _ _ _ _ _ _ Iv Ht) as (e & He & Hok).
  pose proof Iv as [I1 I2 I3 I4 I5 I6 I7 I8 I9 I10 I11]. rewrite Hd in Hok. cbn [kthread_ok] in Hok.
  destruct Hok as (O1 & O2 & Dt & a0 & O3 & O4 & O5).
  specialize (Aft e Dt a0 O1 O2 O5). destruct (Aft (kplain a) O4) as (a' & cy & S1 & S2 & S3 & S4 & S5). clear Aft O5.
  destruct (Forall2_nth _ _ _ I5 t h Ht) as (ah & At & (P1 & P2 & P3)). rewrite Hd in P3.
  destruct (kwb_contract a t ah o k I11 At P3) as (W1 & W2 & _ & _).
  pose proof (Forall2_len _ _ _ I1) as Lv.
  destruct (kwb_step a (t, out, usr) I11) as (b & A1 & A2). pose proof A1 as A0.
  cbn [kamove] in A1. rewrite At, P3, W1, W2 in A1. cbn [andb] in A1. rewrite <- O1, <- O2, S1 in A1.
  assert (Hdt : incl Dt (kext D C t)).
  { intros c Hc. unfold kext. destruct (C t); [right|]; apply O3, Hc. }
  assert (Hdd : incl D (kext D C t)).
  { intros c Hc. unfold kext. destruct (C t); [right|]; exact Hc. }
  assert (Z : kvrel E def (kext D C t) None (kmemory y) z cy).
  { eapply kvrel_mono; [exact Hdt| |exact S3]. intros c Hc. left. unfold kext. rewrite Hc. left. reflexivity. }
  pose proof (kvars_mono _ _ _ _ _ Hdd I1) as I1'.
  exists (kreturns t h o k r z y), (Some (t, out, usr)), b, (kext D C t), (kupd C t None), (put t (call_start (kmemory y)) efs).
  split; [exact Mv|]. split; [exact A0|]. cbn [snd].
  assert (Mem : kmemory (kreturns t h o k r z y) = kmemory y) by (unfold kreturns; destruct (kresult o); reflexivity).
  assert (Pl : kplain b = a') by (destruct (kresult o); injection A1 as <-; reflexivity).
  assert (Vs : kvars (kreturns t h o k r z y) = kput o z (kvars y)) by (unfold kreturns, kput; destruct (kresult o); reflexivity).
  assert (Th : exists i, kthreads (kreturns t h o k r z y) = put t (KThread (KIdle (k i r)) (kmail h) (kseen h ++ [r])) (kthreads y) /\
               kathreads b = put t (KAThread (k i r) (kamail ah) (kaseen ah ++ [r])) (kathreads a)).
  { unfold kreturns. rewrite <- Lv in A1. destruct (kresult o); injection A1 as <-; eexists; split; reflexivity. }
  destruct Th as (i & T1 & T2).
  constructor; rewrite ?Mem, ?Pl, ?Vs, ?T1, ?T2.
  - rewrite S2. unfold kput. destruct (kresult o); [exact I1'|apply Forall2_put; assumption|apply Forall2_app; [exact I1'|repeat constructor; exact Z]].
  - unfold kreturns. destruct (kresult o); injection A1 as <-; cbn [kowners kaowners]; congruence.
  - unfold kreturns, kput. destruct (kresult o); cbn [kowners]; rewrite ?put_length, ?app_length; cbn [List.length]; lia.
  - rewrite !put_length. exact I4.
  - apply Forall2_put; [exact I5|]. split; [exact P1|]. split; [cbn; congruence|reflexivity].
  - intros u h' e' Hu Hue. rewrite (nth_put _ _ _ _ _ Ht) in Hu. rewrite (nth_put _ _ _ _ _ He) in Hue. unfold kupd.
    destruct (Nat.eqb_spec u t) as [->|N].
    + injection Hu as <-. injection Hue as <-. cbn [kdoing kthread_ok]. repeat split.
    + eapply kthread_frame; [eapply I6; eassumption|exact Hdd| |].
      * intros o' out' usr' m' k' Hb j Hj. rewrite S2. destruct (Forall2_nth _ _ _ I5 u h' Hu) as (ah' & At' & (_ & _ & P3')).
        rewrite Hb in P3'. destruct (kwb_contract a u ah' o' k' I11 At' P3') as (W1' & _).
        eapply agree_kput; [|exact W1|exact W1'| |exact Hj]; [auto|]. rewrite <- Lv, <- I3, I2. reflexivity.
      * split; [intros c Hc; apply same_on_refl, (kc_frozen _ _ _ I7), Hc|apply same_on_refl, (kc_live _ _ _ I7)].
  - apply kclaims_return, I7.
  - exact I8.
  - rewrite (ktotal_put _ _ _ _ _ He), grown_app, S4. unfold weigh at 2 3. rewrite O2. cbn [call_start k_got k_usr]. rewrite grown_same. lia.
  - intros Hn d. specialize (I10 Hn d). destruct (S5 Hn) as (l & L1 & L2). rewrite (ktotal_put _ _ _ _ _ He), grown_app, L1, kdead_app, times_app, L2.
    unfold weigh at 2 3. rewrite O2. cbn [call_start k_died k_usr]. rewrite grown_same. change (times d []) with 0%nat. lia.
  - exact A2.
Qed.

(** ** Any step *)

Lemma step_any y a D C efs G t : KInv y a D C efs G -> kstepped t y a G.
Proof.
  intros Iv. destruct (nth_error (kthreads y) t) as [h|] eqn:Ht.
  2:{ eapply step_still; [exact Iv|]. unfold kmove. rewrite Ht. reflexivity. }
  destruct (khas_effects _ _ _ _ _ _ _ _ Iv Ht) as (e & He & Hok).
  destruct (kdoing h) as [p|o out usr m k|] eqn:Hd; [| |destruct Hok].
  - destruct p as [|o k|i t' k|i k|k]; [|eapply step_start; eassumption|..]; (eapply step_other; [exact Iv|exact Ht|exact Hd|exact Logic.I]).
  - destruct m as [[r z]|q|u|X b next]; [| | |eapply step_access; eassumption].
    + eapply step_return; [exact Iv|exact Ht|exact Hd|unfold kmove; rewrite Ht, Hd; reflexivity|].
      intros e' Dt a0 _ _ W. exact W.
    + eapply (step_return _ _ _ _ _ _ _ _ _ _ _ _ _ (KSawPanic q) KGone); [exact Iv|exact Ht|exact Hd|unfold kmove; rewrite Ht, Hd; reflexivity|].
      intros e' Dt a0 _ _ W. exact W.
    + cbn [kthread_ok] in Hok. destruct Hok as (_ & _ & Dt & a0 & _ & _ & []).
Qed.

Lemma kmoves_ok order : forall y a D C efs G, KInv y a D C efs G ->
  exists l y' a' D' C' efs', kmoves E x I order y = (l, inl y') /\ kamoves def F l a = Some a' /\ KInv y' a' D' C' efs' (G ++ user_work l).
Proof.
  induction order as [|t order IH]; intros y a D C efs G Iv.
  - exists [], y, a, D, C, efs. cbn [kmoves kamoves user_work map]. rewrite app_nil_r. auto.
  - destruct (step_any _ _ _ _ _ _ t Iv) as (y1 & fin & a1 & D1 & C1 & efs1 & M & A & Iv1).
    destruct (IH _ _ _ _ _ _ Iv1) as (l & y2 & a2 & D2 & C2 & efs2 & M2 & A3 & Iv2).
    cbn [kmoves]. rewrite M, M2. destruct fin as [f|].
    + exists (f :: l), y2, a2, D2, C2, efs2. split; [reflexivity|]. cbn [kamoves]. rewrite A. split; [exact A3|].
      unfold user_work in *. cbn [map]. rewrite <- app_assoc in Iv2. exact Iv2.
    + subst a1. exists l, y2, a2, D2, C2, efs2. split; [reflexivity|]. split; [exact A3|]. rewrite app_nil_r in Iv2. exact Iv2.
Qed.

Lemma kinv_boot ps : kwell_behaved def F E (kaboot ps) ->
  KInv (kboot ps s0) (kaboot ps) (blocks s0) (fun _ => None) (map (fun _ => call_start s0) ps) [].
Proof.
  assert (T : forall f g, (forall e, zeroed e -> g e = 0%nat) -> ktotal (weigh f g) (map (fun _ => call_start s0) ps) = 0%Z).
  { intros f g Hg. induction ps as [|p l IH]; [reflexivity|]. cbn [map ktotal fold_right]. fold (ktotal (weigh f g) (map (fun _ => call_start s0) l)).
    rewrite IH, weigh_zero; [reflexivity|exact Hg|repeat split]. }
  intros W. constructor; cbn [kboot kaboot kvars kowners kthreads kmemory kplain kaowners kathreads ka0 kcells kmade kdead].
  - constructor.
  - reflexivity.
  - reflexivity.
  - rewrite !map_length. reflexivity.
  - clear. induction ps as [|p l IH]; cbn; constructor; [repeat split|exact IH].
  - intros t h e Ht He. apply nth_error_In, in_map_iff in Ht as (p & <- & _). apply nth_error_In, in_map_iff in He as (q & <- & _).
    cbn. repeat split.
  - constructor; intros; try exact Logic.I; [assumption|apply incl_refl].
  - intros b Hb. split; [exact Hb|reflexivity].
  - rewrite T; [cbn; lia|]. intros e Ze. apply Ze.
  - intros _ d. rewrite T; [cbn; lia|]. intros e (Z1 & _). rewrite Z1. reflexivity.
  - exact W.
Qed.

(** ** No data race *)

Lemma kabout_inside D a (C : nat -> option block) e s t h b : kthread_ok D a (C t) e s (kdoing h) -> kabout_to h = Some b ->
  match b with
  | TRead p n => (exists c, In c D /\ inside p n (Some c)) \/ inside p n (C t)
  | TWrite p n => inside p n (C t)
  end.
Proof.
  unfold kabout_to. destruct (kdoing h) as [p|o out usr m k|]; try discriminate.
  destruct m as [a1|q|u|X b1 next]; try discriminate. destruct b1 as [X b1|X m|evs]; try discriminate.
  cbn [kthread_ok]. intros (_ & _ & Dt & a0 & Hi & _ & W) T. cbn [kwp] in W. destruct W as [[W _] _]. rewrite T in W.
  destruct b as [p n|p n]; [|exact W]. destruct W as [(c & Hc & W)|W]; [left; exists c; auto|right; exact W].
Qed.

Lemma kno_race y a D C efs G : KInv y a D C efs G -> ~ kdata_race y.
Proof.
  intros Iv (t1 & t2 & h1 & h2 & x1 & x2 & N & H1 & H2 & A1 & A2 & K).
  destruct (khas_effects _ _ _ _ _ _ _ _ Iv H1) as (e1 & _ & O1). destruct (khas_effects _ _ _ _ _ _ _ _ Iv H2) as (e2 & _ & O2).
  apply (kabout_inside _ _ _ _ _ _ _ _ O1) in A1. apply (kabout_inside _ _ _ _ _ _ _ _ O2) in A2.
  pose proof (kv_claims _ _ _ _ _ _ Iv) as Ck.
  destruct x1 as [p n|p n], x2 as [q m|q m]; cbn [conflict] in K; [exact K| | |].
  - destruct A1 as [(c & Hc & A1)|A1]; revert K; apply (inside_apart _ _ _ _ _ _ A1 A2).
    + apply apart_o_sym, (kc_clear _ _ _ Ck), Hc.
    + apply (kc_apart _ _ _ Ck), N.
  - destruct A2 as [(c & Hc & A2)|A2]; revert K; apply (inside_apart _ _ _ _ _ _ A1 A2).
    + apply (kc_clear _ _ _ Ck), Hc.
    + apply (kc_apart _ _ _ Ck), N.
  - revert K. apply (inside_apart _ _ _ _ _ _ A1 A2). apply (kc_apart _ _ _ Ck), N.
Qed.

End Inv.
