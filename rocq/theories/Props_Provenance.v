(** Property C68: programs using the [TaggedBox] API on a machine whose pointers know their blocks. *)
From Coq Require Import Arith NArith String Bool List Lia.
From Verif Require Import Words Config Spec ConfigFacts Pointer PointerFacts Mem SpecMem MemFacts Box BoxFacts Bump
  Props_Pointer Props_Box Session SpecSession SessionFacts Props_Session Provenance SpecProvenance ProvenanceFacts.
Import ListNotations.
Local Open Scope N_scope.

(** ** C68 Keeping addresses in integers is fine as long as casts expose *)

Lemma p_run_sim E : env_ok E -> forall p pc s0 ps a, inv E s0 (p_mem ps) (map erase pc) a -> numbered ps -> cells_ok E ps pc ->
  follows E p a ->
  exists seen pc' ps', p_run E false p pc ps = (seen, PFinished pc' ps') /\
    run E p (map erase pc) (p_mem ps) = (seen, Finished (map erase pc') (p_mem ps')) /\ numbered ps'.
Proof.
  intros HE p. induction p as [|o k IH]; intros pc s0 ps a I Hn Hc F; cbn [follows] in F.
  - exists [], pc, ps. auto.
  - destruct F as [Hk Hf].
    assert (Hs : astep false o a <> None) by (specialize (Hf false); destruct (astep false o a); [discriminate|contradiction]).
    destruct (step_sim E HE s0 (p_mem ps) (map erase pc) a o I Hk Hs) as (fail & m & x & a' & c' & s' & H1 & H2 & H3 & H4 & _).
    destruct (pstep_sim E HE s0 ps pc a o I Hn Hc Hk Hs) as (m' & pm & S1 & S2 & S3).
    rewrite H2 in S1. injection S1 as <-. specialize (Hf fail). rewrite H1 in Hf. unfold mirrors in S3.
    destruct H3 as [R|(q & -> & R & ->)]; rewrite R in S3.
    + destruct S3 as (pc' & ps' & P1 & <- & <- & P4 & P5).
      destruct (IH x pc' s0 ps' a' H4 P4 P5 Hf) as (seen & pc2 & ps2 & Q1 & Q2 & Q3).
      exists (x :: seen), pc2, ps2. cbn [p_run run]. rewrite S2, P1, H2, R, Q1, Q2. auto.
    + destruct S3 as (ps' & P1 & <- & P4 & P5).
      assert (A : after_panic o (map erase pc) = map erase (p_after_panic o pc))
        by (destruct o; cbn [after_panic p_after_panic]; try reflexivity; rewrite map_app; reflexivity).
      rewrite A in H4.
      destruct (IH (SawPanic q) (p_after_panic o pc) s0 ps' a' H4 P4 P5 Hf) as (seen & pc2 & ps2 & Q1 & Q2 & Q3).
      exists (SawPanic q :: seen), pc2, ps2. cbn [p_run run]. rewrite S2, P1, H2, R, A, Q1, Q2. auto.
Qed.

(** The machine takes the same calls as the one of C38. *)
Theorem C68_calls : forall E strict o c, p_step E strict o c = None <-> step E o (map erase c) = None.
Proof.
  intros E strict o c. destruct o as [u U val d|i|i|i|i f|i val|i|i|i d|i|i|i|i|i|i|i|i val|i|i val]; cbn [p_step step];
    [split; discriminate|..]; rewrite nth_error_map; destruct (nth_error c i) as [[]|]; cbn; split; intros H; first [reflexivity | discriminate H].
Qed.
Example C68_calls_example : p_step (bump_env dbg60) false (Read 0) [PGone] = None /\ p_step (bump_env dbg60) false (Read 0) [PBox U_str 4096] <> None.
Proof. split; [reflexivity|discriminate]. Qed.

(** A program that keeps the documented contract never uses a pointer for a block that is not the pointer's own: it sees and
    leaves behind exactly what it does on the machine of C38, whatever blocks are live at the start and however they are numbered. *)
Theorem C68_exposed : forall E p ps, env_ok E -> follows E p a0 -> numbered ps ->
  exists seen pc ps', p_run E false p [] ps = (seen, PFinished pc ps') /\
    run E p [] (p_mem ps) = (seen, Finished (map erase pc) (p_mem ps')) /\ numbered ps'.
Proof.
  intros E p ps HE F Hn. apply (p_run_sim E HE p [] (p_mem ps) ps a0); try assumption.
  - constructor; [reflexivity| | | |apply keeps_refl]; intros i; [intros x y H|intros j x y _ H|intros x b H]; destruct i; discriminate.
  - intros i x H. destruct i; discriminate H.
Qed.

(** *** Without exposing *)

(** Variables whose pointers, if any, are for no block. *)
Definition lost (x : pcell) : Prop :=
  match x with
  | PBox U _ => h_size U <> 0
  | PRaw U p | PRust U p => h_size U <> 0 /\ snd p = None
  | PVal _ _ => False
  | PGone => True
  end.

Lemma no_access U p s : h_size U <> 0 -> snd p = None -> p_access U p s = PUB NoProvenance.
Proof.
  intros Z H. unfold p_access, reaches. rewrite H. destruct (N.eqb_spec (h_size U) 0); [contradiction|reflexivity].
Qed.
Lemma no_read U p s : h_size U <> 0 -> snd p = None -> p_read U p s = PUB NoProvenance.
Proof. intros Z H. unfold p_read, pbind. rewrite no_access by assumption. reflexivity. Qed.

Lemma lost_put pc i x : Forall lost pc -> lost x -> Forall lost (put i x pc).
Proof.
  intros H Hx. revert i. induction H as [|y pc Hy H IH]; intros [|i]; cbn [put]; constructor; auto.
Qed.

Lemma lost_get pc i x : Forall lost pc -> nth_error pc i = Some x -> lost x.
Proof. intros H Hx. rewrite Forall_forall in H. apply H. eapply nth_error_In, Hx. Qed.

Definition sees_value (x : obs) : Prop := match x with SawValue _ => True | _ => False end.

Lemma lost_step E o pc pm s : Forall lost pc -> match o with NewBox _ U _ _ => h_size U <> 0 | _ => True end ->
  p_step E true o pc = Some pm ->
  match pm s with
  | POk (x, pc') _ => ~ sees_value x /\ Forall lost pc'
  | PPanic _ _ => True
  | PUB _ => True
  end.
Proof.
  intros L Z. destruct o as [u U val d|i|i|i|i f|i val|i|i|i d|i|i|i|i|i|i|i|i val|i|i val]; cbn [p_step].
  { intros H. injection H as <-. unfold pbind at 1. destruct (p_new E U val d s) as [w s1|q s1|e]; [|exact Logic.I..].
    cbn. split; [tauto|]. apply Forall_app. split; [exact L|]. repeat constructor. exact Z. }
  all: destruct (nth_error pc i) as [[U w|U p|U p|U v|]|] eqn:Hx; intros H; try discriminate H; injection H as <-;
    pose proof (lost_get _ _ _ L Hx) as Lx; cbn [lost] in Lx.
  all: try contradiction.
  all: try (unfold p_as_ref, p_as_ptr, p_as_mut_ptr, p_into_inner, p_modify, p_assign, p_rbox_drop, p_rbox_unbox, to_ptr, pbind;
            unfold p_as_mut_ptr, to_ptr; rewrite ?no_read by tauto; cbn; tauto).
  all: try (cbn; split; [tauto|]; apply lost_put; cbn; tauto).
  unfold pbind. destruct (p_from_raw E p d s) as [w s1|q s1|e]; [|exact Logic.I..].
  cbn. split; [tauto|]. apply lost_put; [exact L|]. cbn. tauto.
Qed.

Lemma lost_panic o pc : Forall lost pc -> Forall lost (p_after_panic o pc).
Proof. intros L. destruct o; cbn [p_after_panic]; try exact L. apply Forall_app. split; [exact L|]. repeat constructor. Qed.

(** If integers give pointers for no block (strict provenance), no box with contents ever gives its value back: a program that
    ends without undefined behaviour has seen no value, not even by [into_inner] or through [into_box]. *)
Theorem C68_strict : forall E p ps seen pc ps', big p -> p_run E true p [] ps = (seen, PFinished pc ps') ->
  forall v, ~ In (SawValue v) seen.
Proof.
  intros E p ps seen pc ps' B R v. assert (L : Forall lost []) by constructor. revert B L R.
  generalize (@nil pcell) as c. revert ps seen. induction p as [|o k IH]; intros ps seen c B L R; cbn [p_run big] in *.
  - injection R as <- _ _. intros [].
  - destruct B as [B1 B2]. destruct (p_step E true o c) as [pm|] eqn:S; [|discriminate R].
    pose proof (lost_step E o c pm ps L B1 S) as K. destruct (pm ps) as [[x c'] s'|q s'|u]; [| |discriminate R].
    + destruct K as [K1 K2]. destruct (p_run E true (k x) c' s') as [l e] eqn:T. injection R as <- ->.
      intros [->|H]; [exact (K1 Logic.I)|]. exact (IH x s' l c' (B2 x) K2 T H).
    + destruct (p_run E true (k (SawPanic q)) (p_after_panic o c) s') as [l e] eqn:T. injection R as <- ->.
      intros [H|H]; [discriminate H|]. exact (IH (SawPanic q) s' l _ (B2 _) (lost_panic o c L) T H).
Qed.

(** [TaggedPointer::new] takes an integer: when the block at that address was never exposed, as with [ptr.addr()] instead of
    [ptr as u64], nothing can be read through the pointer. *)
Theorem C68_hidden : forall E U a d w ps, target_ok (tgt E) -> a <= max_pointer_value (cfg (tgt E)) -> a < 2 ^ ptr_bits (tgt E) ->
  d <= max_discriminant (cfg (tgt E)) -> h_size U <> 0 -> tp_new (tgt E) a d = Done w -> ~ exposed_at ps a ->
  p_as_ref E false U w ps = PUB NoProvenance.
Proof.
  intros E U a d w ps Ht Ha Hb Hd Z W X.
  destruct (C16_into_from E a d (p_mem ps) Ht Ha Hb Hd) as (w' & W1 & W2 & _).
  unfold tb_from_raw in W1. rewrite W in W1. injection W1 as <-.
  unfold p_as_ref, pbind, to_ptr. change (tp_ref_addr (tgt E) w) with (tb_into_raw E w). rewrite W2.
  apply no_read; [exact Z|]. cbn [snd]. destruct (find _ (p_blocks ps)) as [[id b]|] eqn:F; [|reflexivity].
  exfalso. apply X. apply find_some in F as [F1 F2]. cbn [fst snd] in F2.
  apply andb_true_iff in F2 as [F2 F4]. apply andb_true_iff in F2 as [F2 F3].
  apply N.leb_le in F2. apply N.ltb_lt in F3. apply existsb_exists in F4 as (j & F4 & F5). apply Nat.eqb_eq in F5. subst j.
  exists id, b. auto.
Qed.

(** *** Freed blocks *)

(** Numbers are not used again. *)
Definition fresh (a : pst) : Prop := forall q, In q (p_blocks a) -> (fst q < p_next a)%nat.
Definition grows (a b : pst) : Prop :=
  (p_next a <= p_next b)%nat /\ (forall q, In q (p_blocks b) -> In q (p_blocks a) \/ (p_next a <= fst q)%nat) /\ (fresh a -> fresh b).

Lemma grows_refl a : grows a a.
Proof. repeat split; auto. Qed.
Lemma grows_same a m e : grows a (PSt m (p_blocks a) e (p_next a)).
Proof. repeat split; cbn; auto. Qed.
Lemma grows_trans a b c : grows a b -> grows b c -> grows a c.
Proof.
  intros (A1 & A2 & A3) (B1 & B2 & B3). split; [lia|]. split; [|auto]. intros q Q. destruct (B2 q Q) as [G|G]; [auto|right; lia].
Qed.

Definition steady {A} (m : PM A) : Prop := forall s,
  match m s with POk _ s' => grows s s' | PPanic _ s' => grows s s' | PUB _ => True end.

Lemma steady_ret {A} (a : A) : steady (pret a).
Proof. intros s. apply grows_refl. Qed.
Lemma steady_bind {A B} (m : PM A) (f : A -> PM B) : steady m -> (forall a, steady (f a)) -> steady (pbind m f).
Proof.
  intros H G s. unfold pbind. specialize (H s). destruct (m s) as [a s'|q s'|u]; [|exact H|exact Logic.I].
  specialize (G a s'). destruct (f a s'); eauto using grows_trans.
Qed.
Lemma steady_under {A} (m : M A) : steady (under m).
Proof. intros s. unfold under. destruct (m (p_mem s)); try exact Logic.I; apply grows_same. Qed.
Lemma steady_to_int p : steady (to_int p).
Proof. intros s. apply grows_same. Qed.
Lemma steady_to_ptr b a : steady (to_ptr b a).
Proof. intros s. apply grows_refl. Qed.
Lemma steady_access U p : steady (p_access U p).
Proof. intros s. unfold p_access. destruct (_ || _); [apply grows_refl|exact Logic.I]. Qed.
Lemma steady_alloc A n al : steady (p_alloc A n al).
Proof.
  intros s. unfold p_alloc. destruct (alloc A n al (p_mem s)) as [[a|] s'|q s'|u]; [|apply grows_same..|exact Logic.I].
  split; cbn [p_next p_blocks]; [lia|]. split; [intros q [<-|Q]; cbn [fst]; auto|].
  intros F q [<-|Q]; cbn [fst p_next]; [lia|]. specialize (F q Q). lia.
Qed.
Lemma steady_dealloc p n al : steady (p_dealloc p n al).
Proof.
  intros s. unfold p_dealloc. destruct (snd p) as [id|]; [|exact Logic.I]. destruct (existsb _ _); [|exact Logic.I].
  destruct (dealloc (fst p) n al (p_mem s)) as [[] s'|q s'|u]; [|apply grows_same|exact Logic.I].
  split; cbn [p_next p_blocks]; [lia|]. split; [intros q Q; apply filter_In in Q; tauto|].
  intros F q Q. apply filter_In in Q. apply F. tauto.
Qed.
Lemma steady_read U p : steady (p_read U p).
Proof. apply steady_bind; [apply steady_access|]. intros _. apply steady_under. Qed.
Lemma steady_write U p v : steady (p_write U p v).
Proof. apply steady_bind; [apply steady_access|]. intros _. apply steady_under. Qed.
#[local] Hint Resolve steady_ret steady_under steady_to_int steady_to_ptr steady_alloc steady_dealloc steady_read steady_write : steady.

Ltac steady := repeat first [solve [auto with steady] | apply steady_bind; [|intros]
  | match goal with |- context [if ?b then _ else _] => destruct b | |- context [match ?x with Some _ => _ | None => _ end] => destruct x end].

Lemma steady_step E b o c pm : p_step E b o c = Some pm -> steady pm.
Proof.
  destruct o as [u U val d|i|i|i|i f|i val|i|i|i d|i|i|i|i|i|i|i|i val|i|i val]; cbn [p_step].
  { intros H. injection H as <-. unfold p_new. steady. }
  all: destruct (nth_error c i) as [[U w|U p|U p|U v|]|] eqn:Hx; intros H; try discriminate H; injection H as <-;
    unfold p_as_ref, p_as_ptr, p_as_mut_ptr, p_into_inner, p_modify, p_assign, p_rbox_drop, p_rbox_unbox, p_into_raw, p_from_raw;
    unfold p_as_mut_ptr; steady.
Qed.

Lemma run_grows E b p : forall c ps seen c' ps', p_run E b p c ps = (seen, PFinished c' ps') -> grows ps ps'.
Proof.
  induction p as [|o k IH]; intros c ps seen c' ps' R; cbn [p_run] in R.
  - injection R as _ _ <-. apply grows_refl.
  - destruct (p_step E b o c) as [pm|] eqn:S; [|discriminate R]. pose proof (steady_step E b o c pm S ps) as K.
    destruct (pm ps) as [[x c1] s1|q s1|u]; [| |discriminate R];
      (destruct (p_run _ _ _ _ s1) as [l e] eqn:T; injection R as <- ->; eapply grows_trans; [exact K|]; eapply IH, T).
Qed.

(** A program makes a block, number [id], or finds it live ([p1]), frees it ([p2]) and goes on ([p3]): a pointer kept for it is
    of no use ever again, even if another block is made at the same address. *)
Theorem C68_freed : forall E strict p1 p2 p3 ps0 seen1 seen2 seen3 pc1 pc2 pc3 ps1 ps2 ps3 U a id, numbered ps0 ->
  p_run E strict p1 [] ps0 = (seen1, PFinished pc1 ps1) -> In id (map fst (p_blocks ps1)) ->
  p_run E strict p2 pc1 ps1 = (seen2, PFinished pc2 ps2) -> ~ In id (map fst (p_blocks ps2)) ->
  p_run E strict p3 pc2 ps2 = (seen3, PFinished pc3 ps3) -> h_size U <> 0 ->
  p_read U (a, Some id) ps3 = PUB NoProvenance /\ p_dealloc (a, Some id) (h_size U) (h_align U) ps3 = PUB NoProvenance.
Proof.
  intros E b p1 p2 p3 ps0 seen1 seen2 seen3 pc1 pc2 pc3 ps1 ps2 ps' U a id Hn R1 L1 R2 D R3 Z.
  destruct (run_grows _ _ _ _ _ _ _ _ R1) as (_ & _ & F1). destruct (run_grows _ _ _ _ _ _ _ _ R2) as (G2 & _).
  destruct (run_grows _ _ _ _ _ _ _ _ R3) as (_ & G & _).
  assert (L : (id < p_next ps2)%nat).
  { apply in_map_iff in L1 as (q & <- & Q). specialize (F1 (nb_old _ Hn) q Q). lia. }
  assert (N : forall f, existsb (fun q => Nat.eqb (fst q) id && f q) (p_blocks ps') = false).
  { intros f. destruct (existsb _ (p_blocks ps')) eqn:X; [|reflexivity]. exfalso.
    apply existsb_exists in X as (q & Q & X). apply andb_true_iff in X as [X _]. apply Nat.eqb_eq in X. subst id.
    destruct (G q Q) as [Y|Y]; [|lia]. apply D, in_map, Y. }
  split.
  - unfold p_read, pbind, p_access, reaches. cbn [fst snd]. destruct (N.eqb_spec (h_size U) 0); [contradiction|].
    cbn [orb]. rewrite N. reflexivity.
  - unfold p_dealloc. cbn [fst snd]. rewrite N. reflexivity.
Qed.

(** *** Examples *)

(** A machine with one live block that is not the program's. *)
Definition ps0 : pst := PSt (St (fun _ => Undef) [Block 4096 24 8] []) [(7%nat, Block 4096 24 8)] [] 8.

Lemma ps0_numbered : numbered ps0.
Proof.
  constructor; [reflexivity| |].
  - repeat constructor. intros [].
  - intros q [<-|[]]. cbn. lia.
Qed.

Example C68_exposed_example : exists pc ps,
  p_run (bump_env dbg60) false demo_prog [] ps0
    = ([SawNothing; SawNothing; SawNothing; SawNothing; SawTag 9; SawValue v_str; SawNothing; SawNothing], PFinished pc ps) /\
  p_blocks ps = [(7%nat, Block 4096 24 8)] /\ pc = [PGone].
Proof. do 2 eexists. split; [vm_compute; reflexivity|]. split; reflexivity. Qed.

Example C68_exposed_meets : env_ok (bump_env dbg60) /\ follows (bump_env dbg60) demo_prog a0 /\ numbered ps0.
Proof. destruct C38_example as (HE & F & _). split; [exact HE|]. split; [exact F|exact ps0_numbered]. Qed.

(** The box is made, tagged again and dropped; reading it is undefined behaviour. *)
Example C68_strict_example : let E := bump_env dbg60 in
  let p := go [NewBox false U_str v_str 3; IntoRaw 0; FromRaw 0 9; Tag 0; DropBox 0] in
  big p /\ (exists pc ps, p_run E true p [] ps0 = ([SawNothing; SawNothing; SawNothing; SawTag 9; SawNothing], PFinished pc ps)) /\
  p_run E true (go [NewBox false U_str v_str 3; Read 0]) [] ps0 = ([SawNothing], PUndefined NoProvenance) /\
  p_run E true (go [NewBox false U_str v_str 3; IntoBox 0; RustDrop 0]) [] ps0 = ([SawNothing; SawNothing], PUndefined NoProvenance).
Proof.
  cbv zeta. split; [cbn; repeat split; discriminate|]. split; [do 2 eexists; vm_compute; reflexivity|].
  split; vm_compute; reflexivity.
Qed.

(** A [TaggedPointer] for the address of the block nobody exposed. *)
Example C68_hidden_example : exists w, tp_new dbg60 4096 3 = Done w /\ ~ exposed_at ps0 4096 /\ h_size U_str <> 0 /\
  p_as_ref (bump_env dbg60) false U_str w ps0 = PUB NoProvenance.
Proof.
  eexists. split; [vm_compute; reflexivity|]. split; [|split; [discriminate|vm_compute; reflexivity]].
  intros (id & b & _ & [] & _).
Qed.

(** The first box's block, number 8, is freed; the second box gets the same address. Memory there may be read, but not
    through a pointer for the first. *)
Example C68_freed_example : let E := bump_env dbg60 in exists pc1 ps1 pc2 ps2 pc3 ps3 w1 w3,
  p_run E false (go [NewBox false U_str v_str 3]) [] ps0 = ([SawNothing], PFinished pc1 ps1) /\
  In 8%nat (map fst (p_blocks ps1)) /\ pc1 = [PBox U_str w1] /\
  p_run E false (go [IntoBox 0; RustDrop 0]) pc1 ps1 = ([SawNothing; SawNothing], PFinished pc2 ps2) /\
  ~ In 8%nat (map fst (p_blocks ps2)) /\
  p_run E false (go [NewBox false U_str v_str 4]) pc2 ps2 = ([SawNothing], PFinished pc3 ps3) /\
  pc3 = [PGone; PBox U_str w3] /\ tb_as_ptr E w3 = tb_as_ptr E w1 /\
  (exists s, p_read U_str (tb_as_ptr E w3, Some 9%nat) ps3 = POk v_str s) /\
  p_read U_str (tb_as_ptr E w1, Some 8%nat) ps3 = PUB NoProvenance.
Proof.
  cbv zeta. do 8 eexists. split; [vm_compute; reflexivity|]. split; [vm_compute; auto|]. split; [reflexivity|].
  split; [vm_compute; reflexivity|]. split; [vm_compute; intuition discriminate|]. split; [vm_compute; reflexivity|].
  split; [reflexivity|]. split; [vm_compute; reflexivity|].
  split; [eexists; vm_compute; reflexivity|vm_compute; reflexivity].
Qed.

Print Assumptions C68_exposed.
Print Assumptions C68_strict.
Print Assumptions C68_hidden.
Print Assumptions C68_freed.
Print Assumptions C68_calls.
