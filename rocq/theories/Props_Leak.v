(** Property C51: programs that go on making boxes run out of memory. *)
From Coq Require Import Arith NArith String Bool List Lia.
From Verif Require Import Words Config Spec SpecMem ConfigFacts Pointer PointerFacts Mem MemFacts Box BoxFacts Bump Rustc
  Arms Macro SpecMacro MacroFacts Session SpecSession SessionFacts Containers SpecContainers
  Props_Pointer Props_Box Props_Macro Props_Variants Props_Session Props_Containers Manual Tests Props_Tests Bench SpecLeak.
Import ListNotations.
Local Open Scope N_scope.

(** ** Intervals that do not overlap *)

Definition apart_iv (a b : N * N) : Prop := fst a + snd a <= fst b \/ fst b + snd b <= fst a.
Definition total (l : list (N * N)) : N := fold_right (fun a n => snd a + n) 0 l.

(** Close the gap that [a] leaves. *)
Definition shift (a b : N * N) : N * N := if fst b <? fst a then b else (fst b - snd a, snd b).

Lemma shift_total a l : total (map (shift a) l) = total l.
Proof.
  induction l as [|b l IH]; cbn [map total fold_right]; [reflexivity|]. fold (total (map (shift a) l)). rewrite IH.
  unfold shift. destruct (fst b <? fst a); reflexivity.
Qed.

Lemma shift_apart a b c : 0 < snd a -> 0 < snd b -> 0 < snd c -> apart_iv a b -> apart_iv a c -> apart_iv b c -> apart_iv (shift a b) (shift a c).
Proof.
  unfold apart_iv, shift. intros Pa Pb Pc A B C.
  destruct (N.ltb_spec (fst b) (fst a)), (N.ltb_spec (fst c) (fst a)); cbn [fst snd]; lia.
Qed.

Lemma apart_total lo l : forall hi, lo <= hi -> ForallOrdPairs apart_iv l -> Forall (fun a => 0 < snd a /\ lo <= fst a /\ fst a + snd a <= hi) l ->
  lo + total l <= hi.
Proof.
  remember (List.length l) as n eqn:En. revert l En. induction n as [|n IH]; intros [|a l] En hi Hh Ho Hi;
    cbn [List.length] in En; try discriminate; cbn [total fold_right]; [lia|].
  fold (total l). injection En as En. inversion Ho as [|? ? Ha Ho']. inversion Hi as [|? ? (B0 & B1 & B2) Hi']. subst.
  specialize (IH (map (shift a) l) (eq_sym (map_length _ _)) (hi - snd a)). rewrite shift_total in IH.
  enough (lo + total l <= hi - snd a) by lia. apply IH; [lia| |].
  - assert (P : Forall (fun a => 0 < snd a) l) by (eapply Forall_impl; [|exact Hi']; cbn; tauto).
    clear - B0 P Ha Ho'. induction Ho' as [|b l Hb Ho IH]; cbn [map]; [constructor|].
    inversion Ha as [|? ? Ab Al]. inversion P as [|? ? Pb Pl]. subst. constructor; [|apply IH; assumption].
    rewrite Forall_forall in *. intros c Hc. apply in_map_iff in Hc. destruct Hc as (c' & <- & Hc).
    apply shift_apart; auto.
  - rewrite Forall_forall in *. intros c Hc. apply in_map_iff in Hc. destruct Hc as (b & <- & Hb).
    specialize (Ha b Hb). destruct (Hi' b Hb) as (C0 & C1 & C2). unfold apart_iv in Ha. unfold shift.
    destruct (N.ltb_spec (fst b) (fst a)); cbn [fst snd]; lia.
Qed.

(** ** There is only so much room *)

Lemma pairs_map {A B} (f : A -> B) (R : A -> A -> Prop) (Q : B -> B -> Prop) l :
  (forall a b, In a l -> In b l -> R a b -> Q (f a) (f b)) -> ForallOrdPairs R l -> ForallOrdPairs Q (map f l).
Proof.
  intros H Ho. induction Ho as [|a l Ha Ho IH]; cbn [map]; [constructor|]. constructor.
  - rewrite Forall_forall in *. intros c Hc. apply in_map_iff in Hc. destruct Hc as (b & <- & Hb).
    apply H; [left; reflexivity|right; exact Hb|auto].
  - apply IH. intros. apply H; [right| right|]; assumption.
Qed.

(** The bytes of all live blocks fit the address space, and there are not more blocks than addresses in
    the setting. *)
Theorem C51_space : forall E s, heap_ok E s ->
  in_use s < 2 ^ ptr_bits (tgt E) /\ N.of_nat (List.length (blocks s)) <= max_pointer_value (cfg (tgt E)).
Proof.
  intros E s [H1 H2 H3]. split.
  - pose proof (N.pow_nonzero 2 (ptr_bits (tgt E)) ltac:(discriminate)) as Nz.
    assert (T : 1 + total (map (fun b => (b_base b, b_size b)) (blocks s)) <= 2 ^ ptr_bits (tgt E)).
    { apply apart_total; [lia| |].
      - eapply pairs_map; [|exact H1]. intros a b _ _ H. exact H.
      - rewrite Forall_forall in *. intros c Hc. apply in_map_iff in Hc. destruct Hc as (b & <- & Hb). cbn [fst snd].
        specialize (H2 b Hb). specialize (H3 b Hb). lia. }
    assert (T' : total (map (fun b => (b_base b, b_size b)) (blocks s)) = in_use s).
    { unfold in_use. clear. induction (blocks s) as [|b l IH]; cbn [map total fold_right snd]; [reflexivity|].
      fold (total (map (fun b => (b_base b, b_size b)) l)). rewrite IH. reflexivity. }
    lia.
  - assert (T : 1 + total (map (fun b => (b_base b, 1)) (blocks s)) <= max_pointer_value (cfg (tgt E)) + 1).
    { apply apart_total; [lia| |].
      - eapply pairs_map; [|exact H1]. rewrite Forall_forall in H2. intros a b Ia Ib H.
        pose proof (H2 a Ia). pose proof (H2 b Ib). unfold apart_iv. cbn [fst snd]. lia.
      - rewrite Forall_forall in *. intros c Hc. apply in_map_iff in Hc. destruct Hc as (b & <- & Hb). cbn [fst snd].
        specialize (H3 b Hb). lia. }
    assert (T' : total (map (fun b => (b_base b, 1)) (blocks s)) = N.of_nat (List.length (blocks s))).
    { clear. induction (blocks s) as [|b l IH]; cbn [map total fold_right snd List.length]; [reflexivity|].
      fold (total (map (fun b => (b_base b, 1)) l)). rewrite IH. lia. }
    lia.
Qed.

Lemma heap_ok_same E s s' : blocks s' = blocks s -> heap_ok E s -> heap_ok E s'.
Proof. intros Hb [H1 H2 H3]. constructor; rewrite Hb; assumption. Qed.

Lemma heap_ok_more E s s' size align p : env_ok E -> 0 < size -> power_of_two align ->
  alloc_fn E s size align = Some p -> blocks s' = Block p size align :: blocks s -> heap_ok E s -> heap_ok E s'.
Proof.
  intros He Hs Ha Hp Hb [H1 H2 H3]. destruct (eo_alloc _ He s size align p Hs Ha Hp) as (A1 & _ & A3 & A4).
  pose proof (eo_fits _ He s size align p Hs Ha Hp) as A5.
  constructor; rewrite Hb; constructor; cbn [b_base b_size]; try assumption; try lia.
  apply Forall_forall. exact A4.
Qed.

(** ** Loops *)

(** One round of a loop that leaks [size] bytes, or panics for lack of memory. *)
Definition leaks (E : env) (size : N) (m : M unit) : Prop := forall s, heap_ok E s ->
  (exists s', m s = Ok tt s' /\ heap_ok E s' /\ in_use s' = in_use s + size) \/
  (exists s', m s = Panicked PanicNullAlloc s' /\ heap_ok E s' /\ in_use s' = in_use s).

Lemma leaks_iterate E size m n : leaks E size m -> forall s, heap_ok E s ->
  (exists s', iterate n m s = Ok tt s' /\ heap_ok E s' /\ in_use s' = in_use s + N.of_nat n * size) \/
  (exists k s', (k < n)%nat /\ iterate n m s = Panicked PanicNullAlloc s' /\ heap_ok E s' /\
     in_use s' = in_use s + N.of_nat k * size).
Proof.
  intros Hm. induction n as [|n IH]; intros s Hs.
  - left. exists s. split; [reflexivity|]. split; [exact Hs|]. cbn. lia.
  - cbn [iterate]. unfold bind. destruct (Hm s Hs) as [(s1 & R1 & O1 & U1)|(s1 & R1 & O1 & U1)]; rewrite R1.
    + destruct (IH s1 O1) as [(s2 & R2 & O2 & U2)|(k & s2 & K & R2 & O2 & U2)].
      * left. exists s2. split; [exact R2|]. split; [exact O2|]. lia.
      * right. exists (S k), s2. split; [lia|]. split; [exact R2|]. split; [exact O2|]. lia.
    + right. exists O, s1. split; [lia|]. split; [reflexivity|]. split; [exact O1|]. lia.
Qed.

(** What the loop comes to: every round leaks, and it panics before the bytes of the address space are
    used up. *)
Definition runs_out (E : env) (size : N) (m : M unit) (s : st) : Prop := forall n,
  ((exists s', iterate n m s = Ok tt s' /\ in_use s' = in_use s + N.of_nat n * size) \/
   (exists k s', (k < n)%nat /\ iterate n m s = Panicked PanicNullAlloc s' /\ in_use s' = in_use s + N.of_nat k * size)) /\
  (2 ^ ptr_bits (tgt E) <= in_use s + N.of_nat n * size -> exists s', iterate n m s = Panicked PanicNullAlloc s').

Lemma leaks_runs_out E size m s : leaks E size m -> heap_ok E s -> runs_out E size m s.
Proof.
  intros Hm Hs n. destruct (leaks_iterate E size m n Hm s Hs) as [(s' & R & O & U)|(k & s' & K & R & O & U)].
  - split; [left; eauto|]. intros L. destruct (C51_space E s' O) as [B _]. lia.
  - split; [right; eauto 6|]. eauto.
Qed.

Theorem C51_new : forall E U val d s, env_ok E -> layout_legal U -> hval_ok U val -> h_size U <> 0 ->
  d <= max_discriminant (cfg (tgt E)) -> heap_ok E s -> runs_out E (h_size U) (new_dropped E U val d) s.
Proof.
  intros E U val d s0 He Hl Hv Hz Hd Hs0. apply leaks_runs_out; [|exact Hs0]. intros s Hs. unfold new_dropped, bind.
  destruct (tb_new_spec E (eo_target _ He) (eo_alloc _ He) U val d s (eo_fits _ He) Hl Hv Hd)
    as [(Z & _)|[(_ & A & R)|(_ & p & w & A & R & _)]]; [contradiction| |]; rewrite R.
  - right. eexists. split; [reflexivity|]. split; [eapply heap_ok_same; [|exact Hs]; reflexivity|reflexivity].
  - left. eexists. split; [reflexivity|]. split.
    + eapply heap_ok_more; [exact He| |apply ll_align, Hl|exact A|reflexivity|exact Hs]. lia.
    + unfold in_use. cbn [blocks stored fold_right b_size]. lia.
Qed.

(** The size of the storage of a variant. *)
Definition storage_size (k : vkind) : N := match storage k with Some U => h_size U | None => 0 end.

Lemma into_leaks E def x v k : macro_setup E def x -> In (ev_variant v, k) (e_variants def) ->
  evalue_fits E def v -> leaks E (storage_size k) (into_dropped E x v).
Proof.
  intros Hm Hk [(k' & Hk' & Ht) Hf] s Hs. unfold into_dropped, bind, storage_size.
  pose proof (do_names _ (ms_def _ _ _ Hm)) as Nd.
  assert (k' = k) by (pose proof (assoc_in _ _ _ Nd Hk); pose proof (assoc_in _ _ _ Nd Hk'); congruence). subst k'.
  destruct (macro_into_spec E def x (ms_def _ _ _ Hm) (ms_expand _ _ _ Hm) (setup_u8 _ _ _ Hm) (ms_env _ _ _ Hm) v k s Hk Ht Hf)
    as [(Z & w & R & _)|[(U & S & Z & A & R)|(U & p & w & S & Z & A & R & _)]]; rewrite R.
  - left. eexists. split; [reflexivity|]. split; [eapply heap_ok_same; [|exact Hs]; reflexivity|].
    destruct (storage k) as [U|]; [rewrite Z|]; unfold in_use; cbn [blocks logged]; lia.
  - right. eexists. split; [reflexivity|]. split; [eapply heap_ok_same; [|exact Hs]; reflexivity|reflexivity].
  - left. rewrite S. eexists. split; [reflexivity|]. split.
    + eapply heap_ok_more; [exact (ms_env _ _ _ Hm)| | |exact A|reflexivity|exact Hs]; [lia|].
      apply ll_align. eapply storage_legal; [|exact S]. exact (kind_types_wf _ _ _ (ms_def _ _ _ Hm) Hk).
    + unfold in_use. cbn [blocks logged stored fold_right b_size]. lia.
Qed.

Theorem C51_into : forall E def x v k s, macro_setup E def x -> In (ev_variant v, k) (e_variants def) ->
  evalue_fits E def v -> heap_ok E s -> runs_out E (storage_size k) (into_dropped E x v) s.
Proof. intros E def x v k s Hm Hk Hv Hs. apply leaks_runs_out; [|exact Hs]. eapply into_leaks; eassumption. Qed.

(** ** Any program *)

Section Orderly.
Variable E : env.
Hypothesis He : env_ok E.

Lemma ord_ret {A} (a : A) : orderly E (ret a).
Proof. intros s H. exact H. Qed.

Lemma ord_raise {A} p : orderly E (raise (A := A) p).
Proof. intros s H. exact H. Qed.

Lemma ord_bind {A B} (m : M A) (f : A -> M B) : orderly E m -> (forall a, orderly E (f a)) -> orderly E (bind m f).
Proof. intros Hm Hf s H. unfold bind. specialize (Hm s H). destruct (m s); [apply Hf, Hm|exact Hm|exact I]. Qed.

Lemma ord_resolved {A} (o : option A) : orderly E (resolved o).
Proof. destruct o; [apply ord_ret|intros s _; exact I]. Qed.

(** Code that leaves the list of blocks as it is. *)
Lemma ord_same {A} (m : M A) : (forall s, match m s with Ok _ s' | Panicked _ s' => blocks s' = blocks s | UB _ => True end) ->
  orderly E m.
Proof. intros Hm s H. specialize (Hm s). destruct (m s); [| |exact I]; eapply heap_ok_same; eassumption. Qed.

Lemma ord_check U p : orderly E (check_access U p).
Proof.
  apply ord_same. intros s. unfold check_access. destruct (p =? 0); [exact I|]. destruct (negb _); [exact I|].
  destruct (negb _); [exact I|reflexivity].
Qed.

Lemma ord_read U p : orderly E (read_at U p).
Proof.
  unfold read_at. apply ord_bind; [apply ord_check|]. intros _. apply ord_same. intros s.
  destruct (read_fields (bytes s) p (h_fields U)); [reflexivity|exact I].
Qed.

Lemma ord_write U p v : orderly E (write_at U p v).
Proof. unfold write_at. apply ord_bind; [apply ord_check|]. intros _. apply ord_same. reflexivity. Qed.

Lemma ord_new U val d : power_of_two (h_align U) -> orderly E (tb_new E U val d).
Proof.
  intros Ha. unfold tb_new. destruct (N.eqb_spec (h_size U) 0) as [Z|Z].
  - apply ord_bind; [apply ord_same; reflexivity|]. intros _. apply ord_ret.
  - apply ord_bind.
    + intros s H. unfold alloc. destruct (alloc_fn E s (h_size U) (h_align U)) as [p|] eqn:Hp; [|exact H].
      eapply heap_ok_more; [exact He| |exact Ha|exact Hp|reflexivity|exact H]. lia.
    + intros [p|].
      * apply ord_bind; [apply ord_write|]. intros _. destruct (tp_new (tgt E) p d); [apply ord_ret|apply ord_raise].
      * apply ord_bind; [apply ord_same; reflexivity|]. intros _. apply ord_raise.
Qed.

Lemma ord_exit {A} b ev (m : M A) : orderly E m -> orderly E (at_exit b ev m).
Proof.
  intros Hm s H. unfold at_exit. specialize (Hm s H). destruct b; [|exact Hm].
  destruct (m s); [| |exact I]; (eapply heap_ok_same; [|exact Hm]; reflexivity).
Qed.

Variable def : edef.
Variable x : expansion.
Hypothesis Hd : def_ok def.
Hypothesis Hx : expand def = Some x.

Lemma find_into_in v l a : find_into v l = Some a -> In a l.
Proof.
  induction l as [|b l IH]; cbn [find_into]; [discriminate|]. destruct (String.eqb v (ia_variant b)).
  - intros H. injection H as ->. left. reflexivity.
  - intros H. right. apply IH, H.
Qed.

(** The types for which [new] is called in the generated code have proper alignments. *)
Lemma into_body_align a U : In a (x_into x) ->
  match ia_body a with
  | INewLeaf t _ => U = leaf_hty t
  | INewTuple tys _ => U = reprC tys
  | INewStruct ms _ => U = reprC (map snd ms)
  | IDangling => False
  end -> power_of_two (h_align U).
Proof.
  intros Ha. destruct (In_nth_error _ _ Ha) as [i Hi]. destruct (gen_all_nth _ _ _ (xp_into _ _ (expand_inv _ _ Hx))) as [Hl Hn].
  specialize (Hn i). destruct (nth_error (e_variants def) i) as [[v k]|] eqn:Ev.
  - destruct Hn as (a' & Hn & Ha'). rewrite Hi in Ha'. injection Ha' as <-. pose proof (kind_types_wf _ _ _ Hd (nth_error_In _ _ Ev)) as W.
    assert (L : forall tys, Forall wf_ty tys -> power_of_two (h_align (reprC tys))) by (intros; apply ll_align, reprC_legal; assumption).
    destruct k as [|[|t [|t' tys]]|ms]; unfold gen_into in Hn.
    + injection Hn as <-. cbn. tauto.
    + injection Hn as <-. cbn. tauto.
    + injection Hn as <-. cbn [ia_body]. intros ->. inversion W as [|? ? W1 _]. apply W1.
    + destruct (find_arm _ expand_tuple_arm_arms) as [[pat args]|]; [|discriminate]. injection Hn as <-. cbn [ia_body].
      intros ->. apply L, W.
    + injection Hn as <-. cbn [ia_body]. intros ->. apply L, W.
  - rewrite Hn in Hi. discriminate Hi.
Qed.

Lemma ord_into v : orderly E (macro_into E x v).
Proof.
  unfold macro_into. apply ord_exit. intros s H. unfold bind at 1. unfold resolved at 1.
  destruct (find_into (ev_variant v) (x_into x)) as [a|] eqn:Fa; [|exact I]. cbn [ret].
  apply find_into_in in Fa. pose proof (into_body_align a) as B. revert s H.
  change (orderly E (bind (resolved (bind_pattern x (ia_pat a) v)) (fun binds =>
    bind (resolved (eval_tag x (ia_tag a))) (fun tag => run_into_body E x (ia_body a) binds tag)))).
  apply ord_bind; [apply ord_resolved|]. intros binds. apply ord_bind; [apply ord_resolved|]. intros tag.
  unfold run_into_body. destruct (ia_body a) as [t arg|tys args|ms lit|].
  - apply ord_bind; [apply ord_resolved|]. intros vs. apply ord_new, (B _ Fa eq_refl).
  - apply ord_bind; [apply ord_resolved|]. intros vs. apply ord_new, (B _ Fa eq_refl).
  - apply ord_bind; [apply ord_resolved|]. intros vals. apply ord_bind; [apply ord_resolved|]. intros vs. apply ord_new, (B _ Fa eq_refl).
  - apply ord_ret.
Qed.

Lemma ord_build rd v b : (forall U, orderly E (rd U)) -> orderly E (run_build E x rd v b).
Proof.
  intros Hr. destruct b; cbn [run_build];
    repeat first [apply ord_ret|apply ord_bind; [first [apply Hr|apply ord_resolved]|intros ?]].
Qed.

Lemma ord_match {A} d arms (body : read_arm -> M A) df : (forall a, orderly E (body a)) -> orderly E df ->
  orderly E (match_disc x d arms body df).
Proof.
  intros Hb Hdf. induction arms as [|a arms IH]; cbn [match_disc]; [exact Hdf|].
  apply ord_bind; [apply ord_resolved|]. intros tag. destruct (d =? tag); [apply Hb|exact IH].
Qed.

Lemma ord_ref S w cb c : (forall v c, orderly E (cb v c)) -> orderly E (macro_ref E x S w cb c).
Proof.
  intros Hc. unfold macro_ref. apply ord_match; [|apply ord_raise]. intros a.
  apply ord_bind; [apply ord_build; intros U; apply ord_read|]. intros v. apply ord_exit, Hc.
Qed.

Lemma ord_from w : orderly E (macro_from E x w).
Proof. unfold macro_from. apply ord_match; [|apply ord_raise]. intros a. apply ord_build. intros U. apply ord_read. Qed.

Lemma ord_inner w : orderly E (macro_into_inner E x w).
Proof. unfold macro_into_inner. apply ord_match; [|apply ord_raise]. intros a. apply ord_build. intros U. apply ord_read. Qed.

Variable I0 : impls.
Hypothesis Hi : orderly_impls E I0.

Lemma ord_step o c m : kstep E x I0 o c = Some m -> orderly E m.
Proof.
  destruct Hi as [I1 I2 I3 I4 I5 I6]. intros H.
  destruct o; cbn [kstep] in H;
    repeat match type of H with context [match ?d with _ => _ end] => destruct d; try discriminate end;
    injection H as <-;
    repeat first [apply ord_ret|apply ord_bind; [|intros ?]]; try apply ord_into; try apply ord_from; try apply ord_inner.
  all: try (unfold container_from_payload; match goal with |- context [match ?f with _ => _ end] => destruct f end;
            [|apply ord_bind; [apply ord_resolved|intros ?]]; apply ord_into).
  all: try (match goal with |- context [Fmt.derived_debug ?a ?b ?c ?r] => destruct (Fmt.derived_debug a b c r); apply ord_ret end).
  all: unfold tb_clone, tb_eq, tb_partial_cmp, tb_cmp, tb_debug, tb_display; cbn [ref_from_tagged_box into_tagged_box macro_taggable].
  all: try (apply ord_bind; [|intros [?|]; [apply ord_into|apply ord_raise]]).
  all: try (apply ord_ref; intros; first [apply I1|apply I2|apply I3|apply I4|apply I5|apply I6|apply ord_ret
        |apply ord_bind; [apply I1|intros; apply ord_ret]
        |apply ord_ref; intros; first [apply I2|apply I3|apply I4]]).
  all: try (unfold tb_modify, tb_assign, tb_as_ref; repeat first [apply ord_read|apply ord_write|apply ord_same; reflexivity|apply ord_bind; [|intros ?]]).
  all: try (apply ord_same; reflexivity).
  all: try apply ord_check.
  - match goal with |- orderly E (match ?a with _ => _ end) => destruct a; [apply ord_into|apply ord_raise] end.
  - apply ord_same. intros s. destruct (read_fields _ _ _); [reflexivity|exact I].
  - apply ord_same. intros s. destruct (read_fields _ _ _); [reflexivity|exact I].
Qed.
End Orderly.

Lemma ord_run E def x I0 p : env_ok E -> def_ok def -> expand def = Some x -> orderly_impls E I0 ->
  forall c s, heap_ok E s -> match snd (krun E x I0 p c s) with KFinished _ s' => heap_ok E s' | _ => True end.
Proof.
  intros He Hd Hx Hi. induction p as [|o k IH]; intros c s H; cbn [krun]; [exact H|].
  destruct (kstep E x I0 o c) as [m|] eqn:Hm; [|exact I].
  pose proof (ord_step E He def x Hd Hx I0 Hi o c m Hm s H) as O. destruct (m s) as [[r c'] s'|q s'|u]; [| |exact I].
  - specialize (IH r c' s' O). destruct (krun E x I0 (k r) c' s'). exact IH.
  - specialize (IH (KSawPanic q) (kafter_panic o c) s' O). destruct (krun E x I0 (k (KSawPanic q)) (kafter_panic o c) s'). exact IH.
Qed.

(** However a program uses containers: the boxes it made with non-zero-sized storage are not more than
    there are addresses in the setting. *)
Theorem C51_programs : forall E def x I F p s, macro_setup E def x -> implements harmless def I F -> orderly_impls E I ->
  kfollows E def F p ka0 -> heap_ok E s ->
  let a := snd (karun def p (kmeanings E x I F p s) (kshortages E def x I p [] s) ka0) in
  N.of_nat (List.length (blocks s) + kmade a) <= max_pointer_value (cfg (tgt E)).
Proof.
  intros E def x I F p s Hm HI Ho Hf Hs. destruct (C36_blocks E def x I F p s Hm HI Hf) as (c & s' & R).
  pose proof (ord_run E def x I p (ms_env _ _ _ Hm) (ms_def _ _ _ Hm) (ms_expand _ _ _ Hm) Ho [] s Hs) as O.
  destruct (karun def p _ _ ka0) as [seen a]. destruct R as (R & _ & B). rewrite R in O. cbn [snd] in *.
  rewrite <- B. exact (proj2 (C51_space E s' O)).
Qed.

(** A program that would make more of them on plain values runs out of memory. *)
Theorem C51_forever : forall E def x I F p s, macro_setup E def x -> implements harmless def I F -> orderly_impls E I ->
  kfollows E def F p ka0 -> heap_ok E s ->
  max_pointer_value (cfg (tgt E)) < N.of_nat (kmade (snd (karun def p (kmeanings E x I F p s) [] ka0))) ->
  In true (kshortages E def x I p [] s).
Proof.
  intros E def x I F p s Hm HI Ho Hf Hs L. destruct (in_dec Bool.bool_dec true (kshortages E def x I p [] s)) as [Y|Y]; [exact Y|].
  pose proof (C51_programs E def x I F p s Hm HI Ho Hf Hs) as B. cbn zeta in B. rewrite karun_no_failure in B by exact Y. lia.
Qed.

(** ** With [Box] the same loops run for ever *)

Lemma steady_loop E size align (m : M unit) : by_blocks E ->
  (forall s, alloc_fn E s size align <> None -> exists s', m s = Ok tt s' /\ blocks s' = blocks s) ->
  forall n s, alloc_fn E s size align <> None -> exists s', iterate n m s = Ok tt s' /\ blocks s' = blocks s.
Proof.
  intros Hb Hm n. induction n as [|n IH]; intros s Ha; [exists s; auto|]. cbn [iterate]. unfold bind.
  destruct (Hm s Ha) as (s1 & R1 & B1). rewrite R1. destruct (IH s1) as (s2 & R2 & B2).
  - rewrite (Hb s1 s size align B1). exact Ha.
  - exists s2. split; [exact R2|]. congruence.
Qed.

Lemma stored_drop E U p val s : env_ok E -> layout_legal U -> hval_ok U val -> h_size U <> 0 ->
  alloc_fn E s (h_size U) (h_align U) = Some p ->
  exists s', rbox_drop U p (stored U p val s) = Ok tt s' /\ blocks s' = blocks s.
Proof.
  intros He Hl Hv Hz Hp. unfold rbox_drop, bind.
  rewrite (stored_read E (eo_alloc _ He) U p val s Hl Hv Hz Hp). cbn [drop_hval].
  destruct (N.eqb_spec (h_size U) 0); [contradiction|]. rewrite dealloc_ok by (left; reflexivity).
  eexists. split; [reflexivity|]. cbn [blocks]. unfold stored. cbn [blocks]. apply remove_block_head.
Qed.

(** If the allocator only looks at the live blocks, as a fixed pool does, and has memory for one box,
    then turning each box into a [Box] keeps the loop going, as [Box::new] does. *)
Theorem C51_box : forall E U val d s n, env_ok E -> by_blocks E -> layout_legal U -> hval_ok U val -> h_size U <> 0 ->
  d <= max_discriminant (cfg (tgt E)) -> alloc_fn E s (h_size U) (h_align U) <> None ->
  (exists s', iterate n (boxed_dropped E U val d) s = Ok tt s' /\ blocks s' = blocks s) /\
  (exists s', iterate n (box_dropped E U val) s = Ok tt s' /\ blocks s' = blocks s).
Proof.
  intros E U val d s0 n He Hb Hl Hv Hz Hd. revert s0. intros s0 H0.
  split; (eapply steady_loop; [exact Hb| |exact H0]); intros s Ha.
  - destruct (tb_new_spec E (eo_target _ He) (eo_alloc _ He) U val d s (eo_fits _ He) Hl Hv Hd)
      as [(Z & _)|[(_ & A & _)|(_ & p & w & A & R & _ & P & _)]]; [contradiction|contradiction|].
    unfold boxed_dropped, bind. rewrite R. unfold tb_into_box, tb_into_raw. change (tp_as_mut_ptr (tgt E) w) with (tp_as_ptr (tgt E) w).
    rewrite P. apply (stored_drop E); assumption.
  - destruct (alloc_fn E s (h_size U) (h_align U)) as [p|] eqn:A; [|contradiction]. unfold box_dropped.
    destruct (N.eqb_spec (h_size U) 0); [contradiction|]. unfold bind, alloc. rewrite A.
    assert (W : write_at U p val (St (undef_range (bytes s) p (h_size U)) (Block p (h_size U) (h_align U) :: blocks s)
                  (events s ++ [EvAlloc p (h_size U) (h_align U)])) = Ok tt (stored U p val s)).
    { rewrite write_at_eq; [reflexivity|].
      destruct (can_access_stored E (eo_alloc _ He) U p val s Hl Hz A) as (H1 & H2 & H3).
      split; [exact H1|]. split; [exact H2|exact H3]. }
    rewrite W. apply (stored_drop E); assumption.
Qed.

(** ** The benchmarks *)

Lemma wf_usizes : wf_ty ty_usizes.
Proof. split; [exists 3; split; [lia|reflexivity]|reflexivity]. Qed.

Lemma hundreds_ok : hval_ok (leaf_hty ty_usizes) [hundreds_of_usize].
Proof. constructor; [split; vm_compute; reflexivity|constructor]. Qed.

(** The benchmark of the unit variant can run for ever; every round of the other benchmarks of the crate
    leaks the size of what is stored; [Box::new] with which it compares itself does not leak. *)
Theorem C51_benchmarks : forall E x s, env_ok E -> expand tests_item = Some x ->
  56 <= pointer_width (cfg (tgt E)) <= 62 -> heap_ok E s ->
  match benchmarks E x with
  | (_, unit_variant) :: rest =>
      (forall n, iterate n unit_variant s = Ok tt s) /\
      Forall2 (fun b size => runs_out E size (snd b) s) (firstn 4 rest) [8; 32; 8; 800] /\
      (by_blocks E -> alloc_fn E s 800 8 <> None -> forall b n, nth_error rest 4 = Some b ->
         exists s', iterate n (snd b) s = Ok tt s' /\ in_use s' = in_use s)
  | [] => False
  end.
Proof.
  intros E x s He Hx [H8 H62] Hs. pose proof (tests_setup _ _ _ He tests_item_ok Hx H8) as Hm.
  apply (proj1 (four_tags _ (proj1 (eo_target _ He)))) in H62.
  assert (V : forall v i k, nth_error (e_variants tests_item) i = Some (ev_variant v, k) -> (i <= 3)%nat ->
    Forall2 has_type (kind_types k) (ev_fields v) -> runs_out E (storage_size k) (into_dropped E x v) s).
  { intros v i k Hi Li Ht. pose proof (nth_error_In _ _ Hi) as Hin. eapply C51_into; [exact Hm|exact Hin| |exact Hs].
    split; [exists k; auto|]. eapply fits_by; [exact Hi|lia]. }
  cbn [benchmarks firstn nth_error]. split; [|split].
  - assert (U : into_dropped E x unit_item s = Ok tt s).
    { pose proof Hx as Hx'. vm_compute in Hx'. injection Hx' as <-. reflexivity. }
    induction n as [|n IH]; [reflexivity|]. cbn [iterate]. unfold bind. rewrite U. exact IH.
  - constructor; [|constructor; [|constructor; [|constructor; [|constructor]]]]; cbn [snd].
    + refine (V (single usize_max) 0%nat _ eq_refl _ _); [lia|]. constructor; [apply usize_ok|constructor].
    + refine (V (many 100 200 fifty 300) 1%nat _ eq_refl _ _); [lia|].
      constructor; [apply usize_ok|]. constructor; [apply usize_ok|]. constructor; [apply f32_ok|]. constructor; [apply usize_ok|constructor].
    + refine (V (orphan 10 false) 3%nat _ eq_refl _ _); [lia|]. constructor; [apply u32_ok|]. constructor; [apply boolean_ok|constructor].
    + apply (C51_new E (leaf_hty ty_usizes)); [exact He|apply leaf_legal, wf_usizes|apply hundreds_ok|discriminate|lia|exact Hs].
  - intros Hb Ha b n Hn. injection Hn as <-. cbn [snd].
    destruct (C51_box E (leaf_hty ty_usizes) [hundreds_of_usize] 0 s n He Hb (leaf_legal _ wf_usizes) hundreds_ok) as [_ (s' & R & B)];
      [discriminate|lia|exact Ha|]. exists s'. split; [exact R|]. unfold in_use. rewrite B. reflexivity.
Qed.

(** ** Examples *)

Lemma heap_ok_empty E s : blocks s = [] -> heap_ok E s.
Proof. intros H. constructor; rewrite H; constructor. Qed.

Lemma pure_orderly E F : orderly_impls E (pure_impls F).
Proof.
  assert (H : forall A (r : outcome A), orderly E (of_outcome r)) by (intros A []; [apply ord_ret|apply ord_raise]).
  constructor; intros; apply H.
Qed.

(** A loop in a client of containers: make a value, store it, let the container go. *)
Fixpoint kloop (v : evalue) (i n : nat) : kprog :=
  match n with
  | O => KStop
  | S n => KDo (KNew v) (fun _ => KDo (KFrom i) (fun seen =>
             match seen with KSawPanic _ => KStop | _ => KDo (KDrop i) (fun _ => kloop v (S i) n) end))
  end.

Lemma put_last {A} (l : list A) x y : put (List.length l) y (l ++ [x]) = l ++ [y].
Proof. induction l as [|z l IH]; cbn [List.length put app]; [reflexivity|]. f_equal. exact IH. Qed.

Lemma nth_last {A} (l : list A) x : nth_error (l ++ [x]) (List.length l) = Some x.
Proof. induction l; [reflexivity|assumption]. Qed.

Lemma kloop_made E def v F n : evalue_fits E def v -> needs_block def v = true ->
  forall a, kfollows E def F (kloop v (List.length (kcells a)) n) a /\
    forall G, kmade (snd (karun def (kloop v (List.length (kcells a)) n) G [] a)) = (kmade a + n)%nat.
Proof.
  intros [Hv Hf] Hb. induction n as [|n IH]; intros a; [split; [exact I|intros G; cbn; lia]|].
  set (a1 := KAState (kcells a ++ [KAGone]) (S (knext a)) (kdead a) (S (kmade a)) (S (kboxes a))).
  assert (L : List.length (kcells a1) = S (List.length (kcells a))) by (cbn; rewrite app_length; cbn; lia).
  specialize (IH a1). rewrite L in IH. destruct IH as [IH1 IH2].
  split.
  - cbn [kloop kfollows]. intros s. split; [exact Hv|]. intros fail0. cbn [kastep].
    intros s1. split.
    + cbn [kcontract kcells]. rewrite nth_last. intros id w Hw. injection Hw as _ Hw. rewrite <- Hw. exact Hf.
    + intros fail. cbn [kastep kcells]. rewrite nth_last. unfold kstore. rewrite Hb. cbn [andb]. destruct fail; [exact I|].
      intros s2. split; [exact I|]. intros fail1. cbn [kastep kcells kplace]. rewrite put_last, nth_last. unfold kset.
      cbn [kcells knext kdead kmade kboxes]. rewrite put_last. exact IH1.
  - intros G. cbn [kloop karun kastep hd tl kcells]. rewrite nth_last. unfold kstore. rewrite Hb. cbn [andb].
    cbn [karun kastep hd tl kcells kplace]. rewrite put_last, nth_last. unfold kset. cbn [kcells knext kdead kmade kboxes]. rewrite put_last.
    specialize (IH2 (fun k => G (S (S (S k))))). fold a1. cbn [snd].
    destruct (karun def (kloop v (S (List.length (kcells a))) n) _ [] a1) as [l e]. cbn [snd] in *. rewrite IH2. cbn. lia.
Qed.

(** The loop cannot go on for ever, whatever the enum and the allocator. *)
Theorem C51_loop : forall E def x I F v n s, macro_setup E def x -> implements harmless def I F -> orderly_impls E I ->
  evalue_fits E def v -> needs_block def v = true -> heap_ok E s -> max_pointer_value (cfg (tgt E)) < N.of_nat n ->
  In true (kshortages E def x I (kloop v 0 n) [] s).
Proof.
  intros E def x I F v n s Hm HI Ho Hv Hb Hs L. destruct (kloop_made E def v F n Hv Hb ka0) as [K1 K2]. cbn [kcells ka0 List.length] in *.
  apply (C51_forever E def x I F); try assumption. rewrite K2. cbn [kmade]. lia.
Qed.

(** The hypotheses can be met: the bump allocator, an empty heap, the enum of the benchmarks. *)
Example C51_example : let E := bump_env dbg60 in
  env_ok E /\ by_blocks E /\ heap_ok E st0 /\ orderly_impls E (pure_impls item_meaning) /\
  implements harmless tests_item (pure_impls item_meaning) (fun _ => item_meaning) /\
  alloc_fn E st0 800 8 <> None /\ needs_block tests_item (orphan 10 false) = true /\
  exists x, expand tests_item = Some x /\ macro_setup E tests_item x /\ evalue_fits E tests_item (orphan 10 false) /\
    map (fun b => match iterate 3 (snd b) st0 with Ok _ s => Some (in_use s) | _ => None end) (benchmarks E x) =
      map Some [0; 24; 96; 24; 2400; 0] /\
    let E' := Env dbg60 (fun s size align => if (in_use s + size <=? 1000) then bump s size align else None) reprC in
    map (fun b => match iterate 3 (snd b) st0 with Ok _ s => Some (in_use s) | _ => None end) (benchmarks E' x) =
      [Some 0; Some 24; Some 96; Some 24; None; Some 0].
Proof.
  intros E. split; [apply bump_env_ok, example_targets_ok|]. split.
  { intros s s' size align H. cbn [alloc_fn E bump_env]. unfold bump. rewrite H. reflexivity. }
  split; [apply heap_ok_empty; reflexivity|]. split; [apply pure_orderly|].
  split; [|split; [discriminate|split; [reflexivity|]]].
  { apply pure_implements. item_clones. }
  assert (Hx : exists x, expand tests_item = Some x) by (vm_compute; eauto). destruct Hx as [x Hx]. exists x.
  split; [exact Hx|]. split; [apply tests_setup; [apply bump_env_ok, example_targets_ok|apply tests_item_ok|exact Hx|cbn; lia]|].
  split.
  { split; [eexists; split; [right; right; right; left; reflexivity|]|eapply (fits_by _ _ _ 3); [reflexivity|cbn; lia]].
    constructor; [apply u32_ok|]. constructor; [apply boolean_ok|constructor]. }
  vm_compute in Hx. injection Hx as <-. split; vm_compute; reflexivity.
Qed.

(** ** Instances: each theorem applied to a concrete case that meets its hypotheses *)

(** Two blocks. *)
Definition two_blocks : st := St (fun _ => Undef) [Block 8192 24 8; Block 4096 8 8] [].
Lemma two_blocks_ok : heap_ok (bump_env dbg60) two_blocks.
Proof.
  split; cbn [blocks two_blocks].
  - constructor; [constructor; [|constructor]|constructor; [constructor|constructor]]; right; vm_compute; discriminate.
  - constructor; [|constructor; [|constructor]]; split; vm_compute; (reflexivity || discriminate).
  - constructor; [|constructor; [|constructor]]; split; vm_compute; (reflexivity || discriminate).
Qed.

Example C51_space_example : in_use two_blocks = 32 /\ in_use two_blocks < 2 ^ 64 /\ N.of_nat (List.length (blocks two_blocks)) <= 2 ^ 60 - 1.
Proof. split; [reflexivity|]. exact (C51_space _ _ two_blocks_ok). Qed.

(** A loop making boxes of strings. *)
Example C51_new_example : runs_out (bump_env dbg60) 24 (new_dropped (bump_env dbg60) U_str v_str 9) two_blocks.
Proof.
  destruct a_box_env as (HE & L & V & Z & D & _). exact (C51_new _ _ _ _ _ HE L V Z D two_blocks_ok).
Qed.

Example C51_into_example : exists x, expand tests_item = Some x /\
  runs_out (bump_env dbg60) 8 (into_dropped (bump_env dbg60) x (orphan 10 false)) two_blocks.
Proof.
  destruct C51_example as (_ & _ & _ & _ & _ & _ & _ & x & X & S & V & _). exists x. split; [exact X|].
  apply (C51_into _ _ _ (orphan 10 false) (KStruct [("int", ty_u32); ("boolean", ty_bool)]%string) _ S); [cbn; tauto|exact V|exact two_blocks_ok].
Qed.

(** The loop of containers: twice round, and one more time than there are addresses. *)
Example C51_programs_example : exists x, expand tests_item = Some x /\
  N.of_nat (List.length (blocks two_blocks) + kmade (snd (karun tests_item (kloop (orphan 10 false) 0 2)
      (kmeanings (bump_env dbg60) x (pure_impls item_meaning) (fun _ => item_meaning) (kloop (orphan 10 false) 0 2) two_blocks)
      (kshortages (bump_env dbg60) tests_item x (pure_impls item_meaning) (kloop (orphan 10 false) 0 2) [] two_blocks) ka0)))
    <= max_pointer_value cfg60.
Proof.
  destruct C51_example as (_ & _ & _ & O & M & _ & B & x & X & S & V & _). exists x. split; [exact X|].
  apply (C51_programs (bump_env dbg60) _ _ _ _ _ _ S M O); [|exact two_blocks_ok].
  exact (proj1 (kloop_made (bump_env dbg60) tests_item (orphan 10 false) (fun _ => item_meaning) 2 V B ka0)).
Qed.

Example C51_forever_example : exists x, expand tests_item = Some x /\
  In true (kshortages (bump_env dbg60) tests_item x (pure_impls item_meaning) (kloop (orphan 10 false) 0 (N.to_nat (2 ^ 60))) [] two_blocks).
Proof.
  destruct C51_example as (_ & _ & _ & O & M & _ & B & x & X & S & V & _). exists x. split; [exact X|].
  destruct (kloop_made (bump_env dbg60) tests_item (orphan 10 false) (fun _ => item_meaning) (N.to_nat (2 ^ 60)) V B ka0) as [F N].
  apply (C51_forever (bump_env dbg60) _ _ _ _ _ _ S M O F two_blocks_ok).
  change (List.length (kcells ka0)) with 0%nat in N. rewrite N. change (kmade ka0) with 0%nat. rewrite Nat.add_0_l, N2Nat.id. reflexivity.
Qed.

Example C51_loop_example : exists x, expand tests_item = Some x /\
  In true (kshortages (bump_env dbg60) tests_item x (pure_impls item_meaning) (kloop (orphan 10 false) 0 (N.to_nat (2 ^ 60))) [] two_blocks).
Proof.
  destruct C51_example as (_ & _ & _ & O & M & _ & B & x & X & S & V & _). exists x. split; [exact X|].
  apply (C51_loop (bump_env dbg60) _ _ _ _ _ _ _ S M O V B two_blocks_ok). rewrite N2Nat.id. reflexivity.
Qed.

Example C51_box_example : forall n,
  (exists s, iterate n (boxed_dropped (bump_env dbg60) U_str v_str 9) st0 = Ok tt s /\ blocks s = []) /\
  (exists s, iterate n (box_dropped (bump_env dbg60) U_str v_str) st0 = Ok tt s /\ blocks s = []).
Proof.
  intros n. destruct a_box_env as (HE & L & V & Z & D & _). destruct C51_example as (_ & BB & _).
  apply (C51_box _ _ _ _ st0 n HE BB L V Z D). vm_compute. discriminate.
Qed.

Example C51_benchmarks_example : exists x, expand tests_item = Some x /\
  match benchmarks (bump_env dbg60) x with
  | (_, unit_variant) :: rest => (forall n, iterate n unit_variant st0 = Ok tt st0) /\
      Forall2 (fun b size => runs_out (bump_env dbg60) size (snd b) st0) (firstn 4 rest) [8; 32; 8; 800]
  | [] => False
  end.
Proof.
  destruct C51_example as (HE & _ & H & _ & _ & _ & _ & x & X & _). exists x. split; [exact X|].
  pose proof (C51_benchmarks _ _ _ HE X ltac:(vm_compute; split; discriminate) H) as B.
  destruct (benchmarks (bump_env dbg60) x) as [|[n u] r]; [exact B|]. destruct B as (B1 & B2 & _). auto.
Qed.

Print Assumptions C51_space.
Print Assumptions C51_new.
Print Assumptions C51_into.
Print Assumptions C51_programs.
Print Assumptions C51_forever.
Print Assumptions C51_loop.
Print Assumptions C51_box.
Print Assumptions C51_benchmarks.
