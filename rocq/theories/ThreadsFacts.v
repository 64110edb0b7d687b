(** The invariant behind property C60: every thread owns the blocks its calls write to; what it owns or looks
    at does not change while other threads run. *)
From Coq Require Import Arith NArith String Bool List Lia Permutation.
From Verif Require Import Words Config Spec ConfigFacts Pointer PointerFacts Mem SpecMem MemFacts Box BoxFacts
  Props_Pointer Props_Box Session SpecSession SessionFacts Threads SpecThreads.
Import ListNotations.
Local Open Scope N_scope.

(** ** Claims *)

Definition claim_at (U : hty) (p : N) : option block :=
  if h_size U =? 0 then None else Some (Block p (h_size U) (h_align U)).

Definition claim (E : env) (c : cell) : option block :=
  match c with
  | CBox U w => claim_at U (tp_as_ptr (tgt E) w)
  | CRaw U p | CRust U p => claim_at U p
  | _ => None
  end.

Definition apart_b (b c : block) : Prop := b_base b + b_size b <= b_base c \/ b_base c + b_size c <= b_base b.

Definition apart_o (x y : option block) : Prop :=
  match x, y with Some b, Some c => apart_b b c | _, _ => True end.

Definition sized (x : option block) : Prop := match x with Some b => b_size b <> 0 | None => True end.

Definition live (x : option block) (s : st) : Prop := match x with Some b => In b (blocks s) | None => True end.

(** The block is still there, with the same contents. *)
Definition same_on (x : option block) (s s' : st) : Prop :=
  match x with
  | None => True
  | Some b => In b (blocks s') /\ forall q, b_base b <= q < b_base b + b_size b -> bytes s' q = bytes s q
  end.

Lemma same_on_refl x s : live x s -> same_on x s s.
Proof. destruct x; cbn; auto. Qed.

Lemma same_on_trans x s1 s2 s3 : same_on x s1 s2 -> same_on x s2 s3 -> same_on x s1 s3.
Proof.
  destruct x as [b|]; cbn; [|auto]. intros [_ H1] [H2 H3]. split; [exact H2|]. intros q Q. rewrite H3, H1 by exact Q. reflexivity.
Qed.

Lemma apart_o_sym x y : apart_o x y -> apart_o y x.
Proof. destruct x, y; cbn; unfold apart_b; tauto. Qed.

Lemma claim_at_sized U p : sized (claim_at U p).
Proof. unfold claim_at. destruct (N.eqb_spec (h_size U) 0); cbn; auto. Qed.

Lemma claim_sized E c : sized (claim E c).
Proof. destruct c; cbn [claim]; try exact I; apply claim_at_sized. Qed.

(** ** Code between the moves of others *)

(** What the accesses of a call add up to. *)
Record effects : Type := Eff { e_out : bool; e_died : list (string * leafval); e_got : nat; e_gave : nat }.
Definition no_effects : effects := Eff false [] 0 0.

Definition effect {X : Type} (a : act X) : X -> effects -> effects :=
  match a in act X return X -> effects -> effects with
  | AAlloc _ _ => fun p e => match p with
                             | None => Eff true (e_died e) (e_got e) (e_gave e)
                             | Some _ => Eff (e_out e) (e_died e) (S (e_got e)) (e_gave e)
                             end
  | AFree _ _ _ => fun _ e => Eff (e_out e) (e_died e) (e_got e) (S (e_gave e))
  | ADrop U v => fun _ e => Eff (e_out e) (e_died e ++ destructors U v) (e_got e) (e_gave e)
  | _ => fun _ e => e
  end.

Lemma effect_out {X} (a : act X) x e : e_out (effect a x e) = e_out e || out_of_memory a x.
Proof. destruct a; cbn; try (rewrite orb_false_r; reflexivity). destruct x; cbn; [rewrite orb_false_r|rewrite orb_true_r]; reflexivity. Qed.

Definition inside (p n : N) (x : option block) : Prop :=
  match x with Some b => b_base b <= p /\ p + n <= b_base b + b_size b | None => False end.

(** [R]: the block the call may look at; [B]: the block it may change. *)
Definition permitted {X : Type} (a : act X) (R B : option block) : Prop :=
  match touches a with
  | None => True
  | Some (TRead p n) => inside p n R \/ inside p n B
  | Some (TWrite p n) => inside p n B
  end.

(** An access that leaves all memory but [B] alone; afterwards the call owns [B']. *)
Definition guarantee (B B' : option block) (s s' : st) : Prop :=
  (forall c, In c (blocks s) -> apart_o B (Some c) -> same_on (Some c) s s') /\
  sized B' /\ live B' s' /\ (B' = None \/ B' = B \/ forall c, In c (blocks s) -> apart_o B' (Some c)).

Section Wp.
Variable E : env.
Hypothesis HE : env_ok E.

(** Running [m] while others do what they like outside [R] and [B]. *)
Fixpoint wp {A} (m : code A) (e : effects) (R B : option block) (s : st)
    (Q : effects -> A -> option block -> st -> Prop) (P : effects -> panic -> option block -> st -> Prop) : Prop :=
  match m with
  | CRet a => Q e a B s
  | CPanic q => P e q B s
  | CStep X a k => permitted a R B /\ forall s', same_on R s s' -> same_on B s s' ->
      exists x s'' B', run_act E a s' = Ok x s'' /\ guarantee B B' s' s'' /\ wp (k x) (effect a x e) R B' s'' Q P
  end.

Lemma wp_stable {A} (m : code A) e R B s s' (Q : effects -> A -> option block -> st -> Prop)
    (P : effects -> panic -> option block -> st -> Prop) :
  (forall e a B s s', Q e a B s -> same_on R s s' -> same_on B s s' -> Q e a B s') ->
  (forall e q B s s', P e q B s -> same_on R s s' -> same_on B s s' -> P e q B s') ->
  wp m e R B s Q P -> same_on R s s' -> same_on B s s' -> wp m e R B s' Q P.
Proof.
  intros HQ HP. destruct m as [a|q|X a k]; cbn [wp]; [apply HQ|apply HP|].
  intros [H1 H] SR SB. split; [exact H1|]. intros s1 R1 B1. apply H; eauto using same_on_trans.
Qed.

(** ** Homes *)

(** Room for a value of type [U] at [p]. *)
Record room (s : st) (U : hty) (p : N) : Prop := {
  rm_legal : layout_legal U;
  rm_nonnull : p <> 0;
  rm_aligned : p mod h_align U = 0;
  rm_block : h_size U <> 0 -> In (Block p (h_size U) (h_align U)) (blocks s);
  rm_width : p <= max_pointer_value (cfg (tgt E));
  rm_addr : p < 2 ^ ptr_bits (tgt E)
}.

Lemma home_room s U p v : home E s U p v -> room s U p.
Proof.
  intros [H1 H2 H3 H4 H5]. apply read_at_inv in H2 as (_ & (A1 & A2 & _) & _). constructor; assumption.
Qed.

Lemma home_same s s' U p v : home E s U p v -> same_on (claim_at U p) s s' -> home E s' U p v.
Proof.
  intros H S. unfold claim_at in S. apply (home_keep E s); [exact H| |].
  - intros Z. destruct (N.eqb_spec (h_size U) 0); [contradiction|]. apply S.
  - intros q Q. destruct (N.eqb_spec (h_size U) 0); [lia|]. apply S. exact Q.
Qed.

Lemma room_same s s' U p : room s U p -> same_on (claim_at U p) s s' -> room s' U p.
Proof.
  intros [H1 H2 H3 H4 H5 H6] S. constructor; try assumption. intros Z. unfold claim_at in S.
  destruct (N.eqb_spec (h_size U) 0); [contradiction|]. apply S.
Qed.

Lemma room_live s U p : room s U p -> live (claim_at U p) s.
Proof. intros H. unfold claim_at. destruct (N.eqb_spec (h_size U) 0) as [Z|Z]; cbn; [exact I|apply (rm_block _ _ _ H Z)]. Qed.

Lemma room_access s U p : room s U p -> can_access s U p.
Proof.
  intros [H1 H2 H3 H4 H5 H6]. split; [exact H2|]. split; [exact H3|]. unfold accessible. apply orb_true_iff.
  destruct (N.eqb_spec (h_size U) 0) as [Z|Z]; [left; reflexivity|right]. apply existsb_exists. eexists. split; [exact (H4 Z)|].
  unfold block_contains. cbn [b_base b_size]. rewrite !N.leb_refl. reflexivity.
Qed.

Lemma inside_claim U p : h_size U <> 0 -> inside p (h_size U) (claim_at U p).
Proof. intros Z. unfold claim_at. destruct (N.eqb_spec (h_size U) 0); [contradiction|]. cbn. lia. Qed.

Lemma guarantee_still B s e : sized B -> live B s -> guarantee B B s (St (bytes s) (blocks s) e).
Proof.
  intros Z L. split; [intros c C _; cbn; auto|]. split; [exact Z|]. split; [exact L|auto].
Qed.

Lemma guarantee_refl B s : sized B -> live B s -> guarantee B B s s.
Proof. intros Z L. destruct s. apply guarantee_still; assumption. Qed.

Lemma same_on_live x s s' : same_on x s s' -> live x s'.
Proof. destruct x; cbn; tauto. Qed.

Lemma wp_read {A} U p v (k : hval -> code A) e R B s Q P : home E s U p v -> claim_at U p = B \/ claim_at U p = R -> sized B ->
  (forall s', home E s' U p v -> same_on R s s' -> same_on B s s' -> wp (k v) e R B s' Q P) -> wp (CStep _ (ARead U p) k) e R B s Q P.
Proof.
  intros H C Z K. cbn [wp]. split.
  - unfold permitted, touches. destruct (N.eqb_spec (h_size U) 0) as [Y|Y]; [exact I|].
    destruct C as [<- | <-]; [right|left]; apply inside_claim, Y.
  - intros s' SR SB. assert (H' : home E s' U p v) by (apply (home_same s); [exact H|destruct C as [-> | ->]; assumption]).
    exists v, s', B. split; [exact (hm_read _ _ _ _ _ H')|]. split; [apply guarantee_refl; [exact Z|exact (same_on_live _ _ _ SB)]|].
    cbn [effect]. apply K; assumption.
Qed.

Lemma wp_drop {A} U v (k : unit -> code A) e R B s Q P : sized B ->
  (forall s', same_on R s s' -> same_on B s s' -> wp (k tt) (effect (ADrop U v) tt e) R B s' Q P) ->
  wp (CStep _ (ADrop U v) k) e R B s Q P.
Proof.
  intros Z K. cbn [wp]. split; [exact I|]. intros s' SR SB. exists tt. eexists. exists B. split; [reflexivity|].
  split; [apply guarantee_still; [exact Z|exact (same_on_live _ _ _ SB)]|]. apply K.
  - destruct R as [r|]; cbn in *; tauto.
  - destruct B as [b|]; cbn in *; tauto.
Qed.

Lemma wp_write {A} U p v (k : unit -> code A) e s Q P : room s U p -> hval_ok U v ->
  (forall s', home E s' U p v -> wp (k tt) e None (claim_at U p) s' Q P) ->
  wp (CStep _ (AWrite U p v) k) e None (claim_at U p) s Q P.
Proof.
  intros H V K. cbn [wp]. split.
  - unfold permitted, touches. destruct (N.eqb_spec (h_size U) 0) as [Y|Y]; [exact I|]. apply inside_claim, Y.
  - intros s' _ SB. pose proof (room_same _ _ _ _ H SB) as H'. exists tt. eexists. exists (claim_at U p).
    cbn [run_act]. rewrite write_at_eq by apply room_access, H'. split; [reflexivity|]. split.
    + split; [|split; [apply claim_at_sized|split; [|auto]]].
      * intros c C Ap. split; [exact C|]. intros q Q'. cbn [bytes]. apply write_mem_other; [exact V|apply H'|].
        unfold claim_at in Ap. destruct (N.eqb_spec (h_size U) 0) as [Y|Y]; [lia|]. cbn in Ap. unfold apart_b in Ap. cbn in Ap. lia.
      * apply room_live in H'. unfold claim_at in *. destruct (h_size U =? 0); [exact I|]. exact H'.
    + apply K. pose proof (room_access _ _ _ H') as Ca. destruct H' as [H1 H2 H3 H4 H5 H6]. constructor; try assumption.
      rewrite read_at_eq by exact Ca. cbn [bytes]. rewrite read_write_mem by assumption. reflexivity.
Qed.

Lemma wp_alloc {A} U (k : option N -> code A) e s Q P : layout_legal U -> h_size U <> 0 ->
  (forall s', wp (k None) (Eff true (e_died e) (e_got e) (e_gave e)) None None s' Q P) ->
  (forall p s', room s' U p -> wp (k (Some p)) (Eff (e_out e) (e_died e) (S (e_got e)) (e_gave e)) None (claim_at U p) s' Q P) ->
  wp (CStep _ (AAlloc (h_size U) (h_align U)) k) e None None s Q P.
Proof.
  intros L Z K1 K2. cbn [wp]. split; [exact I|]. intros s' _ _. cbn [run_act]. unfold alloc.
  destruct (alloc_fn E s' (h_size U) (h_align U)) as [p|] eqn:Al.
  - assert (Z' : 0 < h_size U) by lia. destruct (eo_alloc E HE _ _ _ _ Z' (ll_align U L) Al) as (A1 & A2 & A3 & A4).
    assert (C : claim_at U p = Some (Block p (h_size U) (h_align U))) by (unfold claim_at; destruct (N.eqb_spec (h_size U) 0); [contradiction|reflexivity]).
    exists (Some p). eexists. exists (claim_at U p). split; [reflexivity|]. split.
    + split; [|split; [apply claim_at_sized|split; [rewrite C; left; reflexivity|]]].
      * intros c Hc _. split; [right; exact Hc|]. intros q Hq. cbn [bytes]. unfold undef_range. specialize (A4 c Hc).
        destruct (N.leb_spec p q), (N.ltb_spec q (p + h_size U)); cbn; try reflexivity. lia.
      * right. right. intros c Hc. rewrite C. cbn. unfold apart_b. cbn. exact (A4 c Hc).
    + cbn [effect]. apply K2. constructor; try assumption; [intros _; left; reflexivity| |].
      * exact (eo_fits E HE _ _ _ _ Z' (ll_align U L) Al).
      * lia.
  - exists None, s', None. split; [reflexivity|]. split; [apply guarantee_refl; exact I|]. cbn [effect]. apply K1.
Qed.

Lemma wp_free {A} U p (k : unit -> code A) e s Q P : room s U p -> h_size U <> 0 ->
  (forall s', wp (k tt) (Eff (e_out e) (e_died e) (e_got e) (S (e_gave e))) None None s' Q P) ->
  wp (CStep _ (AFree p (h_size U) (h_align U)) k) e None (claim_at U p) s Q P.
Proof.
  intros H Z K. cbn [wp]. split; [unfold permitted; cbn [touches]; apply inside_claim, Z|]. intros s' _ SB.
  pose proof (room_same _ _ _ _ H SB) as H'. exists tt. eexists. exists None. cbn [run_act].
  rewrite dealloc_ok by exact (rm_block _ _ _ H' Z). split; [reflexivity|]. split; [|cbn [effect]; apply K].
  split; [|split; [exact I|split; [exact I|left; reflexivity]]].
  intros c C Ap. split; [|reflexivity]. cbn [blocks]. apply remove_block_other; [exact C|]. intros ->.
  unfold claim_at in Ap. destruct (N.eqb_spec (h_size U) 0); [contradiction|]. cbn in Ap. unfold apart_b in Ap. cbn in Ap. lia.
Qed.

(** ** The calls *)

(** After the call the client sees [x] and the variable holds [c']; at this moment the specification can
    make the call, from whatever the other variables are then. *)
Definition ok_after (o : op) (y : option acell) (e : effects) (x : obs) (c' : cell) (B : option block) (s : st) : Prop :=
  (claim E c' = B \/ claim E c' = None) /\
  forall a, match target_of o with Some i => nth_error (cells a) i = y | None => True end ->
  exists a' y' l, astep (e_out e) o a = Some (x, a') /\
    cells a' = match target_of o with Some i => put i y' (cells a) | None => cells a ++ [y'] end /\
    rel E s c' y' /\ dead a' = dead a ++ l /\ dead_destructors l = e_died e /\
    made a' = (made a + e_got e)%nat /\ freed a' = (freed a + e_gave e)%nat.

Lemma put_id {A} (l : list A) : forall i x, nth_error l i = Some x -> put i x l = l.
Proof.
  induction l as [|z l IH]; intros [|i] x H; cbn in *; try reflexivity; [congruence|rewrite IH by exact H; reflexivity].
Qed.

Lemma from_raw_done p d : p <= max_pointer_value (cfg (tgt E)) -> p < 2 ^ ptr_bits (tgt E) -> d <= max_discriminant (cfg (tgt E)) ->
  exists w, tp_new (tgt E) p d = Done w /\ tp_as_ptr (tgt E) w = p /\ tp_discriminant (tgt E) w = d.
Proof.
  intros H1 H2 H3. destruct (C16_into_from E p d (St (fun _ => Undef) [] []) (eo_target E HE) H1 H2 H3) as (w & W1 & W2 & W3).
  exists w. split; [|split; [exact W2|exact W3]]. unfold tb_from_raw, of_outcome in W1.
  destruct (tp_new (tgt E) p d) as [w'|q]; unfold ret, raise in W1; congruence.
Qed.

Lemma dangling_done U val d : layout_legal U -> hval_ok U val -> d <= max_discriminant (cfg (tgt E)) -> h_size U = 0 ->
  tp_as_ptr (tgt E) (tb_dangling E (h_align U) d) = h_align U /\ tp_discriminant (tgt E) (tb_dangling E (h_align U) d) = d.
Proof.
  intros L V D Z. destruct HE as [Ht Ha Hf _].
  destruct (tb_new_spec E Ht Ha U val d (St (fun _ => Undef) [] []) Hf L V D) as [(_ & w & H1 & H2 & A & _)|[(N0 & _)|(N0 & _)]];
    try contradiction.
  rewrite tb_new_zst in H1 by exact Z. injection H1 as <-. split; assumption.
Qed.

Lemma new_wp u U val d s x : layout_legal U -> hval_ok U val -> d <= max_discriminant (cfg (tgt E)) ->
  exists m, c_call E (NewBox u U val d) x = Some m /\
    wp m no_effects None None s (fun e xc B s => ok_after (NewBox u U val d) None e (fst xc) (snd xc) B s)
      (fun e q B s => ok_after (NewBox u U val d) None e (SawPanic q) CGone B s).
Proof.
  intros L V D. cbn [c_call]. eexists. split; [reflexivity|]. unfold c_new.
  destruct (N.eqb_spec (h_size U) 0) as [Z|Z].
  - apply wp_drop; [exact I|]. intros s' _ _. cbn [wp fst snd]. split.
    + right. cbn [claim]. unfold claim_at. rewrite Z. reflexivity.
    + intros a _. cbn [target_of astep]. rewrite Z. cbn [N.eqb]. do 3 eexists. split; [reflexivity|]. split; [reflexivity|].
      destruct (dangling_done U val d L V D Z) as [D1 D2].
      split; [cbn [rel]; split; [reflexivity|]; split; [exact D2|rewrite D1; apply zst_home; assumption]|].
      split; [reflexivity|]. cbn. rewrite app_nil_r, !Nat.add_0_r. auto.
  - apply wp_alloc; [exact L|exact Z| |].
    + intros s'. apply wp_drop; [exact I|]. intros s1 _ _. cbn [wp]. split; [right; reflexivity|].
      intros a _. cbn [target_of astep]. destruct (N.eqb_spec (h_size U) 0) as [Z'|_]; [contradiction|].
      do 3 eexists. split; [reflexivity|]. split; [reflexivity|]. split; [exact I|].
      split; [reflexivity|]. cbn. rewrite app_nil_r, !Nat.add_0_r. auto.
    + intros p s' Hr. apply wp_write; [exact Hr|exact V|]. intros s1 Hh.
      destruct (from_raw_done p d (hm_width _ _ _ _ _ Hh) (hm_addr _ _ _ _ _ Hh) D) as (w & W1 & W2 & W3). rewrite W1.
      cbn [wp fst snd]. split; [left; cbn [claim]; rewrite W2; reflexivity|].
      intros a _. cbn [target_of astep]. destruct (N.eqb_spec (h_size U) 0) as [Z'|_]; [contradiction|].
      do 3 eexists. split; [reflexivity|]. split; [reflexivity|].
      split; [cbn [rel]; split; [reflexivity|]; split; [exact W3|rewrite W2; exact Hh]|].
      split; [cbn [dead]; rewrite app_nil_r; reflexivity|]. cbn. rewrite Nat.add_0_r, Nat.add_1_r. auto.
Qed.

Lemma wp_assign U p v val (k : code (obs * cell)) s Q P : home E s U p v -> hval_ok U val ->
  (forall s', home E s' U p val -> wp k (Eff false (destructors U v) 0 0) None (claim_at U p) s' Q P) ->
  wp (c_assign U p val k) no_effects None (claim_at U p) s Q P.
Proof.
  intros H V K. unfold c_assign. eapply wp_read; [exact H|left; reflexivity|apply claim_at_sized|]. intros s1 H1 _ _.
  apply wp_drop; [apply claim_at_sized|]. intros s2 _ S2.
  apply wp_write; [eapply room_same; [exact (home_room _ _ _ _ H1)|exact S2]|exact V|]. intros s3 H3. apply K, H3.
Qed.

Lemma wp_c_free {A} U p v (k : code A) e s Q P : home E s U p v ->
  (forall s', wp k (Eff (e_out e) (e_died e) (e_got e) (if h_size U =? 0 then e_gave e else S (e_gave e))) None None s' Q P) ->
  wp (c_free U p k) e None (claim_at U p) s Q P.
Proof.
  intros H K. unfold c_free. destruct (N.eqb_spec (h_size U) 0) as [Z|Z].
  - assert (C : claim_at U p = None) by (unfold claim_at; rewrite Z; reflexivity). rewrite C. destruct e. apply K.
  - apply wp_free; [exact (home_room _ _ _ _ H)|exact Z|]. intros s'. apply K.
Qed.

Ltac done_read :=
  cbn [wp fst snd]; split; [left; reflexivity|]; intros a1 Ha; cbn [target_of] in *; cbn [astep]; rewrite Ha;
  do 2 eexists; exists []; split; [reflexivity|]; split; [symmetry; apply put_id, Ha|]; cbn [rel]; rewrite app_nil_r; cbn;
  rewrite !Nat.add_0_r; auto 8.
Ltac done_set :=
  cbn [wp fst snd]; split; [first [left; reflexivity|right; reflexivity]|]; intros a1 Ha; cbn [target_of] in *; cbn [astep]; rewrite Ha;
  do 3 eexists; split; [reflexivity|]; split; [reflexivity|]; cbn [rel];
  (split; [first [exact I|auto 8]|]);
  (split; [first [reflexivity|symmetry; apply app_nil_r]|]); cbn; rewrite ?app_nil_r, ?Nat.add_0_r; repeat split; auto.

Lemma call_wp o a i c y s : target_of o = Some i -> nth_error (cells a) i = Some y -> contract E a o ->
  astep false o a <> None -> rel E s c y ->
  exists m, c_call E o (Some c) = Some m /\
    wp m no_effects None (claim E c) s (fun e xc B s => ok_after o (Some y) e (fst xc) (snd xc) B s) (fun _ _ _ _ => False).
Proof.
  intros T Hy Hc Hn R. destruct o as [u U val d|j|j|j|j f|j val|j|j|j d|j|j|j|j|j|j|j|j val|j|j val];
    cbn [target_of] in T; try discriminate; injection T as ->;
    cbn [astep contract] in *; rewrite Hy in *;
    destruct y as [U id v d0|U id v|U id v|U id v|]; try contradiction;
    destruct c as [U' w|U' p|U' p|U' v'|]; cbn [rel] in R; try contradiction;
    cbn [c_call]; eexists; (split; [reflexivity|]); cbn [claim];
    change (tp_ref_addr (tgt E)) with (tp_as_ptr (tgt E));
    change (tp_mut_ref_addr (tgt E)) with (tp_as_ptr (tgt E));
    change (tb_as_mut_ptr E) with (tp_as_ptr (tgt E));
    change (tb_as_ptr E) with (tp_as_ptr (tgt E));
    change (tb_into_raw E) with (tp_as_ptr (tgt E));
    change (tb_into_box E) with (tp_as_ptr (tgt E)).
  - (* Read *) destruct R as (-> & Rd & Rh). eapply wp_read; [exact Rh|left; reflexivity|apply claim_at_sized|]. intros s1 H1 _ _. done_read.
  - (* ReadPtr *) destruct R as (-> & Rd & Rh). eapply wp_read; [exact Rh|left; reflexivity|apply claim_at_sized|]. intros s1 H1 _ _. done_read.
  - (* Tag *) destruct R as (-> & Rd & Rh). change (tb_discriminant E w) with (tp_discriminant (tgt E) w). rewrite Rd. done_read.
  - (* Modify *) destruct R as (-> & Rd & Rh). eapply wp_read; [exact Rh|left; reflexivity|apply claim_at_sized|]. intros s1 H1 _ _.
    apply wp_write; [exact (home_room _ _ _ _ H1)|exact Hc|]. intros s2 H2. done_set.
  - (* Assign *) destruct R as (-> & Rd & Rh). eapply wp_assign; [exact Rh|exact Hc|]. intros s1 H1. done_set.
  - (* IntoInner *) destruct R as (-> & Rd & Rh). eapply wp_read; [exact Rh|left; reflexivity|apply claim_at_sized|]. intros s1 H1 _ _. done_set.
  - (* IntoRaw *) destruct R as (-> & Rd & Rh). done_set.
  - (* FromRaw *) destruct R as (-> & Rh). destruct (from_raw_done p d (hm_width _ _ _ _ _ Rh) (hm_addr _ _ _ _ _ Rh) Hc) as (w & W1 & W2 & W3).
    rewrite W1. cbn [wp fst snd]. split; [left; cbn [claim]; rewrite W2; reflexivity|]. intros a1 Ha. cbn [target_of] in *. cbn [astep]. rewrite Ha.
    do 2 eexists. exists []. split; [reflexivity|]. split; [reflexivity|]. cbn [rel]. rewrite W2. rewrite app_nil_r. cbn. rewrite !Nat.add_0_r. auto 8.
  - (* IntoBox *) destruct R as (-> & Rd & Rh). done_set.
  - (* RawToBox *) destruct R as (-> & Rh). done_set.
  - (* RustRead *) destruct R as (-> & Rh). eapply wp_read; [exact Rh|left; reflexivity|apply claim_at_sized|]. intros s1 H1 _ _. done_read.
  - (* RustDrop *) destruct R as (-> & Rh). eapply wp_read; [exact Rh|left; reflexivity|apply claim_at_sized|]. intros s1 H1 _ _.
    apply wp_drop; [apply claim_at_sized|]. intros s2 _ S2. eapply wp_c_free; [eapply home_same; [exact H1|exact S2]|]. intros s3.
    done_set; destruct (h_size U =? 0); lia.
  - (* RustUnbox *) destruct R as (-> & Rh). eapply wp_read; [exact Rh|left; reflexivity|apply claim_at_sized|]. intros s1 H1 _ _.
    eapply wp_c_free; [exact H1|]. intros s3. done_set; destruct (h_size U =? 0); lia.
  - (* DropBox *) destruct R as (-> & Rd & Rh). done_set.
  - (* DropValue *) destruct R as (-> & ->). apply wp_drop; [exact I|]. intros s1 _ _. done_set.
  - (* AssignPtr *) destruct R as (-> & Rd & Rh). eapply wp_assign; [exact Rh|exact Hc|]. intros s1 H1. done_set.
  - (* RawRead *) destruct R as (-> & Rh). eapply wp_read; [exact Rh|left; reflexivity|apply claim_at_sized|]. intros s1 H1 _ _. done_read.
  - (* RawAssign *) destruct R as (-> & Rh). eapply wp_assign; [exact Rh|exact Hc|]. intros s1 H1. done_set.
Qed.

(** A call through a shared reference. *)
Lemma shared_wp o a i c y s : target_of o = Some i -> by_shared_ref o = true -> nth_error (cells a) i = Some y ->
  astep false o a <> None -> rel E s c y ->
  exists m, c_call E o (Some c) = Some m /\
    wp m no_effects (claim E c) None s (fun e xc B s => snd xc = c /\ B = None /\ e = no_effects /\
      forall a fail, nth_error (cells a) i = Some y -> astep fail o a = Some (fst xc, a)) (fun _ _ _ _ => False).
Proof.
  intros T Sh Hy Hn R. destruct o as [u U val d|j|j|j|j f|j val|j|j|j d|j|j|j|j|j|j|j|j val|j|j val];
    try discriminate; injection T as ->;
    cbn [astep contract] in *; rewrite Hy in *;
    destruct y as [U id v d0|U id v|U id v|U id v|]; try contradiction;
    destruct c as [U' w|U' p|U' p|U' v'|]; cbn [rel] in R; try contradiction;
    cbn [c_call]; eexists; (split; [reflexivity|]); cbn [claim];
    change (tp_ref_addr (tgt E)) with (tp_as_ptr (tgt E));
    change (tb_as_ptr E) with (tp_as_ptr (tgt E)); destruct R as (-> & Rd & Rh).
  - eapply wp_read; [exact Rh|right; reflexivity|exact I|]. intros s1 H1 _ _. cbn [wp fst snd].
    do 3 (split; [reflexivity|]). intros a1 b Ha. cbn [astep]. rewrite Ha. reflexivity.
  - eapply wp_read; [exact Rh|right; reflexivity|exact I|]. intros s1 H1 _ _. cbn [wp fst snd].
    do 3 (split; [reflexivity|]). intros a1 b Ha. cbn [astep]. rewrite Ha. reflexivity.
  - change (tb_discriminant E w) with (tp_discriminant (tgt E) w). rewrite Rd. cbn [wp fst snd].
    do 3 (split; [reflexivity|]). intros a1 b Ha. cbn [astep]. rewrite Ha. reflexivity.
Qed.

(** ** Interference *)

Lemma home_none s s' U p v : home E s U p v -> claim_at U p = None -> home E s' U p v.
Proof. intros H C. apply (home_same s); [exact H|]. rewrite C. exact I. Qed.

Lemma rel_same s s' c y : rel E s c y -> same_on (claim E c) s s' -> rel E s' c y.
Proof.
  destruct c, y; cbn [rel claim]; try tauto.
  - intros (H1 & H2 & H3) S. split; [exact H1|]. split; [exact H2|]. exact (home_same _ _ _ _ _ H3 S).
  - intros (H1 & H3) S. split; [exact H1|]. exact (home_same _ _ _ _ _ H3 S).
  - intros (H1 & H3) S. split; [exact H1|]. exact (home_same _ _ _ _ _ H3 S).
Qed.

Lemma ok_after_stable o y e x c B s s' : ok_after o y e x c B s -> same_on B s s' -> ok_after o y e x c B s'.
Proof.
  intros [H1 H2] S. split; [exact H1|]. intros a Ha. destruct (H2 a Ha) as (a' & y' & l & K1 & K2 & K3 & K4).
  exists a', y', l. split; [exact K1|]. split; [exact K2|]. split; [|exact K4].
  eapply rel_same; [exact K3|]. destruct H1 as [-> | ->]; [exact S|exact I].
Qed.

Definition claims : Type := nat + nat -> option block.     (* of variables, of threads *)

Definition claimant_dec (x z : nat + nat) : {x = z} + {x <> z}.
Proof. decide equality; apply Nat.eq_dec. Defined.

Definition upd (C : claims) (x : nat + nat) (v : option block) : claims := fun z => if claimant_dec z x then v else C z.

Lemma upd_same C x v : upd C x v x = v.
Proof. unfold upd. destruct (claimant_dec x x); [reflexivity|contradiction]. Qed.

Lemma upd_other C x v z : z <> x -> upd C x v z = C z.
Proof. intros H. unfold upd. destruct (claimant_dec z x); [contradiction|reflexivity]. Qed.

Definition thread_ok (own : list owner) (vs : list cell) (cs : list acell) (C : claims) (e : effects) (s : st) (t : nat) (j : job) : Prop :=
  match j with
  | Busy o out m k => e_out e = out /\
      match target_of o with
      | None => wp m e None (C (inr t)) s (fun e xc B s => ok_after o None e (fst xc) (snd xc) B s)
                  (fun e q B s => ok_after o None e (SawPanic q) CGone B s)
      | Some i => exists c y, nth_error vs i = Some c /\ nth_error cs i = Some y /\
          ((nth_error own i = Some (By t) /\ C (inl i) = None /\
            wp m e None (C (inr t)) s (fun e xc B s => ok_after o (Some y) e (fst xc) (snd xc) B s) (fun _ _ _ _ => False)) \/
           (nth_error own i = Some Everyone /\ by_shared_ref o = true /\
            wp m e (C (inl i)) (C (inr t)) s (fun e xc B s => snd xc = c /\ B = None /\ e = no_effects /\
              forall a fail, nth_error (cells a) i = Some y -> astep fail o a = Some (fst xc, a)) (fun _ _ _ _ => False)))
      end
  | _ => C (inr t) = None /\ e = no_effects
  end.

(** Others move: nothing this thread relies on changes. *)
Lemma thread_ok_frame own vs cs C e s t j own' vs' cs' C' s' : thread_ok own vs cs C e s t j ->
  (forall o out m k i, j = Busy o out m k -> target_of o = Some i ->
    nth_error own i = Some (By t) \/ nth_error own i = Some Everyone ->
    nth_error own' i = nth_error own i /\ nth_error vs' i = nth_error vs i /\ nth_error cs' i = nth_error cs i /\
    C' (inl i) = C (inl i) /\ same_on (C (inl i)) s s') ->
  C' (inr t) = C (inr t) -> same_on (C (inr t)) s s' -> thread_ok own' vs' cs' C' e s' t j.
Proof.
  intros H F CB SB. destruct j as [p|o out m k|]; cbn [thread_ok] in *; [rewrite CB; exact H| |rewrite CB; exact H].
  destruct H as [H0 H]. split; [exact H0|]. rewrite CB. destruct (target_of o) as [i|] eqn:T.
  - destruct H as (c & y & K1 & K2 & K3).
    destruct (F o out m k i eq_refl T) as (F1 & F2 & F3 & F4 & F5); [destruct K3 as [(K & _)|(K & _)]; auto|].
    exists c, y. rewrite F1, F2, F3, F4. split; [exact K1|]. split; [exact K2|].
    destruct K3 as [(A1 & A2 & A3)|(A1 & A2 & A4)]; [left|right].
    + split; [exact A1|]. split; [exact A2|].
      eapply wp_stable; [| |exact A3|exact I|exact SB]; [|tauto]. intros e1 x B s1 s2 K _ S. eapply ok_after_stable; eassumption.
    + split; [exact A1|]. split; [exact A2|].
      eapply wp_stable; [| |exact A4|exact F5|exact SB]; [|tauto]. intros e1 x B s1 s2 K _ S. exact K.
  - eapply wp_stable; [| |exact H|exact I|exact SB]; intros e1 x B s1 s2 K _ S; eapply ok_after_stable; eassumption.
Qed.

Definition in_use (y : sys) (i : nat) : Prop := exists t h o out m k, nth_error (threads y) t = Some h /\
  doing h = Busy o out m k /\ target_of o = Some i /\ nth_error (owners y) i = Some (By t).

Definition total (f : effects -> nat) (l : list effects) : nat := list_sum (map f l).

(** [s0]: the state at the start. *)
Record claims_ok (s0 s : st) (C : claims) : Prop := {
  ck_apart : forall x z, x <> z -> apart_o (C x) (C z);
  ck_sized : forall x, sized (C x);
  ck_live : forall x, live (C x) s;
  ck_home : forall x b, In b (blocks s0) -> apart_o (C x) (Some b)
}.

Record Inv (s0 : st) (y : sys) (a : asys) (C : claims) (efs : list effects) : Prop := {
  i_len : List.length (vars y) = List.length (cells (plain a));
  i_own : owners y = aowners a;
  i_ownlen : List.length (owners y) = List.length (vars y);
  i_efs : List.length efs = List.length (threads y);
  i_place : Forall2 same_place (threads y) (athreads a);
  i_thr : forall t h e, nth_error (threads y) t = Some h -> nth_error efs t = Some e ->
    thread_ok (owners y) (vars y) (cells (plain a)) C e (memory y) t (doing h);
  i_var : forall i c x, nth_error (vars y) i = Some c -> nth_error (cells (plain a)) i = Some x ->
    in_use y i \/ (rel E (memory y) c x /\ C (inl i) = claim E c);
  i_claims : claims_ok s0 (memory y) C;
  i_base : keeps s0 (memory y);
  i_dead : Permutation (destroyed (events (memory y)))
    (destroyed (events s0) ++ dead_destructors (dead (plain a)) ++ flat_map e_died efs);
  i_blocks : (List.length (blocks (memory y)) + freed (plain a) + total e_gave efs =
    List.length (blocks s0) + made (plain a) + total e_got efs)%nat;
  i_wb : well_behaved E a
}.

(** ** Lists *)

Lemma total_put f l : forall t e e', nth_error l t = Some e -> (total f (put t e' l) + f e = total f l + f e')%nat.
Proof.
  unfold total, list_sum. induction l as [|x l IH]; intros [|t] e e' H; cbn in *; try discriminate.
  - injection H as ->. lia.
  - specialize (IH t e e' H). lia.
Qed.

Lemma died_put {A B} (g : A -> list B) l : forall t e e', nth_error l t = Some e ->
  Permutation (flat_map g (put t e' l) ++ g e) (flat_map g l ++ g e').
Proof.
  induction l as [|x l IH]; intros [|t] e e' H; cbn in *; try discriminate.
  - injection H as ->. etransitivity; [apply Permutation_app_comm|]. rewrite <- (app_assoc (g e)). apply Permutation_app_head, Permutation_app_comm.
  - rewrite <- !app_assoc. apply Permutation_app_head, IH, H.
Qed.

Lemma Forall2_nth {A B} (R : A -> B -> Prop) l l' : Forall2 R l l' -> forall i x, nth_error l i = Some x ->
  exists z, nth_error l' i = Some z /\ R x z.
Proof.
  induction 1 as [|x z l l' H _ IH]; intros [|i] u H0; cbn in *; try discriminate.
  - injection H0 as <-. eauto.
  - eauto.
Qed.

Lemma Forall2_len {A B} (R : A -> B -> Prop) l l' : Forall2 R l l' -> List.length l = List.length l'.
Proof. induction 1; cbn; auto. Qed.

Lemma Forall2_put {A B} (R : A -> B -> Prop) l l' : Forall2 R l l' -> forall i x z, R x z -> Forall2 R (put i x l) (put i z l').
Proof.
  induction 1 as [|x z l l' H H' IH]; intros [|i] u w K; cbn; constructor; auto.
Qed.

Lemma nth_put {A} (l : list A) t x z i : nth_error l t = Some z -> nth_error (put t x l) i = if Nat.eqb i t then Some x else nth_error l i.
Proof.
  intros H. destruct (Nat.eqb_spec i t) as [->|N]; [apply put_same; eapply nth_some_lt, H|apply put_other; auto].
Qed.

(** ** The specification *)

Lemma wb_step a e : well_behaved E a -> exists a', amove e a = Some a' /\ well_behaved E a'.
Proof.
  intros H. destruct (H [e]) as (a' & H1 & _). cbn [amoves] in H1. destruct (amove e a) as [a1|] eqn:A; [|discriminate].
  exists a1. split; [reflexivity|]. intros l. destruct (H (e :: l)) as (a2 & K1 & K2). cbn [amoves] in K1. rewrite A in K1.
  exists a2. split; assumption.
Qed.

Lemma wb_contract a t h o k : well_behaved E a -> nth_error (athreads a) t = Some h -> aprog h = TCall o k ->
  contract E (plain a) o /\ allowed (aowners a) t o = true /\ astep false o (plain a) <> None.
Proof.
  intros H Ht Hp. split.
  - destruct (H []) as (a' & H1 & H2). cbn in H1. injection H1 as <-. specialize (H2 t h Ht). rewrite Hp in H2. exact H2.
  - destruct (wb_step a (t, false) H) as (a' & H1 & _). cbn [amove] in H1. rewrite Ht, Hp in H1.
    destruct (allowed (aowners a) t o); [|discriminate]. split; [reflexivity|]. intros K. rewrite K in H1. discriminate.
Qed.

Lemma act_effects {X} (a : act X) x e s s' : run_act E a s = Ok x s' ->
  exists d, e_died (effect a x e) = e_died e ++ d /\ destroyed (events s') = destroyed (events s) ++ d /\
    (List.length (blocks s') + e_gave (effect a x e) + e_got e = List.length (blocks s) + e_got (effect a x e) + e_gave e)%nat.
Proof.
  destruct a; cbn [run_act effect]; intros H.
  - unfold alloc in H. destruct (alloc_fn E s size align) as [p|]; injection H as <- <-; exists [];
      cbn [e_died e_got e_gave events blocks List.length]; rewrite ?destroyed_app; cbn; rewrite !app_nil_r; repeat split; lia.
  - apply read_at_inv in H as (-> & _). exists []. rewrite !app_nil_r. repeat split; lia.
  - unfold write_at, bind in H. destruct (check_access U p s) as [u s1| |] eqn:CA; try discriminate.
    apply check_access_inv in CA as [-> _]. injection H as <- <-. exists []. cbn. rewrite !app_nil_r. repeat split; lia.
  - unfold dealloc in H. destruct (existsb _ _) eqn:X; [|discriminate]. injection H as <- <-. exists [].
    cbn [e_died e_got e_gave events blocks]. rewrite destroyed_app. cbn. rewrite !app_nil_r. repeat split.
    apply existsb_exists in X as (b & B1 & B2). apply block_eqb_eq in B2. subst b. pose proof (remove_block_length _ _ B1). lia.
  - injection H as <- <-. eexists. split; [reflexivity|]. cbn [e_got e_gave events blocks]. rewrite destroyed_app, destroyed_drop. split; [reflexivity|lia].
Qed.

(** ** Claims *)

Lemma claims_move s0 s C x z v : claims_ok s0 s C -> v = C x \/ v = None -> claims_ok s0 s (upd (upd C x None) z v).
Proof.
  intros [H1 H2 H3 H4] V.
  assert (A : forall u, u <> z -> apart_o v (upd C x None u)).
  { intros u U. destruct V as [-> | ->]; [|exact I]. unfold upd. destruct (claimant_dec u x) as [->|N].
    - destruct (C x); exact I.
    - apply H1. auto. }
  constructor.
  - intros u w N. unfold upd at 1 3. destruct (claimant_dec u z) as [->|Nu], (claimant_dec w z) as [->|Nw]; try contradiction.
    + apply A, Nw.
    + apply apart_o_sym, A, Nu.
    + unfold upd. destruct (claimant_dec u x), (claimant_dec w x); [exact I|exact I|destruct (C u); exact I|apply H1, N].
  - intros u. unfold upd. destruct (claimant_dec u z); [destruct V as [-> | ->]; [apply H2|exact I]|].
    destruct (claimant_dec u x); [exact I|apply H2].
  - intros u. unfold upd. destruct (claimant_dec u z); [destruct V as [-> | ->]; [apply H3|exact I]|].
    destruct (claimant_dec u x); [exact I|apply H3].
  - intros u b B. unfold upd. destruct (claimant_dec u z); [destruct V as [-> | ->]; [apply H4, B|exact I]|].
    destruct (claimant_dec u x); [exact I|apply H4, B].
Qed.

(** An access of the owner of [x]. *)
Lemma claims_act s0 s s' C x B' : claims_ok s0 s C -> keeps s0 s -> guarantee (C x) B' s s' ->
  claims_ok s0 s' (upd C x B') /\ keeps s0 s' /\ forall z, z <> x -> same_on (C z) s s'.
Proof.
  intros [H1 H2 H3 H4] K (G1 & G2 & G3 & G4).
  assert (S : forall z, z <> x -> same_on (C z) s s').
  { intros z N. destruct (C z) as [c|] eqn:Cz; [|exact I]. apply G1; [specialize (H3 z); rewrite Cz in H3; exact H3|].
    rewrite <- Cz. apply H1. auto. }
  split; [|split; [|exact S]].
  - constructor.
    + assert (A : forall z, z <> x -> apart_o B' (C z)).
      { intros z N. destruct G4 as [->|[->|G4]]; [exact I|apply H1; auto|].
        destruct (C z) as [c|] eqn:Cz; [|destruct B'; exact I]. apply G4. specialize (H3 z). rewrite Cz in H3. exact H3. }
      intros u w N. unfold upd. destruct (claimant_dec u x) as [->|Nu], (claimant_dec w x) as [->|Nw]; try contradiction.
      * apply A, Nw.
      * apply apart_o_sym, A, Nu.
      * apply H1, N.
    + intros u. unfold upd. destruct (claimant_dec u x); [exact G2|apply H2].
    + intros u. unfold upd. destruct (claimant_dec u x); [exact G3|]. eapply same_on_live, S. assumption.
    + intros u b B. unfold upd. destruct (claimant_dec u x) as [->|N]; [|apply H4, B].
      destruct G4 as [->|[->|G4]]; [exact I|apply H4, B|apply G4, K, B].
  - intros b B. destruct (K b B) as [K1 K2]. destruct (G1 b K1 (H4 x b B)) as [L1 L2]. split; [exact L1|].
    intros q Q. rewrite L2 by exact Q. apply K2, Q.
Qed.

Lemma in_use_keep y y' t i : in_use y i -> nth_error (owners y') i = nth_error (owners y) i ->
  (forall u h, u <> t -> nth_error (threads y) u = Some h -> exists h', nth_error (threads y') u = Some h' /\ doing h' = doing h) ->
  (forall h o out m k, nth_error (threads y) t = Some h -> doing h = Busy o out m k -> target_of o = Some i ->
    nth_error (owners y) i = Some (By t) ->
    exists h' o' out' m' k', nth_error (threads y') t = Some h' /\ doing h' = Busy o' out' m' k' /\ target_of o' = Some i) ->
  in_use y' i.
Proof.
  intros (u & h & o & out & m & k & H1 & H2 & H3 & H4) HO HT HB. destruct (Nat.eq_dec u t) as [->|N].
  - destruct (HB h o out m k H1 H2 H3 H4) as (h' & o' & out' & m' & k' & K1 & K2 & K3).
    exists t, h', o', out', m', k'. rewrite HO. auto.
  - destruct (HT u h N H1) as (h' & K1 & K2). exists u, h', o, out, m, k. rewrite HO, K2. auto.
Qed.

(** A variable whose owner is not inside a call on it. *)
Lemma at_rest s0 y a C efs i c x : Inv s0 y a C efs -> nth_error (vars y) i = Some c -> nth_error (cells (plain a)) i = Some x ->
  (forall t, nth_error (owners y) i = Some (By t) -> exists h, nth_error (threads y) t = Some h /\
    forall o out m k, doing h = Busy o out m k -> target_of o <> Some i) ->
  rel E (memory y) c x /\ C (inl i) = claim E c.
Proof.
  intros I Hc Hx Hn. destruct (i_var _ _ _ _ _ I i c x Hc Hx) as [U|R]; [|exact R].
  destruct U as (t & h & o & out & m & k & H1 & H2 & H3 & H4). destruct (Hn t H4) as (h' & K1 & K2).
  rewrite H1 in K1. injection K1 as <-. destruct (K2 o out m k H2 H3).
Qed.

Definition advances (s0 : st) (t : nat) (y : sys) (a : asys) : Prop :=
  exists y' f a' C efs, move E t y = Moved y' f /\
    match f with Some e => amove e a = Some a' | None => a' = a end /\ Inv s0 y' a' C efs.

Lemma has_effects s0 y a C efs t h : Inv s0 y a C efs -> nth_error (threads y) t = Some h ->
  exists e, nth_error efs t = Some e /\ thread_ok (owners y) (vars y) (cells (plain a)) C e (memory y) t (doing h).
Proof.
  intros I Ht. pose proof (nth_some_lt _ _ _ Ht) as L. rewrite <- (i_efs _ _ _ _ _ I) in L. apply nth_error_Some in L.
  destruct (nth_error efs t) as [e|] eqn:He; [|contradiction]. exists e. split; [reflexivity|]. eapply i_thr; eassumption.
Qed.

(** ** A call makes an access *)

Lemma step_act s0 y a C efs t h o out X (x : act X) next k : Inv s0 y a C efs -> nth_error (threads y) t = Some h ->
  doing h = Busy o out (CStep X x next) k -> advances s0 t y a.
Proof.
  intros Iv Ht Hd. destruct (has_effects _ _ _ _ _ _ _ Iv Ht) as (e & He & Hok). pose proof Iv as [I1 I2 I3 I4 I5 I6 I7 I8 I9 I10 I11 I12].
  assert (G : exists z s' B', run_act E x (memory y) = Ok z s' /\ guarantee (C (inr t)) B' (memory y) s' /\
    thread_ok (owners y) (vars y) (cells (plain a)) (upd C (inr t) B') (effect x z e) s' t (Busy o (out || out_of_memory x z) (next z) k)).
  { rewrite Hd in Hok. cbn [thread_ok] in *. destruct Hok as [O Hok].
    destruct (target_of o) as [i|].
    - destruct Hok as (c & w & K1 & K2 & [(A1 & A2 & A3)|(A1 & A2 & A4)]).
      + cbn [wp] in A3. destruct A3 as [_ A3].
        destruct (A3 (memory y) Logic.I (same_on_refl _ _ (ck_live _ _ _ I8 _))) as (z & s' & B' & P1 & P2 & P3).
        exists z, s', B'. split; [exact P1|]. split; [exact P2|]. split; [rewrite effect_out, O; reflexivity|].
        exists c, w. split; [exact K1|]. split; [exact K2|]. left. rewrite upd_same, upd_other by discriminate. auto.
      + cbn [wp] in A4. destruct A4 as [_ A4].
        destruct (A4 (memory y) (same_on_refl _ _ (ck_live _ _ _ I8 _)) (same_on_refl _ _ (ck_live _ _ _ I8 _))) as (z & s' & B' & P1 & P2 & P3).
        exists z, s', B'. split; [exact P1|]. split; [exact P2|]. split; [rewrite effect_out, O; reflexivity|].
        exists c, w. split; [exact K1|]. split; [exact K2|]. right. rewrite upd_same, upd_other by discriminate. auto.
    - cbn [wp] in Hok. destruct Hok as [_ A3].
      destruct (A3 (memory y) Logic.I (same_on_refl _ _ (ck_live _ _ _ I8 _))) as (z & s' & B' & P1 & P2 & P3).
      exists z, s', B'. split; [exact P1|]. split; [exact P2|]. split; [rewrite effect_out, O; reflexivity|].
      rewrite upd_same. exact P3. }
  destruct G as (z & s' & B' & G1 & G2 & G3).
  destruct (claims_act _ _ _ _ _ _ I8 I9 G2) as (N1 & N2 & N3).
  destruct (act_effects x z e _ _ G1) as (d & D1 & D2 & D3).
  do 3 eexists. exists (upd C (inr t) B'), (put t (effect x z e) efs). unfold move. rewrite Ht, Hd, G1.
  split; [reflexivity|]. split; [reflexivity|].
  constructor; cbn [vars owners threads memory]; try assumption.
  - rewrite !put_length. exact I4.
  - destruct (Forall2_nth _ _ _ I5 t h Ht) as (ah & A1 & A2). rewrite <- (put_id _ _ _ A1). apply Forall2_put; [exact I5|].
    unfold same_place in *. rewrite Hd in A2. exact A2.
  - intros u h' e' Hu Hue. rewrite (nth_put _ _ _ _ _ Ht) in Hu. rewrite (nth_put _ _ _ _ _ He) in Hue.
    destruct (Nat.eqb_spec u t) as [->|N]; [injection Hu as <-; injection Hue as <-; exact G3|].
    eapply thread_ok_frame; [eapply I6; eassumption| | |].
    + intros o' out' m' k' i _ _ _. rewrite upd_other by discriminate. do 4 (split; [reflexivity|]). apply N3. discriminate.
    + apply upd_other. congruence.
    + apply N3. congruence.
  - intros i c w Hc Hw. destruct (I7 i c w Hc Hw) as [U|[R1 R2]]; [left|right].
    + eapply (in_use_keep _ _ t); [exact U|reflexivity| |]; cbn [with_thread threads].
      * intros u h' N Hu. exists h'. rewrite put_other by auto. auto.
      * intros h' o' out' m' k' Hh Hb T _. rewrite Ht in Hh. injection Hh as <-. rewrite Hd in Hb. injection Hb as <- <- <- <-.
        do 5 eexists. rewrite put_same by (eapply nth_some_lt, Ht). split; [reflexivity|]. split; [reflexivity|exact T].
    + rewrite upd_other by discriminate. split; [|exact R2]. eapply rel_same; [exact R1|]. rewrite <- R2. apply N3. discriminate.
  - rewrite D2. pose proof (died_put e_died efs t e (effect x z e) He) as P. rewrite D1, app_assoc in P.
    rewrite I10, <- !app_assoc. do 2 apply Permutation_app_head.
    apply (Permutation_app_inv_r (e_died e)). rewrite <- app_assoc. rewrite (Permutation_app_comm d).
    rewrite app_assoc. symmetry. exact P.
  - pose proof (total_put e_gave efs t e (effect x z e) He). pose proof (total_put e_got efs t e (effect x z e) He). lia.
Qed.

(** ** A call starts *)

Lemma cell_at s0 y a C efs i x : Inv s0 y a C efs -> nth_error (cells (plain a)) i = Some x -> exists c, nth_error (vars y) i = Some c.
Proof.
  intros Iv Hx. pose proof (nth_some_lt _ _ _ Hx) as L. rewrite <- (i_len _ _ _ _ _ Iv) in L. apply nth_error_Some in L.
  destruct (nth_error (vars y) i) as [c|]; [eauto|contradiction].
Qed.

Lemma owner_at s0 y a C efs i x : Inv s0 y a C efs -> nth_error (owners y) i = Some x -> exists c w, nth_error (vars y) i = Some c /\
  nth_error (cells (plain a)) i = Some w.
Proof.
  intros Iv Hx. pose proof (nth_some_lt _ _ _ Hx) as L. rewrite (i_ownlen _ _ _ _ _ Iv) in L. pose proof L as L'. rewrite (i_len _ _ _ _ _ Iv) in L'.
  apply nth_error_Some in L. apply nth_error_Some in L'.
  destruct (nth_error (vars y) i) as [c|]; [|contradiction]. destruct (nth_error (cells (plain a)) i); [eauto|contradiction].
Qed.

(** Thread [t] starts a call with code [m]; its claims change to [C']. *)
Lemma starts s0 y a C efs t h o m k C' : Inv s0 y a C efs -> nth_error (threads y) t = Some h -> doing h = Idle (TCall o k) ->
  claims_ok s0 (memory y) C' ->
  thread_ok (owners y) (vars y) (cells (plain a)) C' no_effects (memory y) t (Busy o false m k) ->
  (forall u, u <> t -> C' (inr u) = C (inr u)) ->
  (forall i, C' (inl i) = C (inl i) \/ target_of o = Some i /\ nth_error (owners y) i = Some (By t)) ->
  Inv s0 (with_thread t (Thread (Busy o false m k) (mail h) (seen h)) y) a C' efs.
Proof.
  intros Iv Ht Hd HC Hok HU HV. destruct (has_effects _ _ _ _ _ _ _ Iv Ht) as (e & He & Hold). rewrite Hd in Hold.
  destruct Hold as [_ ->]. pose proof Iv as [I1 I2 I3 I4 I5 I6 I7 I8 I9 I10 I11 I12].
  constructor; cbn [with_thread vars owners threads memory]; try assumption.
  - rewrite put_length. exact I4.
  - destruct (Forall2_nth _ _ _ I5 t h Ht) as (ah & A1 & A2). rewrite <- (put_id _ _ _ A1). apply Forall2_put; [exact I5|].
    unfold same_place in *. rewrite Hd in A2. exact A2.
  - intros u h' e' Hu Hue. rewrite (nth_put _ _ _ _ _ Ht) in Hu.
    destruct (Nat.eqb_spec u t) as [->|N]; [injection Hu as <-; rewrite He in Hue; injection Hue as <-; exact Hok|].
    eapply thread_ok_frame; [eapply I6; eassumption| | |].
    + intros o' out' m' k' i _ _ Ho. do 3 (split; [reflexivity|]). split; [|apply same_on_refl, I8].
      destruct (HV i) as [->|[_ K]]; [reflexivity|]. rewrite K in Ho. destruct Ho; congruence.
    + apply HU, N.
    + apply same_on_refl, I8.
  - intros i c w Hc Hw. destruct (HV i) as [HVi|[K1 K2]].
    + destruct (I7 i c w Hc Hw) as [U|[R1 R2]]; [left|right; rewrite HVi; auto].
      eapply (in_use_keep _ _ t); [exact U|reflexivity| |]; cbn [with_thread threads].
      * intros u h' N Hu. exists h'. rewrite put_other by auto. auto.
      * intros h' o' out' m' k' Hh Hb. rewrite Ht in Hh. injection Hh as <-. congruence.
    + left. exists t. do 5 eexists. cbn [with_thread threads owners]. rewrite put_same by (eapply nth_some_lt, Ht). split; [reflexivity|]. cbn [doing]. auto.
Qed.

Lemma step_start s0 y a C efs t h o k : Inv s0 y a C efs -> nth_error (threads y) t = Some h -> doing h = Idle (TCall o k) ->
  advances s0 t y a.
Proof.
  intros Iv Ht Hd. pose proof Iv as [I1 I2 I3 I4 I5 I6 I7 I8 I9 I10 I11 I12].
  destruct (Forall2_nth _ _ _ I5 t h Ht) as (ah & A1 & A2). unfold same_place in A2. rewrite Hd in A2. destruct A2 as (_ & _ & A2).
  destruct (wb_contract a t ah o k I12 A1 A2) as (W1 & W2 & W3). rewrite <- I2 in W2.
  destruct (has_effects _ _ _ _ _ _ _ Iv Ht) as (e & He & Hold). rewrite Hd in Hold. destruct Hold as [Hold _].
  assert (G : exists m C', c_call E o (match target_of o with Some i => nth_error (vars y) i | None => None end) = Some m /\
    claims_ok s0 (memory y) C' /\ thread_ok (owners y) (vars y) (cells (plain a)) C' no_effects (memory y) t (Busy o false m k) /\
    (forall u, u <> t -> C' (inr u) = C (inr u)) /\
    (forall i, C' (inl i) = C (inl i) \/ target_of o = Some i /\ nth_error (owners y) i = Some (By t))).
  { cbn [thread_ok]. unfold allowed in W2. destruct (target_of o) as [i|] eqn:T.
    - destruct (nth_error (owners y) i) as [w|] eqn:Ho; [|discriminate].
      destruct (owner_at _ _ _ _ _ i w Iv Ho) as (c & x & Hc & Hx).
      assert (R : rel E (memory y) c x /\ C (inl i) = claim E c).
      { apply (at_rest s0 y a C efs i c x Iv Hc Hx). intros t1 Ht1. rewrite Ho in Ht1. injection Ht1 as ->.
        apply Nat.eqb_eq in W2. subst t1.
        exists h. split; [exact Ht|]. rewrite Hd. discriminate. }
      destruct R as [R1 R2]. rewrite Hc. destruct w as [t'|].
      + destruct (Nat.eqb_spec t t') as [<-|]; [|discriminate].
        destruct (call_wp o (plain a) i c x (memory y) T Hx W1 W3 R1) as (m & M1 & M2).
        exists m, (upd (upd C (inl i) None) (inr t) (C (inl i))). split; [exact M1|]. split; [apply claims_move; auto|].
        rewrite upd_same. split; [|split].
        * split; [reflexivity|]. exists c, x. split; [first [exact Hc|reflexivity]|]. split; [first [exact Hx|reflexivity]|]. left. split; [first [exact Ho|reflexivity]|].
          rewrite upd_other, upd_same by discriminate. split; [reflexivity|]. rewrite R2. exact M2.
        * intros u N. rewrite !upd_other by congruence. reflexivity.
        * intros j. destruct (Nat.eq_dec j i) as [->|N]; [right; auto|left]. rewrite !upd_other by congruence. reflexivity.
      + destruct (shared_wp o (plain a) i c x (memory y) T W2 Hx W3 R1) as (m & M1 & M2).
        exists m, C. split; [exact M1|]. split; [exact I8|]. split; [|auto].
        split; [reflexivity|]. exists c, x. split; [first [exact Hc|reflexivity]|]. split; [first [exact Hx|reflexivity]|]. right. split; [first [exact Ho|reflexivity]|]. split; [exact W2|].
        rewrite Hold, R2. exact M2.
    - destruct o; try discriminate. destruct W1 as (L & V & D).
      destruct (new_wp unchecked U val d (memory y) None L V D) as (m & M1 & M2).
      exists m, C. split; [exact M1|]. split; [exact I8|]. split; [|auto]. split; [reflexivity|]. rewrite Hold. exact M2. }
  destruct G as (m & C' & G1 & G2 & G3 & G4 & G5).
  do 3 eexists. exists C', efs. unfold move. rewrite Ht, Hd, W2, G1. split; [reflexivity|]. split; [reflexivity|].
  eapply starts; eassumption.
Qed.

(** ** A call returns *)

Lemma step_return s0 y a C efs t h o out m k : Inv s0 y a C efs -> nth_error (threads y) t = Some h ->
  doing h = Busy o out m k -> (forall X x next, m <> CStep X x next) -> advances s0 t y a.
Proof.
  intros Iv Ht Hd Hm. destruct (has_effects _ _ _ _ _ _ _ Iv Ht) as (e & He & Hok). pose proof Iv as [I1 I2 I3 I4 I5 I6 I7 I8 I9 I10 I11 I12].
  destruct (Forall2_nth _ _ _ I5 t h Ht) as (ah & A1 & A2). unfold same_place in A2. rewrite Hd in A2. destruct A2 as (S1 & S2 & A2).
  destruct (wb_contract a t ah o k I12 A1 A2) as (_ & W2 & _).
  rewrite Hd in Hok. cbn [thread_ok] in Hok. destruct Hok as [O Hok].
  destruct (wb_step a (t, out) I12) as (a1 & W5 & W6).
  pose proof W5 as W5'. cbn [amove] in W5'. rewrite A1, A2, W2 in W5'.
  destruct (target_of o) as [i|] eqn:T.
  - destruct Hok as (c & x & Hc & Hx & [(K1 & K2 & K3)|(K1 & K2 & K3)]).
    + destruct m as [[v c']|q|X z next]; [|destruct K3|destruct (Hm X z next eq_refl)].
      cbn [wp fst snd] in K3. destruct K3 as [Cl K3]. rewrite T in K3. destruct (K3 (plain a) Hx) as (a' & x' & l & P1 & P2 & P3 & P4 & P5 & P6 & P7).
      rewrite O in P1. rewrite P1 in W5'. injection W5' as W5'.
      do 3 eexists. exists (upd (upd C (inr t) None) (inl i) (claim E c')), (put t no_effects efs).
      unfold move. rewrite Ht, Hd. split; [reflexivity|]. split; [exact W5|]. subst a1.
      unfold returns. rewrite T.
      constructor; cbn [vars owners threads memory plain aowners athreads]; try assumption.
      * rewrite P2, !put_length. exact I1.
      * rewrite put_length. exact I3.
      * rewrite !put_length. exact I4.
      * apply Forall2_put; [exact I5|]. unfold same_place. cbn. rewrite S1, S2. auto.
      * intros u h' e' Hu Hue. rewrite (nth_put _ _ _ _ _ Ht) in Hu. rewrite (nth_put _ _ _ _ _ He) in Hue.
        destruct (Nat.eqb_spec u t) as [->|N].
        -- injection Hu as <-. injection Hue as <-. cbn [thread_ok doing]. rewrite upd_other by discriminate. rewrite upd_same. auto.
        -- eapply thread_ok_frame; [eapply I6; eassumption| | |].
           ++ intros o' out' m' k' j _ _ Ho. assert (Nj : j <> i) by (intros ->; rewrite K1 in Ho; destruct Ho; congruence).
              rewrite P2, !put_other, !upd_other by congruence. do 4 (split; [reflexivity|]). apply same_on_refl, I8.
           ++ rewrite !upd_other by congruence. reflexivity.
           ++ apply same_on_refl, I8.
      * intros j c0 x0 Hc0 Hx0. destruct (Nat.eq_dec j i) as [->|Nj].
        -- right. rewrite put_same in Hc0 by (eapply nth_some_lt, Hc). rewrite P2, put_same in Hx0 by (eapply nth_some_lt, Hx).
           injection Hc0 as <-. injection Hx0 as <-. rewrite upd_same. auto.
        -- rewrite put_other in Hc0 by auto. rewrite P2, put_other in Hx0 by auto. rewrite !upd_other by congruence.
           destruct (I7 j c0 x0 Hc0 Hx0) as [U|R]; [left|right; exact R].
           eapply (in_use_keep _ _ t); [exact U|reflexivity| |]; cbn [with_thread threads].
           ++ intros u h' N Hu. exists h'. rewrite put_other by auto. auto.
           ++ intros h' o' out' m' k' Hh Hb. rewrite Ht in Hh. injection Hh as <-. congruence.
      * apply claims_move; [exact I8|]. exact Cl.
      * rewrite I10, P4. unfold dead_destructors at 2. rewrite flat_map_app, <- !app_assoc. do 2 apply Permutation_app_head.
        fold (dead_destructors l). rewrite P5. pose proof (died_put e_died efs t e no_effects He) as Pm. cbn [no_effects e_died] in Pm.
        rewrite app_nil_r in Pm. rewrite <- Pm. apply Permutation_app_comm.
      * pose proof (total_put e_gave efs t e no_effects He) as T1. pose proof (total_put e_got efs t e no_effects He) as T2.
        cbn [no_effects e_gave e_got] in T1, T2. lia.
    + destruct m as [[v c']|q|X z next]; [|destruct K3|destruct (Hm X z next eq_refl)].
      cbn [wp fst snd] in K3. destruct K3 as (-> & CN & -> & K3). specialize (K3 (plain a) out Hx).
      rewrite K3 in W5'. injection W5' as W5'.
      do 3 eexists. exists C, (put t no_effects efs).
      unfold move. rewrite Ht, Hd. split; [reflexivity|]. split; [exact W5|]. subst a1.
      unfold returns. rewrite T. rewrite (put_id _ _ _ Hc), (put_id _ _ _ He).
      constructor; cbn [vars owners threads memory plain aowners athreads]; try assumption.
      * rewrite put_length. exact I4.
      * apply Forall2_put; [exact I5|]. unfold same_place. cbn. rewrite S1, S2. auto.
      * intros u h' e' Hu Hue. rewrite (nth_put _ _ _ _ _ Ht) in Hu.
        destruct (Nat.eqb_spec u t) as [->|N]; [|eapply I6; eassumption].
        injection Hu as <-. rewrite He in Hue. injection Hue as <-. split; [exact CN|reflexivity].
      * intros j c0 x0 Hc0 Hx0. destruct (I7 j c0 x0 Hc0 Hx0) as [U|R]; [left|right; exact R].
        eapply (in_use_keep _ _ t); [exact U|reflexivity| |]; cbn [with_thread threads].
        -- intros u h' N Hu. exists h'. rewrite put_other by auto. auto.
        -- intros h' o' out' m' k' Hh Hb. rewrite Ht in Hh. injection Hh as <-. congruence.
  - assert (G : exists v c', move E t y = Moved (returns t h o k v (Some c') y) (Some (t, out)) /\ ok_after o None e v c' (C (inr t)) (memory y)
                \/ move E t y = Moved (returns t h o k v None y) (Some (t, out)) /\ c' = CGone /\ ok_after o None e v c' (C (inr t)) (memory y)).
    { unfold move. rewrite Ht, Hd. destruct m as [[v c']|q|X z next]; [| |destruct (Hm X z next eq_refl)]; cbn [wp fst snd] in Hok.
      - exists v, c'. left. split; [reflexivity|exact Hok].
      - exists (SawPanic q), CGone. right. split; [reflexivity|]. split; [reflexivity|exact Hok]. }
    destruct G as (v & c' & G).
    assert (G' : exists oc, move E t y = Moved (returns t h o k v oc y) (Some (t, out)) /\ (match oc with Some c => c | None => CGone end) = c' /\
                   ok_after o None e v c' (C (inr t)) (memory y)).
    { destruct G as [[G1 G2]|(G1 & -> & G2)]; eauto. }
    clear G Hok. destruct G' as (oc & Mv & Oc & Cl & K3). rewrite T in K3.
    destruct (K3 (plain a) Logic.I) as (a' & x' & l & P1 & P2 & P3 & P4 & P5 & P6 & P7).
    rewrite O in P1. rewrite P1 in W5'. injection W5' as W5'.
    do 3 eexists. exists (upd (upd C (inr t) None) (inl (List.length (vars y))) (claim E c')), (put t no_effects efs).
    split; [exact Mv|]. split; [exact W5|]. subst a1. unfold returns. rewrite T, Oc.
    constructor; cbn [vars owners threads memory plain aowners athreads]; try assumption.
    + rewrite P2, !app_length, I1. reflexivity.
    + rewrite I2. reflexivity.
    + rewrite !app_length, I3. reflexivity.
    + rewrite !put_length. exact I4.
    + apply Forall2_put; [exact I5|]. unfold same_place. cbn. rewrite S1, S2, I1. auto.
    + intros u h' e' Hu Hue. rewrite (nth_put _ _ _ _ _ Ht) in Hu. rewrite (nth_put _ _ _ _ _ He) in Hue.
      destruct (Nat.eqb_spec u t) as [->|N].
      * injection Hu as <-. injection Hue as <-. cbn [thread_ok doing]. rewrite upd_other by discriminate. rewrite upd_same. auto.
      * eapply thread_ok_frame; [eapply I6; eassumption| | |].
        -- intros o' out' m' k' j _ _ Ho.
           assert (L : (j < List.length (owners y))%nat) by (destruct Ho as [Ho|Ho]; eapply nth_some_lt, Ho).
           rewrite P2, !nth_error_app1 by lia. rewrite !upd_other by (intros K; injection K; lia || discriminate).
           do 4 (split; [reflexivity|]). apply same_on_refl, I8.
        -- rewrite !upd_other by congruence. reflexivity.
        -- apply same_on_refl, I8.
    + intros j c0 x0 Hc0 Hx0. destruct (Nat.lt_ge_cases j (List.length (vars y))) as [L|L].
      * rewrite nth_error_app1 in Hc0 by lia. rewrite P2, nth_error_app1 in Hx0 by lia.
        rewrite !upd_other by (intros K; injection K; lia || discriminate).
        destruct (I7 j c0 x0 Hc0 Hx0) as [U|R]; [left|right; exact R].
        eapply (in_use_keep _ _ t); [exact U| | |]; cbn [with_thread threads owners].
        -- apply nth_error_app1. lia.
        -- intros u h' N Hu. exists h'. rewrite put_other by auto. auto.
        -- intros h' o' out' m' k' Hh Hb T'. rewrite Ht in Hh. injection Hh as <-. congruence.
      * right. rewrite nth_error_app2 in Hc0 by lia. rewrite P2, nth_error_app2 in Hx0 by lia. rewrite <- I1 in Hx0.
        destruct (j - List.length (vars y))%nat as [|n] eqn:J; [|destruct n; discriminate]. cbn in Hc0, Hx0.
        injection Hc0 as <-. injection Hx0 as <-. assert (j = List.length (vars y)) as -> by lia. rewrite upd_same. auto.
    + apply claims_move; [exact I8|]. exact Cl.
    + rewrite I10, P4. unfold dead_destructors at 2. rewrite flat_map_app, <- !app_assoc. do 2 apply Permutation_app_head.
      fold (dead_destructors l). rewrite P5. pose proof (died_put e_died efs t e no_effects He) as Pm. cbn [no_effects e_died] in Pm.
      rewrite app_nil_r in Pm. rewrite <- Pm. apply Permutation_app_comm.
    + pose proof (total_put e_gave efs t e no_effects He) as T1. pose proof (total_put e_got efs t e no_effects He) as T2.
      cbn [no_effects e_gave e_got] in T1, T2. lia.
Qed.

(** ** Handing over, sharing, taking *)

Lemma idle_move s0 y a C efs t h p ths own a' : Inv s0 y a C efs -> nth_error (threads y) t = Some h -> doing h = Idle p ->
  plain a' = plain a -> aowners a' = own -> List.length own = List.length (owners y) -> List.length ths = List.length (threads y) ->
  (forall u h', nth_error ths u = Some h' -> exists h0, nth_error (threads y) u = Some h0 /\
    (u <> t -> doing h' = doing h0) /\ (u = t -> exists p', doing h' = Idle p')) ->
  Forall2 same_place ths (athreads a') ->
  (forall i, nth_error own i = nth_error (owners y) i \/ nth_error (owners y) i = Some (By t)) ->
  well_behaved E a' -> Inv s0 (Sys ths (vars y) own (memory y)) a' C efs.
Proof.
  intros Iv Ht Hd Hp Ho Hol Htl Hth Hpl Hown Hwb. pose proof Iv as [I1 I2 I3 I4 I5 I6 I7 I8 I9 I10 I11 I12].
  constructor; cbn [vars owners threads memory]; rewrite ?Hp; try assumption.
  - symmetry. exact Ho.
  - congruence.
  - congruence.
  - intros u h' e Hu He. destruct (Hth u h' Hu) as (h0 & K1 & K2 & K3). pose proof (I6 u h0 e K1 He) as K.
    destruct (Nat.eq_dec u t) as [->|N].
    + destruct (K3 eq_refl) as [p' ->]. rewrite Ht in K1. injection K1 as <-. rewrite Hd in K. exact K.
    + rewrite (K2 N). eapply thread_ok_frame; [exact K| |reflexivity|apply same_on_refl, I8].
      intros o out m k i _ _ Ow. split; [|do 3 (split; [reflexivity|]); apply same_on_refl, I8].
      destruct (Hown i) as [->|X]; [reflexivity|]. rewrite X in Ow. destruct Ow; congruence.
  - intros i c x Hc Hx. destruct (I7 i c x Hc Hx) as [U|R]; [left|right; exact R].
    destruct U as (u & h0 & o & out & m & k & U1 & U2 & U3 & U4).
    assert (N : u <> t) by (intros ->; rewrite Ht in U1; injection U1 as <-; congruence).
    pose proof (nth_some_lt _ _ _ U1) as L. rewrite <- Htl in L. apply nth_error_Some in L.
    destruct (nth_error ths u) as [h'|] eqn:Hu; [|contradiction]. destruct (Hth u h' Hu) as (h1 & K1 & K2 & _).
    rewrite U1 in K1. injection K1 as <-. exists u, h', o, out, m, k. cbn [threads owners]. rewrite (K2 N).
    split; [exact Hu|]. split; [exact U2|]. split; [exact U3|]. destruct (Hown i) as [->|X]; [exact U4|]. rewrite U4 in X. injection X as ->. contradiction.
Qed.

Lemma step_idle s0 y a C efs t h p : Inv s0 y a C efs -> nth_error (threads y) t = Some h -> doing h = Idle p ->
  (forall o k, p <> TCall o k) -> advances s0 t y a.
Proof.
  intros Iv Ht Hd Hc. pose proof Iv as [I1 I2 I3 I4 I5 I6 I7 I8 I9 I10 I11 I12].
  destruct (Forall2_nth _ _ _ I5 t h Ht) as (ah & A1 & A2). unfold same_place in A2. rewrite Hd in A2. destruct A2 as (S1 & S2 & A2).
  destruct (wb_step a (t, false) I12) as (a1 & W5 & W6).
  pose proof W5 as W5'. cbn [amove] in W5'. rewrite A1, A2 in W5'.
  destruct p as [|o k|i t' k|i k|k]; [|destruct (Hc o k eq_refl)|..].
  - do 3 eexists. exists C, efs. unfold move. rewrite Ht, Hd. split; [reflexivity|]. split; [reflexivity|exact Iv].
  - (* TGive *)
    rewrite <- I2 in W5'.
    set (l0 := put t (Thread (Idle k) (mail h) (seen h)) (threads y)).
    set (al := put t (AThread k (amail ah) (aseen ah)) (athreads a)) in *.
    assert (F : Forall2 same_place l0 al).
    { apply Forall2_put; [exact I5|]. unfold same_place. cbn. auto. }
    destruct (nth_error al t') as [ah'|] eqn:Hal; [|discriminate].
    assert (X : exists h', nth_error l0 t' = Some h').
    { pose proof (nth_some_lt _ _ _ Hal) as L. rewrite <- (Forall2_len _ _ _ F) in L. apply nth_error_Some in L.
      destruct (nth_error l0 t'); [eauto|contradiction]. }
    destruct X as [h' Hl]. destruct (Forall2_nth _ _ _ F t' h' Hl) as (ah2 & Y1 & Y2). rewrite Hal in Y1. injection Y1 as <-.
    assert (G : exists own, move E t y = Moved (Sys (put t' (Thread (doing h') (mail h' ++ [i]) (seen h')) l0) (vars y) own (memory y)) (Some (t, false)) /\
      a1 = ASys (put t' (AThread (aprog ah') (amail ah' ++ [i]) (aseen ah')) al) own (plain a) /\ List.length own = List.length (owners y) /\
      (forall j, nth_error own j = nth_error (owners y) j \/ nth_error (owners y) j = Some (By t))).
    { unfold move. rewrite Ht, Hd. fold l0. rewrite Hl. destruct (nth_error (owners y) i) as [[x|]|] eqn:Hi; [| |discriminate].
      - destruct (Nat.eqb_spec t x) as [<-|]; [|discriminate]. injection W5' as <-. exists (put i (By t') (owners y)).
        split; [reflexivity|]. split; [reflexivity|]. split; [apply put_length|]. intros j. destruct (Nat.eq_dec j i) as [->|N]; [right; exact Hi|left; apply put_other; auto].
      - injection W5' as <-. exists (owners y). auto. }
    destruct G as (own & G1 & G2 & G3 & G4). subst a1.
    do 3 eexists. exists C, efs. split; [exact G1|]. split; [exact W5|].
    eapply idle_move; try eassumption; try reflexivity.
    + rewrite put_length. apply put_length.
    + intros u hu Hu. rewrite (nth_put _ _ _ _ _ Hl) in Hu. destruct (Nat.eqb_spec u t') as [->|N].
      * injection Hu as <-. unfold l0 in Hl. rewrite (nth_put _ _ _ _ _ Ht) in Hl. destruct (Nat.eqb_spec t' t) as [->|N'].
        -- injection Hl as <-. exists h. split; [exact Ht|]. split; [congruence|]. intros _. eexists. reflexivity.
        -- exists h'. split; [exact Hl|]. split; [reflexivity|congruence].
      * unfold l0 in Hu. rewrite (nth_put _ _ _ _ _ Ht) in Hu. destruct (Nat.eqb_spec u t) as [->|N'].
        -- injection Hu as <-. exists h. split; [exact Ht|]. split; [congruence|]. intros _. eexists. reflexivity.
        -- exists hu. split; [exact Hu|]. split; [reflexivity|congruence].
    + cbn [athreads]. apply Forall2_put; [exact F|]. unfold same_place in *. cbn [mail seen doing amail aseen aprog].
      destruct Y2 as (Z1 & Z2 & Z3). rewrite Z1, Z2. auto.
  - (* TShare *)
    rewrite <- I2 in W5'.
    destruct (nth_error (owners y) i) as [[x|]|] eqn:Hi; try discriminate.
    destruct (nth_error (cells (plain a)) i) as [z|] eqn:Hz; try discriminate. destruct z as [U id v d| | | |]; try discriminate.
    destruct (Nat.eqb_spec t x) as [<-|]; [|discriminate]. injection W5' as <-.
    destruct (cell_at _ _ _ _ _ i _ Iv Hz) as [c Hcell].
    assert (R : rel E (memory y) c (ABox U id v d) /\ C (inl i) = claim E c).
    { apply (at_rest s0 y a C efs i c _ Iv Hcell Hz). intros t1 Ht1. rewrite Hi in Ht1. injection Ht1 as <-.
      exists h. split; [exact Ht|]. rewrite Hd. discriminate. }
    destruct R as [R _]. destruct c as [U' w| | | |]; try contradiction.
    do 3 eexists. exists C, efs. unfold move. rewrite Ht, Hd, Hi, Hcell, Nat.eqb_refl. split; [reflexivity|]. split; [exact W5|].
    eapply idle_move; try eassumption; try reflexivity.
    + apply put_length.
    + apply put_length.
    + intros u hu Hu. rewrite (nth_put _ _ _ _ _ Ht) in Hu. destruct (Nat.eqb_spec u t) as [->|N].
      * injection Hu as <-. exists h. split; [exact Ht|]. split; [congruence|]. intros _. eexists. reflexivity.
      * exists hu. split; [exact Hu|]. split; [reflexivity|congruence].
    + cbn [athreads]. apply Forall2_put; [exact I5|]. unfold same_place. cbn. auto.
    + intros j. destruct (Nat.eq_dec j i) as [->|N]; [right; exact Hi|left; apply put_other; auto].
  - (* TTake *)
    destruct (mail h) as [|i r] eqn:Hm.
    + do 3 eexists. exists C, efs. unfold move. rewrite Ht, Hd, Hm. split; [reflexivity|]. split; [reflexivity|exact Iv].
    + rewrite <- S1 in W5'. injection W5' as <-.
      do 3 eexists. exists C, efs. unfold move. rewrite Ht, Hd, Hm. split; [reflexivity|]. split; [exact W5|].
      unfold with_thread. eapply idle_move; try eassumption; try reflexivity.
      * cbn. symmetry. exact I2.
      * apply put_length.
      * intros u hu Hu. rewrite (nth_put _ _ _ _ _ Ht) in Hu. destruct (Nat.eqb_spec u t) as [->|N].
        -- injection Hu as <-. exists h. split; [exact Ht|]. split; [congruence|]. intros _. eexists. reflexivity.
        -- exists hu. split; [exact Hu|]. split; [reflexivity|congruence].
      * cbn [athreads]. apply Forall2_put; [exact I5|]. unfold same_place. cbn. auto.
      * auto.
Qed.

(** ** Any move *)

Theorem step_any s0 y a C efs t : Inv s0 y a C efs -> advances s0 t y a.
Proof.
  intros Iv. destruct (nth_error (threads y) t) as [h|] eqn:Ht.
  - destruct (doing h) as [p|o out m k|] eqn:Hd.
    + destruct p as [|o k|i t' k|i k|k]; [eapply step_idle; try eassumption; discriminate|eapply step_start; eassumption|eapply step_idle; try eassumption; discriminate..].
    + destruct m as [a1|q|X x next]; [eapply step_return; try eassumption; discriminate|eapply step_return; try eassumption; discriminate|eapply step_act; eassumption].
    + destruct (Forall2_nth _ _ _ (i_place _ _ _ _ _ Iv) t h Ht) as (ah & _ & A2). unfold same_place in A2. rewrite Hd in A2. destruct A2 as (_ & _ & []).
  - do 3 eexists. exists C, efs. unfold move. rewrite Ht. split; [reflexivity|]. split; [reflexivity|exact Iv].
Qed.

Theorem moves_ok s0 order : forall y a C efs, Inv s0 y a C efs ->
  exists trace y' a' C' efs', moves E order y = (trace, inl y') /\ amoves trace a = Some a' /\ Inv s0 y' a' C' efs'.
Proof.
  induction order as [|t r IH]; intros y a C efs Iv.
  - exists [], y, a, C, efs. auto.
  - destruct (step_any s0 y a C efs t Iv) as (y1 & f & a1 & C1 & efs1 & H1 & H2 & H3).
    destruct (IH y1 a1 C1 efs1 H3) as (trace & y2 & a2 & C2 & efs2 & K1 & K2 & K3).
    cbn [moves]. rewrite H1, K1. destruct f as [e|].
    + exists (e :: trace), y2, a2, C2, efs2. split; [reflexivity|]. cbn [amoves]. rewrite H2. auto.
    + subst a1. exists trace, y2, a2, C2, efs2. auto.
Qed.

Lemma inv_boot ps s : well_behaved E (aboot ps) ->
  Inv s (boot ps s) (aboot ps) (fun _ => None) (map (fun _ => no_effects) ps).
Proof.
  intros W. constructor; cbn [boot aboot vars owners threads memory plain cells aowners athreads a0 dead freed made]; try reflexivity; try assumption.
  - rewrite !map_length. reflexivity.
  - clear W. induction ps as [|p ps IH]; cbn; constructor; [|exact IH]. unfold same_place. cbn. auto.
  - intros t h e Ht He. rewrite nth_error_map in Ht, He. destruct (nth_error ps t); [|discriminate]. injection Ht as <-. injection He as <-. split; reflexivity.
  - intros i c x Hc. destruct i; discriminate.
  - constructor; cbn; auto.
  - apply keeps_refl.
  - cbn. assert (F : flat_map e_died (map (fun _ => no_effects) ps) = []) by (clear W; induction ps; auto). rewrite F, app_nil_r. reflexivity.
  - assert (F : forall f, f no_effects = O -> total f (map (fun _ => no_effects) ps) = O).
    { intros f Hf. clear W. unfold total, list_sum. induction ps; cbn; auto. rewrite Hf. auto. }
    rewrite !F by reflexivity. lia.
Qed.

(** ** No data race *)

Lemma about_inside own vs cs C e s t h x : thread_ok own vs cs C e s t (doing h) -> about_to h = Some x ->
  match x with
  | TRead p n => exists z, (z = inr t \/ exists i, z = inl i) /\ inside p n (C z)
  | TWrite p n => inside p n (C (inr t))
  end.
Proof.
  unfold about_to. destruct (doing h) as [p|o out m k|]; try discriminate. destruct m as [a1|q|X a next]; try discriminate.
  cbn [thread_ok]. intros [_ H] T.
  assert (P : exists R, permitted a R (C (inr t)) /\ (R = None \/ exists i, R = C (inl i))).
  { destruct (target_of o) as [i|].
    - destruct H as (c & y & _ & _ & [(_ & _ & W)|(_ & _ & W)]); cbn [wp] in W; destruct W as [W _]; eauto.
    - cbn [wp] in H. destruct H as [W _]. eauto. }
  destruct P as (R & P & HR). unfold permitted in P. rewrite T in P. destruct x as [p n|p n]; [|exact P].
  destruct P as [P|P]; [|eauto]. destruct HR as [->|[i ->]]; [destruct P|]. eauto.
Qed.

Lemma inside_apart p n q m x z : inside p n x -> inside q m z -> apart_o x z -> ~ (p < q + m /\ q < p + n).
Proof. destruct x as [b|], z as [c|]; cbn; try contradiction. unfold apart_b. lia. Qed.

Lemma no_race s0 y a C efs : Inv s0 y a C efs -> ~ data_race y.
Proof.
  intros Iv (t1 & t2 & h1 & h2 & x1 & x2 & N & H1 & H2 & A1 & A2 & K).
  destruct (has_effects _ _ _ _ _ _ _ Iv H1) as (e1 & _ & O1). destruct (has_effects _ _ _ _ _ _ _ Iv H2) as (e2 & _ & O2).
  apply (about_inside _ _ _ _ _ _ _ _ _ O1) in A1. apply (about_inside _ _ _ _ _ _ _ _ _ O2) in A2.
  pose proof (i_claims _ _ _ _ _ Iv) as [Ap _ _ _].
  destruct x1 as [p n|p n], x2 as [q m|q m]; cbn [conflict] in K; [exact K| | |].
  - destruct A1 as (z & Z & A1). revert K. apply (inside_apart _ _ _ _ _ _ A1 A2). apply Ap. destruct Z as [->|[i ->]]; congruence.
  - destruct A2 as (z & Z & A2). revert K. apply (inside_apart _ _ _ _ _ _ A1 A2). apply Ap. destruct Z as [->|[i ->]]; congruence.
  - revert K. apply (inside_apart _ _ _ _ _ _ A1 A2). apply Ap. congruence.
Qed.

End Wp.
