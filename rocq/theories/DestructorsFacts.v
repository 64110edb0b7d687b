(** Proofs about programs whose destructors do things: what the variables stand for survives them. *)
From Coq Require Import Arith NArith String Bool List Lia.
From Verif Require Import Words Config Spec ConfigFacts Pointer PointerFacts Mem SpecMem MemFacts Box BoxFacts
  Session SpecSession SessionFacts DropPanics SpecDropPanics DropPanicsFacts Destructors SpecDestructors.
Import ListNotations.
Local Open Scope N_scope.

Section Facts.
Variable E : env.
Variable act : string -> leafval -> st -> st * bool.
Let fussy := panics act.

(** ** States *)

Lemma its_place y : its_block E y = place E y.
Proof. destruct y; reflexivity. Qed.

Lemma spares_refl s0 c j s : spares E s0 c j s s.
Proof. split; auto. Qed.

Lemma spares_trans s0 c j s t u : spares E s0 c j s t -> spares E s0 c j t u -> spares E s0 c j s u.
Proof.
  intros [A1 A2] [B1 B2]. split.
  - intros i y p n al Hy Hp Hb. destruct (A1 i y p n al Hy Hp Hb) as [C1 C2]. destruct (B1 i y p n al Hy Hp C1) as [D1 D2].
    split; [exact D1|]. intros Hj q Hq. rewrite D2, C2; auto.
  - intros b H0 Hb. destruct (A2 b H0 Hb) as [C1 C2]. destruct (B2 b H0 C1) as [D1 D2]. split; [exact D1|]. intros q Hq. rewrite D2, C2; auto.
Qed.

Lemma spares_log s0 c j s t e : spares E s0 c j s t -> spares E s0 c j s (log e t).
Proof. intros H. exact H. Qed.

Lemma spares_base s0 c j s t : keeps s0 s -> spares E s0 c j s t -> keeps s0 t.
Proof.
  intros K [_ A] b Hb. destruct (K b Hb) as [K1 K2]. destruct (A b Hb K1) as [A1 A2]. split; [exact A1|].
  intros q Hq. rewrite A2, K2; auto.
Qed.

(** A variable's block is in memory. *)
Lemma rel_block s x y p n : rel E s x y -> place E x = Some (p, n) -> exists al, In (Block p n al) (blocks s).
Proof.
  destruct x, y; cbn [place rel]; try contradiction; try discriminate; intros R; destruct (N.eqb_spec (h_size U) 0); try discriminate;
    intros Hp; injection Hp as <- <-; [destruct R as (_ & _ & R)|destruct R as (_ & R)|destruct R as (_ & R)];
    eexists; apply (hm_block _ _ _ _ _ R); assumption.
Qed.

Lemma rel_block_exact s x y b : rel E s x y -> place E x = Some (b_base b, b_size b) -> In b (blocks s) ->
  forall t, (forall al, In (Block (b_base b) (b_size b) al) (blocks s) -> In (Block (b_base b) (b_size b) al) (blocks t)) -> In b (blocks t).
Proof. intros _ _ B t H. destruct b as [p n al]. apply H, B. Qed.

(** Everything but variable [i] is left alone. *)
Lemma inv_spared s0 s t c a a' i x x' y' : inv E s0 s c a -> nth_error c i = Some x -> cells a' = put i y' (cells a) -> rel E t x' y' ->
  (place E x' = place E x \/ place E x' = None) ->
  (forall k z p n al, k <> i -> nth_error c k = Some z -> place E z = Some (p, n) -> In (Block p n al) (blocks s) ->
     In (Block p n al) (blocks t) /\ forall q, p <= q < p + n -> bytes t q = bytes s q) ->
  keeps s0 t -> inv E s0 t (put i x' c) a'.
Proof.
  intros [I1 I2 I3 I4 I5] Hx Ha Hr Hp Ho K. constructor.
  - rewrite Ha, !put_length. exact I1.
  - intros j z z' Hz Hz'. rewrite Ha in Hz'. apply put_nth in Hz as [[-> ->]|[Hj Hz]].
    + rewrite put_same in Hz' by (rewrite <- I1; eapply nth_some_lt, Hx). injection Hz' as <-. exact Hr.
    + rewrite put_other in Hz' by auto. pose proof (I2 j z z' Hz Hz') as R. eapply rel_keep; [exact R| |].
      * intros [p n al] B P. apply (Ho j z p n al Hj Hz P B).
      * intros p n P q Hq. destruct (rel_block s z z' p n R P) as [al B]. apply (Ho j z p n al Hj Hz P B). exact Hq.
  - intros j k z z' Hn Hj Hk.
    assert (G : forall k z', k <> i -> nth_error c k = Some z' -> clear_of (place E x') (place E z')).
    { intros k' z0 N0 Z0. destruct Hp as [-> | ->]; [exact (I3 i k' x z0 (not_eq_sym N0) Hx Z0)|exact I]. }
    apply put_nth in Hj as [[-> ->]|[Nj Hj]]; apply put_nth in Hk as [[-> ->]|[Nk Hk]].
    + contradiction.
    + eapply G; eassumption.
    + apply clear_sym. eapply G; eassumption.
    + exact (I3 j k z z' Hn Hj Hk).
  - intros j z b Hz B. apply put_nth in Hz as [[-> ->]|[_ Hz]]; [|eapply I4; eassumption].
    destruct Hp as [-> | ->]; [eapply I4; eassumption|exact I].
  - exact K.
Qed.

(** Everything is left alone. *)
Lemma inv_all s0 s t c a : inv E s0 s c a -> spares E s0 c None s t -> inv E s0 t c a.
Proof.
  intros I S. pose proof (spares_base _ _ _ _ _ (iv_base _ _ _ _ _ I) S) as K. destruct I as [I1 I2 I3 I4 I5]. destruct S as [S _].
  constructor; try assumption. intros i x y Hx Hy. pose proof (I2 i x y Hx Hy) as R. eapply rel_keep; [exact R| |].
  - intros [p n al] B P. rewrite <- its_place in P. apply (S i x p n al Hx P B).
  - intros p n P q Hq. destruct (rel_block s x y p n R P) as [al B]. rewrite <- its_place in P.
    apply (S i x p n al Hx P B); [discriminate|exact Hq].
Qed.

(** ** Drop glue *)

(** The destructors of these values are polite. *)
Definition all_polite (s0 : st) (c : list cell) (j : option nat) (s : st) (l : list (string * leafval)) : Prop :=
  forall n v t, In (n, v) l -> spares E s0 c j s t -> spares E s0 c j t (fst (act n v t)).

Lemma e_glue s0 c j s tys : forall vs u t, let l := destroyed (drop_events tys vs) in
  all_polite s0 c j s l -> spares E s0 c j s t ->
  (exists t', spares E s0 c j s t' /\ (lonely act -> destroyed (events t') = destroyed (events t) ++ l) /\
     ((e_drop_fields act tys vs u t = DOk tt t' /\ mellow fussy l) \/
      (u = false /\ exists n v, e_drop_fields act tys vs u t = DPanic (InDrop n v) t' /\ In (n, v) l /\ exists s1, fussy s1 n v = true))) \/
  (exists s2, e_drop_fields act tys vs u t = DAbort s2 /\ one_fussy fussy l /\ (u = true \/ (2 <= List.length l)%nat)).
Proof.
  induction tys as [|ty tys IH]; intros [|v vs] u t l P S; unfold l in *; clear l; cbn [drop_events e_drop_fields] in *;
    try (left; exists t; split; [exact S|]; split; [intros; cbn; rewrite app_nil_r; reflexivity|];
         left; split; [reflexivity|intros ? ? []]).
  unfold finally, e_drop_leaf. destruct (ty_drop ty) eqn:D.
  2:{ cbn [app] in *. unfold dbind. destruct (IH vs u t P S) as [(t' & S' & L & [[R M]|(-> & n & w & R & H)])|(s2 & R & H)]; rewrite R.
      - left. exists t'. split; [exact S'|]. split; [exact L|]. left. auto.
      - left. exists t'. split; [exact S'|]. split; [exact L|]. right. split; [reflexivity|]. exists n, w. auto.
      - right. exists s2. auto. }
  cbn [app destroyed] in *.
  set (t1 := log (EvDrop (ty_name ty) v) (fst (act (ty_name ty) v t))).
  assert (S1 : spares E s0 c j s t1).
  { eapply spares_trans; [exact S|]. apply spares_log, P; [left; reflexivity|exact S]. }
  assert (L1 : lonely act -> destroyed (events t1) = destroyed (events t) ++ [(ty_name ty, v)]).
  { intros L. unfold t1. cbn [log events]. rewrite destroyed_app, L. reflexivity. }
  assert (P1 : all_polite s0 c j s (destroyed (drop_events tys vs))) by (intros n w t2 Hn; apply P; right; exact Hn).
  assert (J : forall t', (lonely act -> destroyed (events t') = destroyed (events t1) ++ destroyed (drop_events tys vs)) ->
    lonely act -> destroyed (events t') = destroyed (events t) ++ (ty_name ty, v) :: destroyed (drop_events tys vs)).
  { intros t' H L. rewrite H, L1 by exact L. rewrite <- app_assoc. reflexivity. }
  destruct (snd (act (ty_name ty) v t)) eqn:F.
  - assert (O : one_fussy fussy ((ty_name ty, v) :: destroyed (drop_events tys vs))) by (exists (ty_name ty), v, t; split; [left; reflexivity|exact F]).
    unfold draise. destruct u; [right; exists t1; auto|].
    destruct (IH vs true t1 P1 S1) as [(t' & S' & L & [[R M]|(Q & _)])|(s2 & R & (n & w & s3 & In3 & F3) & H)]; [|discriminate Q|]; rewrite R.
    + left. exists t'. split; [exact S'|]. split; [apply J, L|]. right. split; [reflexivity|]. exists (ty_name ty), v.
      split; [reflexivity|]. split; [left; reflexivity|]. exists t; exact F.
    + right. exists s2. split; [reflexivity|]. split; [exact O|]. right. cbn [List.length].
      destruct (destroyed (drop_events tys vs)); [destruct In3|cbn [List.length]; lia].
  - unfold dbind, dret.
    destruct (IH vs u t1 P1 S1) as [(t' & S' & L & [[R M]|(-> & n & w & R & H1 & H2)])|(s2 & R & (n & w & s3 & In3 & F3) & H)]; rewrite R.
    + left. exists t'. split; [exact S'|]. split; [apply J, L|]. left. split; [reflexivity|].
      intros n w [K|K]; [injection K as <- <-; exists t; exact F|auto].
    + left. exists t'. split; [exact S'|]. split; [apply J, L|]. right. split; [reflexivity|]. exists n, w. split; [reflexivity|]. split; [right; exact H1|exact H2].
    + right. exists s2. split; [reflexivity|]. split; [exists n, w, s3; cbn; auto|]. cbn [List.length]. destruct H; [auto|right; lia].
Qed.

Lemma e_drop_cases s0 c j s U vs u t : all_polite s0 c j s (destructors U vs) -> spares E s0 c j s t ->
  (exists t', spares E s0 c j s t' /\ (lonely act -> destroyed (events t') = destroyed (events t) ++ destructors U vs) /\
     ((e_drop act U vs u t = DOk tt t' /\ mellow fussy (destructors U vs)) \/
      (u = false /\ exists n v, e_drop act U vs u t = DPanic (InDrop n v) t' /\ In (n, v) (destructors U vs) /\ exists s1, fussy s1 n v = true))) \/
  (exists s2, e_drop act U vs u t = DAbort s2 /\ one_fussy fussy (destructors U vs) /\ (u = true \/ (2 <= List.length (destructors U vs))%nat)).
Proof. unfold e_drop. rewrite <- destroyed_drop. apply e_glue. Qed.

(** ** Steps *)

(** The values destroyed, and the log if destructors run no others. *)
Definition logs (s : st) (a : astate) (s' : st) (a' : astate) : Prop :=
  exists l, dead a' = dead a ++ l /\ (lonely act -> destroyed (events s') = destroyed (events s) ++ dead_destructors l).

(** A step of a program: done; done but for a destructor's panic; or aborted. *)
Definition e_simulates (s0 s : st) (c : list cell) (a : astate) (o : op) : Prop :=
  exists dm, e_step E act o c = Some dm /\
    ((exists fail x a' c' s', astep fail o a = Some (x, a') /\ inv E s0 s' c' a' /\ logs s a s' a' /\
        (dm false s = DOk (x, c') s' \/ exists p, x = SawPanic p /\ dm false s = DPanic (InCrate p) s' /\ c' = d_after_panic o c) /\
        (forall n v, among_victims a a' n v -> exists s1, fussy s1 n v = false)) \/
     (exists x a' s' n v, astep false o a = Some (x, a') /\ dm false s = DPanic (InDrop n v) s' /\ among_victims a a' n v /\
        (exists s1, fussy s1 n v = true) /\ inv E s0 s' (d_after_panic o c) (blown o a a') /\ logs s a s' (blown o a a')) \/
     (exists s2, dm false s = DAbort s2 /\ may_abort (starved E o s) fussy o a)).

Lemma victims_one a a' id U v : dead a' = dead a ++ [(id, U, v)] ->
  forall n w, among_victims a a' n w <-> In (n, w) (destructors U v).
Proof.
  intros D n w. split.
  - intros (l & Q1 & Q2). rewrite D in Q1. apply app_inv_head in Q1. subst l. cbn in Q2. rewrite app_nil_r in Q2. exact Q2.
  - intros H. exists [(id, U, v)]. split; [exact D|]. cbn. rewrite app_nil_r. exact H.
Qed.

(** A call that destroys the value of a variable, then does [fin]. *)
Lemma slot_sim s0 s c a o U v id a' c' fin dm : (forall a1, blown o a a1 = a1) -> d_after_panic o c = c' ->
  astep false o a = Some (SawNothing, a') -> dead a' = dead a ++ [(id, U, v)] ->
  all_polite s0 c (slot o) s (destructors U v) ->
  (forall u t, spares E s0 c (slot o) s t -> exists t2, fin u t = DOk tt t2 /\ inv E s0 t2 c' a' /\ destroyed (events t2) = destroyed (events t)) ->
  e_step E act o c = Some dm -> dm false s = dbind (finally (e_drop act U v) fin) (fun _ => dret (SawNothing, c')) false s ->
  starved E o s = false ->
  e_simulates s0 s c a o.
Proof.
  intros Hb Ha H1 D P F S Hd Hs. exists dm. split; [exact S|]. pose proof (victims_one a a' id U v D) as V.
  assert (Lg : forall t2 t', (lonely act -> destroyed (events t') = destroyed (events s) ++ destructors U v) ->
             destroyed (events t2) = destroyed (events t') -> logs s a t2 a').
  { intros t2 t' L T. exists [(id, U, v)]. split; [exact D|]. intros Ho. rewrite T, L by exact Ho. cbn. rewrite app_nil_r. reflexivity. }
  destruct (e_drop_cases s0 c (slot o) s U v false s P (spares_refl s0 c (slot o) s)) as [(t' & S' & L & [[R M]|(_ & n & w & R & H2 & H3)])|(s2 & R & O & [Q|Q])];
    [| |discriminate Q|]; rewrite Hd; unfold dbind, finally; rewrite R.
  - left. destruct (F false t' S') as (t2 & F1 & F2 & F3). exists false, SawNothing, a', c', t2. unfold dbind, dret. rewrite F1.
    split; [exact H1|]. split; [exact F2|]. split; [eapply Lg; eassumption|]. split; [left; reflexivity|]. intros n w K. apply M, V, K.
  - right; left. destruct (F true t' S') as (t2 & F1 & F2 & F3). exists SawNothing, a', t2, n, w. rewrite F1.
    split; [exact H1|]. split; [reflexivity|]. split; [apply V, H2|]. split; [exact H3|]. rewrite Hb, Ha. split; [exact F2|]. eapply Lg; eassumption.
  - right; right. exists s2. split; [reflexivity|]. rewrite Hs. exists SawNothing, a', [(id, U, v)]. split; [exact H1|]. split; [exact D|].
    cbn [dead_destructors flat_map fst snd]. rewrite app_nil_r. split; [|right; exact Q]. destruct O as (n & w & s3 & O1 & O2). exists n, w, s3. auto.
Qed.

Hypothesis HE : env_ok E.

(** Writing a new value where the old one was destroyed. *)
Lemma write_after s0 s t c a a' i x y' U p v val : inv E s0 s c a -> nth_error c i = Some x ->
  place E x = (if h_size U =? 0 then None else Some (p, h_size U)) -> cells a' = put i y' (cells a) -> home E s U p v -> hval_ok U val ->
  (forall t, home E t U p val -> rel E t x y') -> spares E s0 c (Some i) s t ->
  exists t2, (forall u, plainly (write_at U p val) u t = DOk tt t2) /\ inv E s0 t2 c a' /\ destroyed (events t2) = destroyed (events t).
Proof.
  intros I Hx Hp Ha Hh Hv Hr S. destruct Hh as [Hl Hrd Hbk Hw Had]. pose proof (read_at_inv _ _ _ _ _ Hrd) as (_ & (C1 & C2 & _) & _).
  assert (Bt : h_size U <> 0 -> In (Block p (h_size U) (h_align U)) (blocks t)).
  { intros Z. destruct S as [S _]. apply (S i x p (h_size U) (h_align U) Hx); [|apply Hbk, Z].
    rewrite its_place, Hp. destruct (N.eqb_spec (h_size U) 0); [contradiction|reflexivity]. }
  assert (Ca : can_access t U p).
  { split; [exact C1|]. split; [exact C2|]. unfold accessible. apply orb_true_iff.
    destruct (N.eqb_spec (h_size U) 0) as [Z|Z]; [left; reflexivity|right].
    apply existsb_exists. eexists. split; [exact (Bt Z)|]. unfold block_contains. cbn [b_base b_size]. rewrite !N.leb_refl. reflexivity. }
  exists (St (write_mem U p val (bytes t)) (blocks t) (events t)).
  split; [intros u; unfold plainly; rewrite write_at_eq by exact Ca; reflexivity|]. split; [|reflexivity].
  assert (Hn : home E (St (write_mem U p val (bytes t)) (blocks t) (events t)) U p val).
  { constructor; try assumption. rewrite read_at_eq by exact Ca. cbn [bytes]. rewrite read_write_mem by assumption. reflexivity. }
  assert (Pu : put i x c = c).
  { clear - Hx. revert i Hx. induction c as [|z c IH]; intros [|i] H; cbn in *; try reflexivity; try discriminate.
    - congruence.
    - rewrite IH by assumption. reflexivity. }
  rewrite <- Pu. eapply inv_spared; [exact I|exact Hx|exact Ha|apply Hr, Hn|left; reflexivity| |].
  - intros k z q n al Hk Hz Hq Hb. destruct S as [S _]. destruct (S k z q n al Hz) as [S1 S2]; [rewrite its_place; exact Hq|exact Hb|].
    split; [exact S1|]. intros r Hr'. cbn [bytes]. rewrite <- S2 by (congruence || exact Hr'). apply write_mem_other; try assumption.
    pose proof (iv_apart _ _ _ _ _ I i k x z (not_eq_sym Hk) Hx Hz) as C. rewrite Hp, Hq in C.
    destruct (N.eqb_spec (h_size U) 0) as [Z|Z]; cbn [clear_of] in C; lia.
  - pose proof (spares_base _ _ _ _ _ (iv_base _ _ _ _ _ I) S) as K. intros b Hb. destruct (K b Hb) as [K1 K2]. split; [exact K1|].
    intros q Hq. cbn [bytes]. rewrite <- (K2 q Hq). apply write_mem_other; try assumption.
    pose proof (iv_home _ _ _ _ _ I i x b Hx Hb) as C. rewrite Hp in C.
    destruct (N.eqb_spec (h_size U) 0) as [Z|Z]; cbn [clear_of] in C; lia.
Qed.

(** The variable is gone and, if it has one, its block freed. *)
Lemma gone_after s0 s t c a a' i x U p v : inv E s0 s c a -> nth_error c i = Some x ->
  place E x = (if h_size U =? 0 then None else Some (p, h_size U)) -> cells a' = put i AGone (cells a) -> home E s U p v ->
  spares E s0 c (Some i) s t ->
  exists t2, (forall u, (if h_size U =? 0 then dret tt else plainly (dealloc p (h_size U) (h_align U))) u t = DOk tt t2) /\
    inv E s0 t2 (put i CGone c) a' /\ destroyed (events t2) = destroyed (events t).
Proof.
  intros I Hx Hp Ha Hh S. pose proof (spares_base _ _ _ _ _ (iv_base _ _ _ _ _ I) S) as K.
  destruct (N.eqb_spec (h_size U) 0) as [Z|Z].
  - exists t. split; [reflexivity|]. split; [|reflexivity].
    eapply inv_spared; [exact I|exact Hx|exact Ha|exact Logic.I|right; reflexivity| |exact K].
    intros k z q n al Hk Hz Hq Hb. destruct S as [S _]. destruct (S k z q n al Hz) as [S1 S2]; [rewrite its_place; exact Hq|exact Hb|].
    split; [exact S1|]. apply S2. congruence.
  - assert (Bt : In (Block p (h_size U) (h_align U)) (blocks t)).
    { destruct S as [S _]. apply (S i x p (h_size U) (h_align U) Hx); [rewrite its_place; exact Hp|apply (hm_block _ _ _ _ _ Hh Z)]. }
    eexists. split; [intros u; unfold plainly; rewrite dealloc_ok by exact Bt; reflexivity|]. split; [|cbn [events]; rewrite destroyed_app; cbn; apply app_nil_r].
    eapply inv_spared; [exact I|exact Hx|exact Ha|exact Logic.I|right; reflexivity| |].
    + intros k z q n al Hk Hz Hq Hb. destruct S as [S _]. destruct (S k z q n al Hz) as [S1 S2]; [rewrite its_place; exact Hq|exact Hb|].
      split; [|intros r Hr; apply S2; [congruence|exact Hr]]. cbn [blocks]. apply remove_block_other; [exact S1|]. intros Q. injection Q as -> -> ->.
      pose proof (iv_apart _ _ _ _ _ I i k x z (not_eq_sym Hk) Hx Hz) as C. rewrite Hp, Hq in C. cbn [clear_of] in C. lia.
    + intros b Hb. destruct (K b Hb) as [K1 K2]. split; [|exact K2]. cbn [blocks]. apply remove_block_other; [exact K1|]. intros ->.
      pose proof (iv_home _ _ _ _ _ I i x _ Hx Hb) as C. rewrite Hp in C. cbn [clear_of b_base b_size] in C. lia.
Qed.

Lemma e_sim_new s0 s c a u U val d : inv E s0 s c a -> contract E a (NewBox u U val d) ->
  all_polite s0 c None s (victims E (NewBox u U val d) c s) -> e_simulates s0 s c a (NewBox u U val d).
Proof.
  intros I Hc P. cbn [victims] in P. eexists. split; [reflexivity|]. cbn [starved].
  assert (Hm : forall t x y, inv E s0 t c a -> rel E t x y -> place E x = None -> inv E s0 t (c ++ [x])
            (AState (cells a ++ [y]) (S (next a)) (dead a ++ [(next a, U, val)]) (made a) (freed a))).
  { intros t x y It R Px. eapply inv_add; [exact It|reflexivity|exact R|intros b Hb; auto|]. intros b _. rewrite Px. exact Logic.I. }
  destruct (N.eqb_spec (h_size U) 0) as [Z|Z].
  - (* zero-sized *)
    cbn [orb] in P. destruct Hc as (Hl & Hv & Hd). destruct HE as [Ht Ha Hf _].
    assert (W : tp_discriminant (tgt E) (tb_dangling E (h_align U) d) = d /\ tp_as_ptr (tgt E) (tb_dangling E (h_align U) d) = h_align U).
    { destruct (tb_new_spec E Ht Ha U val d s Hf Hl Hv Hd) as [(Hs & w & H1 & H2 & A & _ & H3)|[(Hs & _)|(Hs & _)]]; try contradiction.
      unfold tb_new in H1. rewrite Z in H1. cbn [N.eqb] in H1. unfold bind, drop_hval, ret in H1. injection H1 as <- . auto. }
    destruct W as [W1 W2].
    assert (As : forall f, astep f (NewBox u U val d) a = Some (SawNothing, AState (cells a ++ [ABox U (next a) val d]) (S (next a)) (dead a ++ [(next a, U, val)]) (made a) (freed a)))
      by (intros f; cbn [astep]; rewrite Z; reflexivity).
    assert (Sv : no_block E U s = false) by (unfold no_block; rewrite Z; reflexivity). rewrite Sv.
    pose proof (victims_one a _ (next a) U val (eq_refl (dead (AState (cells a ++ [ABox U (next a) val d]) (S (next a)) (dead a ++ [(next a, U, val)]) (made a) (freed a))))) as V.
    unfold dbind, e_new. rewrite Z. cbn [N.eqb]. unfold finally, dret, dbind.
    destruct (e_drop_cases s0 c None s U val false s P (spares_refl s0 c None s)) as [(t' & S' & L & [[R M]|(_ & n & w & R & H2 & H3)])|(s2 & R & O & [Q|Q])];
      [| |discriminate Q|]; rewrite R.
    + left. exists false, SawNothing. do 3 eexists. split; [apply As|]. split; [|split; [|split; [left; reflexivity|]]].
      * apply Hm; [eapply inv_all; eassumption| |cbn [place]; rewrite Z; reflexivity]. cbn [rel]. split; [reflexivity|]. split; [exact W1|].
        rewrite W2. apply zst_home; assumption.
      * exists [(next a, U, val)]. split; [reflexivity|]. intros Lo. rewrite (L Lo). cbn. rewrite app_nil_r. reflexivity.
      * intros n w K. apply M, V, K.
    + right; left. do 5 eexists. split; [apply As|]. split; [reflexivity|]. split; [apply V, H2|]. split; [exact H3|]. cbn [blown d_after_panic next dead made freed].
      split; [apply Hm; [eapply inv_all; eassumption|exact Logic.I|reflexivity]|].
      exists [(next a, U, val)]. split; [reflexivity|]. intros Lo. rewrite (L Lo). cbn. rewrite app_nil_r. reflexivity.
    + right; right. exists s2. split; [reflexivity|]. do 2 eexists. exists [(next a, U, val)]. split; [apply As|]. split; [reflexivity|].
      cbn [dead_destructors flat_map fst snd]. rewrite app_nil_r. split; [|right; exact Q]. destruct O as (n & w & s3 & O1 & O2). exists n, w, s3. auto.
  - cbn [orb] in P. destruct (no_block E U s) eqn:Nb.
    + (* out of memory *)
      assert (As : astep true (NewBox u U val d) a = Some (SawPanic PanicNullAlloc, AState (cells a ++ [AGone]) (S (next a)) (dead a ++ [(next a, U, val)]) (made a) (freed a))).
      { cbn [astep]. destruct (N.eqb_spec (h_size U) 0); [contradiction|reflexivity]. }
      pose proof (victims_one a _ (next a) U val (eq_refl (dead (AState (cells a ++ [AGone]) (S (next a)) (dead a ++ [(next a, U, val)]) (made a) (freed a))))) as V.
      unfold dbind at 1, e_new. destruct (N.eqb_spec (h_size U) 0) as [|_]; [contradiction|]. unfold dbind, plainly, alloc.
      unfold no_block in Nb. destruct (alloc_fn E s (h_size U) (h_align U)) as [p|]; [rewrite andb_false_r in Nb; discriminate Nb|].
      unfold finally, draise.
      destruct (e_drop_cases s0 c None s U val true s P (spares_refl s0 c None s)) as [(t' & S' & L & [[R M]|(Q & _)])|(s2 & R & O & _)]; [|discriminate Q|]; rewrite R.
      * left. exists true. do 4 eexists. split; [exact As|]. split; [|split; [|split; [right; eexists; split; [reflexivity|]; split; reflexivity|]]].
        -- apply Hm; [eapply inv_all; eassumption|exact Logic.I|reflexivity].
        -- exists [(next a, U, val)]. split; [reflexivity|]. intros Lo. rewrite (L Lo). cbn. rewrite app_nil_r. reflexivity.
        -- intros n w K. apply M, V, K.
      * right; right. exists s2. split; [reflexivity|]. do 2 eexists. exists [(next a, U, val)]. split; [exact As|]. split; [reflexivity|].
        cbn [dead_destructors flat_map fst snd]. rewrite app_nil_r. split; [|left; reflexivity]. destruct O as (n & w & s3 & O1 & O2). exists n, w, s3. auto.
    + (* stored *)
      assert (Hn : astep false (NewBox u U val d) a <> None) by (cbn [astep]; destruct (h_size U =? 0); discriminate).
      destruct (step_sim E HE s0 s c a _ I Hc Hn) as (fail & m & x & a' & c' & s' & H1 & H2 & H3 & H4 & [(l & D1 & D2) _] & H6).
      cbn [starved] in H6. rewrite Nb in H6. subst fail. left. exists false, x, a', c', s'. split; [exact H1|]. split; [exact H4|].
      split; [exists l; auto|].
      assert (D : dead a' = dead a) by (cbn [astep] in H1; destruct (N.eqb_spec (h_size U) 0); [contradiction|injection H1 as <- <-; reflexivity]).
      assert (X : x = SawNothing) by (cbn [astep] in H1; destruct (N.eqb_spec (h_size U) 0); [contradiction|injection H1 as <- _; reflexivity]).
      split.
      * left. destruct H3 as [R|(q & Q & _)]; [|rewrite X in Q; discriminate Q]. cbn [step] in H2. injection H2 as <-.
        assert (Hu : (if u then tb_new_unchecked E U val d else tb_new E U val d) = tb_new E U val d) by (destruct u; reflexivity). rewrite Hu in R.
        unfold dbind at 1, e_new. unfold bind at 1, tb_new in R. destruct (N.eqb_spec (h_size U) 0) as [|_]; [contradiction|].
        unfold dbind, plainly, alloc. unfold bind, alloc in R. destruct (alloc_fn E s (h_size U) (h_align U)) as [p|] eqn:Ea.
        -- set (s1 := St _ _ _) in *. destruct (write_at U p val s1) as [[] s2|? ?|?]; try discriminate R.
           destruct (of_outcome (tp_new (tgt E) p d) s2); try discriminate R. unfold ret in R. unfold dret. injection R as <- <- <-. reflexivity.
        -- exfalso. unfold no_block in Nb. rewrite Ea in Nb. destruct (N.eqb_spec (h_size U) 0); [contradiction|discriminate Nb].
      * intros n w (l2 & Q1 & Q2). rewrite D in Q1. rewrite <- (app_nil_r (dead a)) in Q1 at 1. apply app_inv_head in Q1. subst l2. destruct Q2.
Qed.

Lemma e_step_sim s0 s c a o : inv E s0 s c a -> contract E a o -> astep false o a <> None ->
  all_polite s0 c (slot o) s (victims E o c s) -> e_simulates s0 s c a o.
Proof.
  intros I Hc Hn P. destruct (destroys o) eqn:De.
  2:{ destruct (step_sim E HE s0 s c a o I Hc Hn) as (fail & m & x & a' & c' & s' & H1 & H2 & H3 & H4 & [(l & D1 & D2) _] & H6).
      exists (plainly m). split; [destruct o; try discriminate De; cbn [e_step]; rewrite H2; reflexivity|].
      left. exists fail, x, a', c', s'. split; [exact H1|]. split; [exact H4|]. split; [exists l; auto|]. split.
      - unfold plainly. destruct H3 as [R|(q & -> & R & ->)]; rewrite R; [left; reflexivity|right]. exists q. destruct o; try discriminate De; auto.
      - intros n v (l2 & Q1 & Q2). rewrite (keeps_dead _ _ _ _ _ De H1) in Q1. rewrite <- (app_nil_r (dead a)) in Q1 at 1.
        apply app_inv_head in Q1. subst l2. destruct Q2. }
  destruct o as [u U val d|i|i|i|i f|i val|i|i|i d|i|i|i|i|i|i|i|i val|i|i val]; try discriminate De;
    [apply e_sim_new; assumption|..]; cbn [astep contract] in *;
    destruct (nth_error (cells a) i) as [y|] eqn:Hy; try contradiction;
    destruct y as [U id v d0|U id v|U id v|U id v|]; try contradiction;
    destruct (inv_get E s0 s c a i _ I Hy) as (x & Hx & R);
    destruct x as [U' w|U' p|U' p|U' v'|]; cbn [rel] in R; try contradiction;
    [destruct R as (-> & Rd & Rh)|destruct R as (-> & Rh)|destruct R as (-> & Rh)|destruct R as (-> & Rd & Rh)|destruct R as (-> & Rh)];
    cbn [victims] in P; rewrite Hx in P.
  - (* Assign *)
    rewrite (hm_read _ _ _ _ _ Rh) in P. eapply (slot_sim s0 s c a _ U v id _ c); [reflexivity|reflexivity|cbn [astep]; rewrite Hy; reflexivity|reflexivity|exact P| |cbn [e_step]; rewrite Hx; reflexivity| |reflexivity].
    + intros u t Sp. destruct (write_after s0 s t c a (let a' := kill id U v (set i (ABox U (next a) val d0) a) in AState (cells a') (S (next a)) (dead a') (made a') (freed a'))
        i (CBox U w) (ABox U (next a) val d0) U (tp_as_ptr (tgt E) w) v val I Hx eq_refl eq_refl Rh Hc) as (t2 & W1 & W2 & W3);
        [intros t0 Ht; cbn [rel]; auto|exact Sp|]. exists t2. split; [apply W1|auto].
    + unfold e_assign. change (tp_mut_ref_addr (tgt E) w) with (tp_as_ptr (tgt E) w). unfold dbind at 1 2. unfold plainly at 1. rewrite (hm_read _ _ _ _ _ Rh). reflexivity.
  - (* RustDrop *)
    rewrite (hm_read _ _ _ _ _ Rh) in P. eapply (slot_sim s0 s c a _ U v id _ (put i CGone c)); [reflexivity|reflexivity|cbn [astep]; rewrite Hy; reflexivity|reflexivity|exact P| |cbn [e_step]; rewrite Hx; reflexivity| |reflexivity].
    + intros u t Sp. destruct (gone_after s0 s t c a (free U (kill id U v (set i AGone a))) i (CRust U p) U p v I Hx eq_refl eq_refl Rh Sp) as (t2 & W1 & W2 & W3).
      exists t2. split; [apply W1|auto].
    + unfold e_rbox_drop. unfold dbind at 1 2. unfold plainly at 1. rewrite (hm_read _ _ _ _ _ Rh). reflexivity.
  - (* DropValue *)
    subst v'. eapply (slot_sim s0 s c a _ U v id _ (put i CGone c) (dret tt)); [reflexivity|reflexivity|cbn [astep]; rewrite Hy; reflexivity|reflexivity|exact P| |cbn [e_step]; rewrite Hx; reflexivity| |reflexivity].
    + intros u t Sp. exists t. split; [reflexivity|]. split; [|reflexivity].
      eapply inv_spared; [exact I|exact Hx|reflexivity|exact Logic.I|right; reflexivity| |].
      * intros k z q n al Hk Hz Hq Hb. destruct Sp as [Sp _]. destruct (Sp k z q n al Hz) as [S1 S2]; [rewrite its_place; exact Hq|exact Hb|].
        split; [exact S1|]. apply S2. cbn [slot]. congruence.
      * exact (spares_base _ _ _ _ _ (iv_base _ _ _ _ _ I) Sp).
    + unfold dbind, finally, dret. destruct (e_drop act U v false s) as [[]| | |]; reflexivity.
  - (* AssignPtr *)
    rewrite (hm_read _ _ _ _ _ Rh) in P. eapply (slot_sim s0 s c a _ U v id _ c); [reflexivity|reflexivity|cbn [astep]; rewrite Hy; reflexivity|reflexivity|exact P| |cbn [e_step]; rewrite Hx; reflexivity| |reflexivity].
    + intros u t Sp. destruct (write_after s0 s t c a (let a' := kill id U v (set i (ABox U (next a) val d0) a) in AState (cells a') (S (next a)) (dead a') (made a') (freed a'))
        i (CBox U w) (ABox U (next a) val d0) U (tp_as_ptr (tgt E) w) v val I Hx eq_refl eq_refl Rh Hc) as (t2 & W1 & W2 & W3);
        [intros t0 Ht; cbn [rel]; auto|exact Sp|]. exists t2. split; [apply W1|auto].
    + unfold e_assign. change (tb_as_mut_ptr E w) with (tp_as_ptr (tgt E) w). unfold dbind at 1 2. unfold plainly at 1. rewrite (hm_read _ _ _ _ _ Rh). reflexivity.
  - (* RawAssign *)
    rewrite (hm_read _ _ _ _ _ Rh) in P. eapply (slot_sim s0 s c a _ U v id _ c); [reflexivity|reflexivity|cbn [astep]; rewrite Hy; reflexivity|reflexivity|exact P| |cbn [e_step]; rewrite Hx; reflexivity| |reflexivity].
    + intros u t Sp. destruct (write_after s0 s t c a (let a' := kill id U v (set i (ARaw U (next a) val) a) in AState (cells a') (S (next a)) (dead a') (made a') (freed a'))
        i (CRaw U p) (ARaw U (next a) val) U p v val I Hx eq_refl eq_refl Rh Hc) as (t2 & W1 & W2 & W3);
        [intros t0 Ht; cbn [rel]; auto|exact Sp|]. exists t2. split; [apply W1|auto].
    + unfold e_assign. unfold dbind at 1 2. unfold plainly at 1. rewrite (hm_read _ _ _ _ _ Rh). reflexivity.
Qed.

End Facts.
