(** The invariant behind property C38: every variable's value is in memory at the address the
    variable holds, in a block of its own. *)
From Coq Require Import Arith NArith String Bool List Lia.
From Verif Require Import Words Config Spec ConfigFacts Pointer PointerFacts Mem SpecMem MemFacts Box BoxFacts
  Props_Pointer Props_Box Session SpecSession.
Import ListNotations.
Local Open Scope N_scope.
Local Open Scope m_scope.

(** ** Lists *)

Lemma put_length {A} (x : A) l : forall i, List.length (put i x l) = List.length l.
Proof. induction l; intros [|i]; cbn; auto. Qed.

Lemma put_same {A} (x : A) l : forall i, (i < List.length l)%nat -> nth_error (put i x l) i = Some x.
Proof.
  induction l as [|y l IH]; intros [|i] H; cbn in *; try lia; [reflexivity|]. apply IH. lia.
Qed.

Lemma put_other {A} (x : A) l : forall i j, i <> j -> nth_error (put i x l) j = nth_error l j.
Proof.
  induction l as [|y l IH]; intros [|i] [|j] H; cbn; try reflexivity; try contradiction. apply IH. lia.
Qed.

Lemma put_nth {A} (x : A) l i j y : nth_error (put i x l) j = Some y ->
  (j = i /\ y = x) \/ (j <> i /\ nth_error l j = Some y).
Proof.
  intros H. destruct (Nat.eq_dec j i) as [->|N]; [left|right].
  - split; [reflexivity|]. rewrite put_same in H; [congruence|].
    rewrite <- (put_length x l i). apply nth_error_Some. congruence.
  - split; [exact N|]. rewrite put_other in H by auto. exact H.
Qed.

Lemma nth_some_lt {A} (l : list A) i x : nth_error l i = Some x -> (i < List.length l)%nat.
Proof. intros H. apply nth_error_Some. congruence. Qed.

(** ** The relation between variables *)

Section Rel.
Variable E : env.

(** The value [v] of type [U] lives at [p]. *)
Record home (s : st) (U : hty) (p : N) (v : hval) : Prop := {
  hm_legal : layout_legal U;
  hm_read : read_at U p s = Ok v s;
  hm_block : h_size U <> 0 -> In (Block p (h_size U) (h_align U)) (blocks s);
  hm_width : p <= max_pointer_value (cfg (tgt E));
  hm_addr : p < 2 ^ ptr_bits (tgt E)
}.

Definition rel (s : st) (c : cell) (a : acell) : Prop :=
  match c, a with
  | CBox U w, ABox U' _ v d => U = U' /\ tp_discriminant (tgt E) w = d /\ home s U (tp_as_ptr (tgt E) w) v
  | CRaw U p, ARaw U' _ v => U = U' /\ home s U p v
  | CRust U p, ARust U' _ v => U = U' /\ home s U p v
  | CVal U v, AVal U' _ v' => U = U' /\ v = v'
  | CGone, AGone => True
  | _, _ => False
  end.

(** The memory a variable is responsible for. *)
Definition place (c : cell) : option (N * N) :=
  match c with
  | CBox U w => if h_size U =? 0 then None else Some (tp_as_ptr (tgt E) w, h_size U)
  | CRaw U p | CRust U p => if h_size U =? 0 then None else Some (p, h_size U)
  | _ => None
  end.

Definition clear_of (x y : option (N * N)) : Prop :=
  match x, y with
  | Some (p, n), Some (q, m) => p + n <= q \/ q + m <= p
  | _, _ => True
  end.

Lemma clear_sym x y : clear_of x y -> clear_of y x.
Proof. destruct x as [[]|], y as [[]|]; cbn; tauto. Qed.

(** [s0]: a state whose memory is none of the program's. *)
Record inv (s0 s : st) (c : list cell) (a : astate) : Prop := {
  iv_len : List.length c = List.length (cells a);
  iv_rel : forall i x y, nth_error c i = Some x -> nth_error (cells a) i = Some y -> rel s x y;
  iv_apart : forall i j x y, i <> j -> nth_error c i = Some x -> nth_error c j = Some y ->
    clear_of (place x) (place y);
  iv_home : forall i x b, nth_error c i = Some x -> In b (blocks s0) -> clear_of (place x) (Some (b_base b, b_size b));
  iv_base : keeps s0 s
}.

(** What survives a change of the state: homes whose bytes and block are still there. *)
Lemma home_keep s s' U p v : home s U p v ->
  (h_size U <> 0 -> In (Block p (h_size U) (h_align U)) (blocks s')) ->
  (forall x, p <= x < p + h_size U -> bytes s' x = bytes s x) -> home s' U p v.
Proof.
  intros [Hl Hr Hb Hw Ha] Hb' Hx. constructor; try assumption.
  apply read_at_inv in Hr as (_ & (H1 & H2 & _) & Hv). rewrite read_at_eq.
  - rewrite (read_fields_ext _ (bytes s') (bytes s)), Hv; [reflexivity|].
    intros f x Hf Hi. apply Hx. pose proof (ll_inside U Hl) as I. rewrite Forall_forall in I.
    specialize (I f Hf). unfold in_field in Hi. lia.
  - split; [exact H1|]. split; [exact H2|]. unfold accessible. apply orb_true_iff.
    destruct (N.eqb_spec (h_size U) 0) as [Z|Z]; [left; reflexivity|right].
    apply existsb_exists. eexists. split; [exact (Hb' Z)|]. unfold block_contains. cbn [b_base b_size].
    rewrite !N.leb_refl. reflexivity.
Qed.

Lemma rel_keep s s' c a : rel s c a ->
  (forall b, In b (blocks s) -> place c = Some (b_base b, b_size b) -> In b (blocks s')) ->
  (forall p n, place c = Some (p, n) -> forall x, p <= x < p + n -> bytes s' x = bytes s x) ->
  rel s' c a.
Proof.
  assert (K : forall U p v, home s U p v ->
    (forall b, In b (blocks s) -> (if h_size U =? 0 then None else Some (p, h_size U)) = Some (b_base b, b_size b) -> In b (blocks s')) ->
    (forall q n, (if h_size U =? 0 then None else Some (p, h_size U)) = Some (q, n) -> forall x, q <= x < q + n -> bytes s' x = bytes s x) ->
    home s' U p v).
  { intros U p v Hh H1 H2. apply (home_keep s); [exact Hh| |].
    - intros Z. apply H1; [exact (hm_block _ _ _ _ Hh Z)|]. destruct (N.eqb_spec (h_size U) 0); [contradiction|reflexivity].
    - intros x Hx. destruct (N.eqb_spec (h_size U) 0); [lia|]. eapply H2; [reflexivity|exact Hx]. }
  destruct c, a; cbn [rel place]; intros Hr H1 H2; try contradiction; try exact Hr.
  - destruct Hr as (R1 & R2 & R3). eauto.
  - destruct Hr as (R1 & R2). eauto.
  - destruct Hr as (R1 & R2). eauto.
Qed.

(** One variable changes; all memory but its own is left alone. *)
Definition outside (m : option (N * N)) (q : N) : Prop := match m with Some (p, n) => q < p \/ p + n <= q | None => True end.

Lemma inv_put s0 s s' c a a' i x x' y' : inv s0 s c a -> nth_error c i = Some x ->
  cells a' = put i y' (cells a) -> rel s' x' y' ->
  (place x' = place x \/ place x' = None) ->
  (forall b, In b (blocks s) -> clear_of (place x) (Some (b_base b, b_size b)) -> In b (blocks s')) ->
  (forall q, outside (place x) q -> bytes s' q = bytes s q) ->
  inv s0 s' (put i x' c) a'.
Proof.
  intros [I1 I2 I3 I4 I5] Hx Ha Hr Hp Hb Hm.
  assert (O : forall p n q, clear_of (place x) (Some (p, n)) -> p <= q < p + n -> outside (place x) q).
  { intros p n q C Hq. destruct (place x) as [[]|]; cbn in *; [lia|exact I]. }
  constructor.
  - rewrite Ha, !put_length. exact I1.
  - intros j z z' Hz Hz'. rewrite Ha in Hz'. apply put_nth in Hz as [[-> ->]|[Hj Hz]].
    + rewrite put_same in Hz' by (rewrite <- I1; eapply nth_some_lt, Hx). injection Hz' as <-. exact Hr.
    + rewrite put_other in Hz' by auto. pose proof (I3 i j x z (not_eq_sym Hj) Hx Hz) as C.
      eapply rel_keep; [eapply I2; eassumption| |].
      * intros b B P. apply Hb; [exact B|]. rewrite <- P. exact C.
      * intros p n P q Hq. apply Hm. rewrite P in C. eapply O; eassumption.
  - intros j k z z' Hn Hj Hk.
    assert (G : forall k z', k <> i -> nth_error c k = Some z' -> clear_of (place x') (place z')).
    { intros k' z0 N0 Z0. destruct Hp as [-> | ->]; [exact (I3 i k' x z0 (not_eq_sym N0) Hx Z0)|exact I]. }
    apply put_nth in Hj as [[-> ->]|[Nj Hj]]; apply put_nth in Hk as [[-> ->]|[Nk Hk]].
    + contradiction.
    + eapply G; eassumption.
    + apply clear_sym. eapply G; eassumption.
    + exact (I3 j k z z' Hn Hj Hk).
  - intros j z b Hz B. apply put_nth in Hz as [[-> ->]|[_ Hz]]; [|eapply I4; eassumption].
    destruct Hp as [-> | ->]; [eapply I4; eassumption|exact I].
  - intros b B. destruct (I5 b B) as [K1 K2]. pose proof (I4 i x b Hx B) as C. split; [auto|].
    intros q Hq. rewrite <- (K2 q Hq). apply Hm. eapply O; eassumption.
Qed.

(** One variable changes, memory does not. *)
Lemma inv_put_same s0 s c a a' i x x' y' e : inv s0 s c a -> nth_error c i = Some x ->
  cells a' = put i y' (cells a) -> rel s x' y' -> (place x' = place x \/ place x' = None) ->
  inv s0 (St (bytes s) (blocks s) e) (put i x' c) a'.
Proof.
  intros I Hx Ha Hr Hp. eapply inv_put; try eassumption.
  - eapply rel_keep; [exact Hr| |]; auto.
  - intros; assumption.
  - intros; reflexivity.
Qed.

Lemma inv_events s0 s c a a' e : inv s0 s c a -> cells a' = cells a -> inv s0 (St (bytes s) (blocks s) e) c a'.
Proof.
  intros [I1 I2 I3 I4 I5] Ha. constructor; rewrite ?Ha; try assumption.
  intros i x y Hx Hy. eapply rel_keep; [eapply I2; eassumption| |]; auto.
Qed.

(** A variable is added. *)
Lemma inv_add s0 s s' c a a' x y : inv s0 s c a -> cells a' = cells a ++ [y] -> rel s' x y -> keeps s s' ->
  (forall b, In b (blocks s) -> clear_of (place x) (Some (b_base b, b_size b))) ->
  inv s0 s' (c ++ [x]) a'.
Proof.
  intros [I1 I2 I3 I4 I5] Ha Hr Hk Hc.
  assert (P : forall i z p n, nth_error c i = Some z -> place z = Some (p, n) ->
            exists al, In (Block p n al) (blocks s)).
  { intros i z p n Hz Hp. pose proof (nth_some_lt _ _ _ Hz) as L. rewrite I1 in L.
    apply nth_error_Some in L. destruct (nth_error (cells a) i) as [y0|] eqn:Y; [|contradiction].
    pose proof (I2 i z y0 Hz Y) as R.
    destruct z, y0; cbn [place rel] in *; try contradiction; try discriminate;
      destruct (N.eqb_spec (h_size U) 0); try discriminate; injection Hp as <- <-;
      [destruct R as (_ & _ & R)|destruct R as (_ & R)|destruct R as (_ & R)];
      eexists; apply (hm_block _ _ _ _ R); assumption. }
  assert (K : forall i z y0, nth_error c i = Some z -> nth_error (cells a) i = Some y0 -> rel s' z y0).
  { intros i z y0 Hz Hy. eapply rel_keep; [eapply I2; eassumption| |].
    - intros b B _. apply Hk, B.
    - intros p n Hp q Hq. destruct (P i z p n Hz Hp) as [al B]. apply (Hk _ B). exact Hq. }
  constructor.
  - rewrite Ha, !app_length, I1. reflexivity.
  - intros i z y0 Hz Hy. rewrite Ha in Hy.
    destruct (Nat.lt_ge_cases i (List.length c)) as [L|L].
    + rewrite nth_error_app1 in Hz, Hy by lia. eapply K; eassumption.
    + rewrite nth_error_app2 in Hz, Hy by lia. rewrite I1 in Hz.
      destruct (i - List.length (cells a))%nat as [|k]; [|destruct k; discriminate].
      cbn in Hz, Hy. congruence.
  - assert (G : forall i z, nth_error c i = Some z -> clear_of (place x) (place z)).
    { intros i z Hz. destruct (place z) as [[p n]|] eqn:Hp; [|destruct (place x) as [[]|]; exact I].
      destruct (P i z p n Hz Hp) as [al B]. exact (Hc _ B). }
    intros i j z z' N Hz Hz'.
    destruct (Nat.lt_ge_cases i (List.length c)) as [Li|Li]; destruct (Nat.lt_ge_cases j (List.length c)) as [Lj|Lj].
    + rewrite nth_error_app1 in Hz, Hz' by lia. eapply I3; eassumption.
    + rewrite nth_error_app1 in Hz by lia. rewrite nth_error_app2 in Hz' by lia.
      destruct (j - List.length c)%nat as [|k]; [|destruct k; discriminate]. cbn in Hz'. injection Hz' as <-.
      apply clear_sym. eapply G; eassumption.
    + rewrite nth_error_app2 in Hz by lia. rewrite nth_error_app1 in Hz' by lia.
      destruct (i - List.length c)%nat as [|k]; [|destruct k; discriminate]. cbn in Hz. injection Hz as <-.
      eapply G; eassumption.
    + pose proof (nth_some_lt _ _ _ Hz) as A1. pose proof (nth_some_lt _ _ _ Hz') as A2.
      rewrite app_length in A1, A2. cbn in A1, A2. lia.
  - intros i z b Hz B. destruct (Nat.lt_ge_cases i (List.length c)) as [L|L].
    + rewrite nth_error_app1 in Hz by lia. eapply I4; eassumption.
    + rewrite nth_error_app2 in Hz by lia. destruct (i - List.length c)%nat as [|k]; [|destruct k; discriminate].
      cbn in Hz. injection Hz as <-. apply Hc. apply (I5 b B).
  - eauto using keeps_trans.
Qed.

End Rel.

Lemma remove_block_length b l : In b l -> S (List.length (remove_block b l)) = List.length l.
Proof.
  induction l as [|x l IH]; cbn [remove_block In List.length]; [tauto|].
  destruct (block_eqb x b) eqn:B; [reflexivity|]. intros [->|H].
  - rewrite (proj2 (block_eqb_eq b b) eq_refl) in B. discriminate.
  - cbn [List.length]. rewrite IH by assumption. reflexivity.
Qed.

Lemma remove_block_other b b' l : In b' l -> b' <> b -> In b' (remove_block b l).
Proof.
  induction l as [|x l IH]; cbn [remove_block In]; [tauto|].
  intros [->|H] N; destruct (block_eqb _ b) eqn:B.
  - apply block_eqb_eq in B. contradiction.
  - left. reflexivity.
  - exact H.
  - right. auto.
Qed.

Lemma inv_get E s0 s c a i y : inv E s0 s c a -> nth_error (cells a) i = Some y ->
  exists x, nth_error c i = Some x /\ rel E s x y.
Proof.
  intros I Hy. pose proof (nth_some_lt _ _ _ Hy) as L. rewrite <- (iv_len _ _ _ _ _ I) in L.
  apply nth_error_Some in L. destruct (nth_error c i) as [x|] eqn:Hx; [|contradiction].
  exists x. split; [reflexivity|]. eapply iv_rel; eassumption.
Qed.

(** ** One step *)

(** The step's effect on memory agrees with the specification. *)
Definition tracks (E : env) (s : st) (a : astate) (s' : st) (a' : astate) : Prop :=
  (exists l, dead a' = dead a ++ l /\ destroyed (events s') = destroyed (events s) ++ dead_destructors l) /\
  (List.length (blocks s') + freed a' + made a = List.length (blocks s) + made a' + freed a)%nat.

Lemma tracks_refl E s a a' : dead a' = dead a -> made a' = made a -> freed a' = freed a -> tracks E s a s a'.
Proof.
  intros H1 H2 H3. split; [|lia]. exists []. rewrite !app_nil_r. auto.
Qed.

(** The step [m] in state [s] does [x], leading to [c'] and [s']. *)
Definition does (o : op) (c : list cell) (m : M (obs * list cell)) (s : st) (x : obs) (c' : list cell) (s' : st) : Prop :=
  m s = Ok (x, c') s' \/ exists p, x = SawPanic p /\ m s = Panicked p s' /\ c' = after_panic o c.

Definition simulates (E : env) (s0 s : st) (c : list cell) (a : astate) (o : op) : Prop :=
  exists fail m x a' c' s', astep fail o a = Some (x, a') /\ step E o c = Some m /\ does o c m s x c' s' /\
    inv E s0 s' c' a' /\ tracks E s a s' a' /\
    fail = starved E o s.

Section Step.
Variable E : env.
Hypothesis HE : env_ok E.

(** Steps that change neither memory nor the log. *)
Lemma sim_still s0 s c a o x a' m c' : astep false o a = Some (x, a') -> step E o c = Some m ->
  m s = Ok (x, c') s -> inv E s0 s c' a' -> dead a' = dead a -> made a' = made a -> freed a' = freed a ->
  starved E o s = false -> simulates E s0 s c a o.
Proof.
  intros H1 H2 H3 H4 H5 H6 H7 H8. exists false, m, x, a', c', s.
  split; [exact H1|]. split; [exact H2|]. split; [left; exact H3|]. split; [exact H4|].
  split; [apply tracks_refl; assumption|symmetry; exact H8].
Qed.

Lemma inv_put_still s0 s c a a' i x x' y' : inv E s0 s c a -> nth_error c i = Some x ->
  cells a' = put i y' (cells a) -> rel E s x' y' -> (place E x' = place E x \/ place E x' = None) ->
  inv E s0 s (put i x' c) a'.
Proof.
  intros I Hx Ha Hr Hp. pose proof (inv_put_same E s0 s c a a' i x x' y' (events s) I Hx Ha Hr Hp) as H.
  destruct s; exact H.
Qed.

Lemma home_fits s U p v : home E s U p v -> p < 2 ^ pointer_width (cfg (tgt E)).
Proof. intros [_ _ _ H _]. apply (max_ptr_eq _ (eo_target E HE)). exact H. Qed.

Lemma zst_home s U val : layout_legal U -> hval_ok U val -> h_size U = 0 -> home E s U (h_align U) val.
Proof.
  intros Hl Hv Hs. destruct (pow2_small E (eo_target E HE) _ (ll_align U Hl)) as [L1 L2].
  constructor; try assumption.
  - pose proof (power_of_two_nz _ (ll_align U Hl)). apply zst_read; auto using N.mod_same.
  - intros Z. contradiction.
  - apply (max_ptr_eq _ (eo_target E HE)). exact L1.
Qed.

Lemma sim_new s0 s c a u U val d : inv E s0 s c a -> contract E a (NewBox u U val d) ->
  simulates E s0 s c a (NewBox u U val d).
Proof.
  intros I (Hl & Hv & Hd). destruct HE as [Ht Ha Hf _].
  assert (Hu : (if u then tb_new_unchecked E U val d else tb_new E U val d) = tb_new E U val d) by (destruct u; reflexivity).
  destruct (tb_new_spec E Ht Ha U val d s Hf Hl Hv Hd)
    as [(Hs & w & H1 & H2 & A & _ & H3)|[(Hs & Hp & H1)|(Hs & p & w & Hp & H1 & H2 & A & _ & H3)]].
  - exists false. do 5 eexists. cbn [astep step]. rewrite Hs. cbn [N.eqb].
    split; [reflexivity|]. split; [reflexivity|]. rewrite Hu.
    split; [left; unfold bind; rewrite H1; reflexivity|].
    split; [|split; [|cbn [starved]; unfold no_block; rewrite Hs; reflexivity]].
    + eapply inv_add; [exact I|reflexivity| | |].
      * cbn [rel]. split; [reflexivity|]. split; [exact H2|]. rewrite A. apply zst_home; assumption.
      * apply keeps_same; reflexivity.
      * intros b _. cbn [place]. rewrite Hs. exact Logic.I.
    + split; [|cbn [made freed dropped blocks]; lia]. eexists. split; [reflexivity|]. cbn [dropped events].
      rewrite destroyed_app, destroyed_drop. cbn. rewrite app_nil_r. reflexivity.
  - exists true. do 5 eexists. cbn [astep step]. destruct (N.eqb_spec (h_size U) 0) as [Z|_]; [contradiction|].
    split; [reflexivity|]. split; [reflexivity|]. rewrite Hu.
    split; [right; eexists; split; [reflexivity|]; unfold bind; rewrite H1; split; reflexivity|].
    split; [|split].
    + cbn [after_panic]. eapply inv_add; [exact I|reflexivity| | |].
      * exact Logic.I.
      * apply keeps_same; reflexivity.
      * intros b _. exact Logic.I.
    + split; [|cbn [made freed dropped blocks]; lia]. eexists. split; [reflexivity|]. cbn [dropped events].
      rewrite destroyed_app, destroyed_drop. cbn. rewrite app_nil_r. reflexivity.
    + cbn [starved]. unfold no_block. rewrite Hp. destruct (N.eqb_spec (h_size U) 0) as [Z|_]; [contradiction|reflexivity].
  - exists false. do 5 eexists. cbn [astep step]. destruct (N.eqb_spec (h_size U) 0) as [Z|_]; [contradiction|].
    split; [reflexivity|]. split; [reflexivity|]. rewrite Hu.
    split; [left; unfold bind; rewrite H1; reflexivity|].
    assert (Hs' : 0 < h_size U) by lia.
    destruct (Ha s _ _ p Hs' (ll_align U Hl) Hp) as (_ & _ & _ & Hc).
    split; [|split; [|cbn [starved]; unfold no_block; rewrite Hp, andb_false_r; reflexivity]].
    + eapply inv_add; [exact I|reflexivity| | |].
      * cbn [rel]. split; [reflexivity|]. split; [exact H2|]. rewrite A. constructor; try assumption.
        -- apply (stored_read E Ha); assumption.
        -- intros _. left. reflexivity.
        -- eapply Hf; [exact Hs'|apply ll_align, Hl|exact Hp].
        -- eapply (alloc_lt E Ha); [exact Hs'|apply ll_align, Hl|exact Hp].
      * apply (stored_keeps E); assumption.
      * intros b B. cbn [place]. destruct (N.eqb_spec (h_size U) 0); [exact Logic.I|]. rewrite A. cbn [clear_of].
        apply Hc, B.
    + split; [|cbn [made freed stored blocks List.length]; lia]. exists []. cbn [dead stored events].
      rewrite destroyed_app. cbn. rewrite !app_nil_r. split; reflexivity.
Qed.

(** Overwriting the contents of one box, or of what a raw pointer points to. *)
Lemma inv_write s0 s c a a' i U x p y' v e : inv E s0 s c a -> nth_error c i = Some x ->
  place E x = (if h_size U =? 0 then None else Some (p, h_size U)) ->
  cells a' = put i y' (cells a) -> layout_legal U -> hval_ok U v ->
  rel E (St (write_mem U p v (bytes s)) (blocks s) e) x y' ->
  inv E s0 (St (write_mem U p v (bytes s)) (blocks s) e) c a'.
Proof.
  intros I Hx Hp Ha Hl Hv Hr.
  assert (P : put i x c = c).
  { clear - Hx. revert i Hx. induction c as [|z c IH]; intros [|i] H; cbn in *; try reflexivity; try discriminate.
    - congruence.
    - rewrite IH by assumption. reflexivity. }
  rewrite <- P. eapply inv_put; [exact I|exact Hx|exact Ha|exact Hr|left; reflexivity| |].
  - intros; assumption.
  - intros q Hq. cbn [bytes]. apply write_mem_other; try assumption.
    rewrite Hp in Hq. destruct (N.eqb_spec (h_size U) 0) as [Z|Z]; cbn [outside] in Hq; lia.
Qed.

(** A home after its contents were overwritten. *)
Lemma home_write s U p v v' e : home E s U p v -> hval_ok U v' ->
  home E (St (write_mem U p v' (bytes s)) (blocks s) e) U p v'.
Proof.
  intros [Hl Hr Hb Hw Ha] Hv. pose proof (read_at_inv _ _ _ _ _ Hr) as (_ & Ca & _).
  constructor; try assumption. rewrite read_at_eq by exact Ca. cbn [bytes].
  rewrite read_write_mem by assumption. reflexivity.
Qed.

Lemma assign_eq s U p v v' : home E s U p v ->
  assign_at U p v' s = Ok tt (St (write_mem U p v' (bytes s)) (blocks s) (events (dropped U v s))).
Proof.
  intros [Hl Hr Hb Hw Ha]. pose proof (read_at_inv _ _ _ _ _ Hr) as (_ & Ca & _).
  assert (Ca' : can_access (dropped U v s) U p) by exact Ca.
  unfold assign_at, bind. rewrite Hr. cbn [drop_hval]. fold (dropped U v s). rewrite write_at_eq by exact Ca'. reflexivity.
Qed.

(** Freeing the block of one Rust [Box] and forgetting the variable, or keeping the value taken out. *)
Lemma inv_free s0 s c a a' i U p x' y' v e : inv E s0 s c a -> nth_error c i = Some (CRust U p) ->
  cells a' = put i y' (cells a) -> home E s U p v ->
  (forall s', rel E s' x' y') -> place E x' = None -> h_size U <> 0 ->
  inv E s0 (St (bytes s) (remove_block (Block p (h_size U) (h_align U)) (blocks s)) e) (put i x' c) a'.
Proof.
  intros I Hx Ha Hh Hr Hp Hs. eapply inv_put; [exact I|exact Hx|exact Ha|apply Hr|right; exact Hp| |].
  - intros b B C. cbn [blocks]. apply remove_block_other; [exact B|]. intros ->.
    cbn [place b_base b_size] in *. destruct (N.eqb_spec (h_size U) 0) as [Z|Z]; [contradiction|].
    cbn [clear_of] in C. lia.
  - intros; reflexivity.
Qed.

Lemma as_ref_eq U w s : tb_as_ref E U w s = read_at U (tp_as_ptr (tgt E) w) s.
Proof. reflexivity. Qed.

Lemma kill_tracks s a a' U id v : dead a' = dead a ++ [(id, U, v)] -> made a' = made a -> freed a' = freed a ->
  tracks E s a (dropped U v s) a'.
Proof.
  intros H1 H2 H3. split; [|cbn [dropped blocks]; lia]. eexists. split; [exact H1|]. cbn [dropped events].
  rewrite destroyed_app, destroyed_drop. cbn. rewrite app_nil_r. reflexivity.
Qed.

Theorem step_sim s0 s c a o : inv E s0 s c a -> contract E a o -> astep false o a <> None -> simulates E s0 s c a o.
Proof.
  intros I Hc Hn. destruct o as [u U val d|i|i|i|i f|i val|i|i|i d|i|i|i|i|i|i|i|i val|i|i val];
    [apply sim_new; assumption|..];
    cbn [astep contract] in *;
    destruct (nth_error (cells a) i) as [y|] eqn:Hy; try contradiction;
    destruct y as [U id v d0|U id v|U id v|U id v|]; try contradiction;
    destruct (inv_get E s0 s c a i _ I Hy) as (x & Hx & R);
    destruct x as [U' w|U' p|U' p|U' v'|]; cbn [rel] in R; try contradiction;
    [destruct R as (-> & Rd & Rh)|destruct R as (-> & Rd & Rh)|destruct R as (-> & Rd & Rh)|destruct R as (-> & Rd & Rh)
    |destruct R as (-> & Rd & Rh)|destruct R as (-> & Rd & Rh)|destruct R as (-> & Rd & Rh)|destruct R as (-> & Rh)
    |destruct R as (-> & Rd & Rh)|destruct R as (-> & Rh)|destruct R as (-> & Rh)|destruct R as (-> & Rh)
    |destruct R as (-> & Rh)|destruct R as (-> & Rd & Rh)|destruct R as (-> & Rh)|destruct R as (-> & Rd & Rh)
    |destruct R as (-> & Rh)|destruct R as (-> & Rh)].
  - (* Read *)
    eapply sim_still; [cbn [astep]; rewrite Hy; reflexivity|cbn [step]; rewrite Hx; reflexivity| |exact I|reflexivity..].
    unfold bind. rewrite as_ref_eq, (hm_read _ _ _ _ _ Rh). reflexivity.
  - (* ReadPtr *)
    eapply sim_still; [cbn [astep]; rewrite Hy; reflexivity|cbn [step]; rewrite Hx; reflexivity| |exact I|reflexivity..].
    unfold bind, tb_as_ptr. rewrite (hm_read _ _ _ _ _ Rh). reflexivity.
  - (* Tag *)
    eapply sim_still; [cbn [astep]; rewrite Hy; reflexivity|cbn [step]; rewrite Hx; reflexivity| |exact I|reflexivity..].
    unfold ret, tb_discriminant. rewrite Rd. reflexivity.
  - (* Modify *)
    pose proof (read_at_inv _ _ _ _ _ (hm_read _ _ _ _ _ Rh)) as (_ & Ca & _).
    exists false. do 5 eexists. cbn [astep step]. rewrite Hy, Hx.
    split; [reflexivity|]. split; [reflexivity|].
    split; [left; unfold tb_modify, bind; change (tp_mut_ref_addr (tgt E) w) with (tp_as_ptr (tgt E) w);
            rewrite (hm_read _ _ _ _ _ Rh), write_at_eq by exact Ca; reflexivity|].
    split; [|split; [|reflexivity]].
    + eapply inv_write; [exact I|exact Hx|reflexivity|reflexivity|exact (hm_legal _ _ _ _ _ Rh)|exact Hc|].
      cbn [rel]. split; [reflexivity|]. split; [exact Rd|]. apply (home_write s U _ v); assumption.
    + split; [|cbn [made freed set blocks]; lia]. exists []. cbn. rewrite !app_nil_r. split; reflexivity.
  - (* Assign *)
    exists false. do 5 eexists. cbn [astep step]. rewrite Hy, Hx.
    split; [reflexivity|]. split; [reflexivity|].
    split; [left; unfold bind; change (tb_assign E U w val s) with (assign_at U (tp_as_ptr (tgt E) w) val s); rewrite (assign_eq _ _ _ _ _ Rh); reflexivity|].
    split; [|split; [|reflexivity]].
    + eapply inv_write; [exact I|exact Hx|reflexivity|reflexivity|exact (hm_legal _ _ _ _ _ Rh)|exact Hc|].
      cbn [rel]. split; [reflexivity|]. split; [exact Rd|]. apply (home_write s U _ v); assumption.
    + split; [|cbn; lia]. eexists. split; [reflexivity|]. cbn [events dropped].
      rewrite destroyed_app, destroyed_drop. cbn. rewrite app_nil_r. reflexivity.
  - (* IntoInner *)
    eapply sim_still; [cbn [astep]; rewrite Hy; reflexivity|cbn [step]; rewrite Hx; reflexivity| | |reflexivity..].
    + unfold bind, tb_into_inner, tb_as_mut_ptr. change (tp_as_mut_ptr (tgt E) w) with (tp_as_ptr (tgt E) w).
      rewrite (hm_read _ _ _ _ _ Rh). reflexivity.
    + eapply inv_put_still; [exact I|exact Hx|reflexivity|split; reflexivity|right; reflexivity].
  - (* IntoRaw *)
    eapply sim_still; [cbn [astep]; rewrite Hy; reflexivity|cbn [step]; rewrite Hx; reflexivity|reflexivity| |reflexivity..].
    eapply inv_put_still; [exact I|exact Hx|reflexivity|split; [reflexivity|exact Rh]|left; reflexivity].
  - (* FromRaw *)
    destruct (C16_into_from E p d s (eo_target E HE) (hm_width _ _ _ _ _ Rh) (hm_addr _ _ _ _ _ Rh) Hc) as (w & W1 & W2 & W3).
    eapply sim_still; [cbn [astep]; rewrite Hy; reflexivity|cbn [step]; rewrite Hx; reflexivity| | |reflexivity..].
    + unfold bind. rewrite W1. reflexivity.
    + assert (W2' : tp_as_ptr (tgt E) w = p) by exact W2.
      eapply inv_put_still; [exact I|exact Hx|reflexivity| |left].
      * cbn [rel]. rewrite W2'. split; [reflexivity|]. split; [exact W3|exact Rh].
      * cbn [place]. rewrite W2'. reflexivity.
  - (* IntoBox *)
    eapply sim_still; [cbn [astep]; rewrite Hy; reflexivity|cbn [step]; rewrite Hx; reflexivity|reflexivity| |reflexivity..].
    eapply inv_put_still; [exact I|exact Hx|reflexivity|split; [reflexivity|exact Rh]|left; reflexivity].
  - (* RawToBox *)
    eapply sim_still; [cbn [astep]; rewrite Hy; reflexivity|cbn [step]; rewrite Hx; reflexivity|reflexivity| |reflexivity..].
    eapply inv_put_still; [exact I|exact Hx|reflexivity|split; [reflexivity|exact Rh]|left; reflexivity].
  - (* RustRead *)
    eapply sim_still; [cbn [astep]; rewrite Hy; reflexivity|cbn [step]; rewrite Hx; reflexivity| |exact I|reflexivity..].
    unfold bind, rbox_get. rewrite (hm_read _ _ _ _ _ Rh). reflexivity.
  - (* RustDrop *)
    destruct (N.eq_dec (h_size U) 0) as [Z|Z].
    + exists false. do 5 eexists. cbn [astep step]. rewrite Hy, Hx. split; [reflexivity|]. split; [reflexivity|].
      split; [left; unfold rbox_drop, bind; rewrite (hm_read _ _ _ _ _ Rh); cbn [drop_hval]; fold (dropped U v s);
              rewrite Z; reflexivity|].
      split; [|split; [|reflexivity]].
      * eapply inv_put_same; [exact I|exact Hx|reflexivity|exact Logic.I|right; reflexivity].
      * apply (kill_tracks s a _ U id v); unfold free; try rewrite Z; reflexivity.
    + exists false. do 5 eexists. cbn [astep step]. rewrite Hy, Hx. split; [reflexivity|]. split; [reflexivity|].
      pose proof (hm_block _ _ _ _ _ Rh Z) as B.
      split; [left; unfold rbox_drop, bind; rewrite (hm_read _ _ _ _ _ Rh); cbn [drop_hval]; fold (dropped U v s);
              destruct (N.eqb_spec (h_size U) 0); [contradiction|];
              rewrite dealloc_ok by exact B; reflexivity|].
      split; [|split; [|reflexivity]].
      * cbn [dropped bytes blocks]. eapply inv_free; [exact I|exact Hx|reflexivity|exact Rh|intros; exact Logic.I|reflexivity|exact Z].
      * split.
        -- eexists. split; [reflexivity|]. cbn [dropped events]. rewrite !destroyed_app, destroyed_drop.
           cbn. rewrite !app_nil_r. reflexivity.
        -- cbn [dropped blocks free kill set made freed]. destruct (N.eqb_spec (h_size U) 0); [contradiction|].
           pose proof (remove_block_length _ _ B). lia.
  - (* RustUnbox *)
    destruct (N.eq_dec (h_size U) 0) as [Z|Z].
    + exists false. do 5 eexists. cbn [astep step]. rewrite Hy, Hx. split; [reflexivity|]. split; [reflexivity|].
      split; [left; unfold rbox_unbox, bind; rewrite (hm_read _ _ _ _ _ Rh), Z; reflexivity|].
      split; [|split; [|reflexivity]].
      * eapply inv_put_still; [exact I|exact Hx|reflexivity|split; reflexivity|right; reflexivity].
      * apply tracks_refl; unfold free; try rewrite Z; reflexivity.
    + exists false. do 5 eexists. cbn [astep step]. rewrite Hy, Hx. split; [reflexivity|]. split; [reflexivity|].
      pose proof (hm_block _ _ _ _ _ Rh Z) as B.
      split; [left; unfold rbox_unbox, bind; rewrite (hm_read _ _ _ _ _ Rh);
              destruct (N.eqb_spec (h_size U) 0); [contradiction|];
              rewrite dealloc_ok by exact B; reflexivity|].
      split; [|split; [|reflexivity]].
      * eapply inv_free; [exact I|exact Hx|reflexivity|exact Rh|intros; split; reflexivity|reflexivity|exact Z].
      * split.
        -- exists []. cbn [free set dead events]. rewrite destroyed_app. cbn. rewrite !app_nil_r. split; reflexivity.
        -- cbn [blocks free set made freed]. destruct (N.eqb_spec (h_size U) 0); [contradiction|].
           pose proof (remove_block_length _ _ B). lia.
  - (* DropBox *)
    eapply sim_still; [cbn [astep]; rewrite Hy; reflexivity|cbn [step]; rewrite Hx; reflexivity|reflexivity| |reflexivity..].
    eapply inv_put_still; [exact I|exact Hx|reflexivity|exact Logic.I|right; reflexivity].
  - (* DropValue *)
    subst v'. exists false. do 5 eexists. cbn [astep step]. rewrite Hy, Hx. split; [reflexivity|]. split; [reflexivity|].
    split; [left; reflexivity|].
    split; [|split; [|reflexivity]].
    + eapply inv_put_same; [exact I|exact Hx|reflexivity|exact Logic.I|right; reflexivity].
    + apply (kill_tracks s a _ U id v); reflexivity.
  - (* AssignPtr *)
    exists false. do 5 eexists. cbn [astep step]. rewrite Hy, Hx.
    split; [reflexivity|]. split; [reflexivity|].
    split; [left; unfold bind; change (tb_as_mut_ptr E w) with (tp_as_ptr (tgt E) w); rewrite (assign_eq _ _ _ _ _ Rh); reflexivity|].
    split; [|split; [|reflexivity]].
    + eapply inv_write; [exact I|exact Hx|reflexivity|reflexivity|exact (hm_legal _ _ _ _ _ Rh)|exact Hc|].
      cbn [rel]. split; [reflexivity|]. split; [exact Rd|]. apply (home_write s U _ v); assumption.
    + split; [|cbn; lia]. eexists. split; [reflexivity|]. cbn [events dropped].
      rewrite destroyed_app, destroyed_drop. cbn. rewrite app_nil_r. reflexivity.
  - (* RawRead *)
    eapply sim_still; [cbn [astep]; rewrite Hy; reflexivity|cbn [step]; rewrite Hx; reflexivity| |exact I|reflexivity..].
    unfold bind. rewrite (hm_read _ _ _ _ _ Rh). reflexivity.
  - (* RawAssign *)
    exists false. do 5 eexists. cbn [astep step]. rewrite Hy, Hx.
    split; [reflexivity|]. split; [reflexivity|].
    split; [left; unfold bind; rewrite (assign_eq _ _ _ _ _ Rh); reflexivity|].
    split; [|split; [|reflexivity]].
    + eapply inv_write; [exact I|exact Hx|reflexivity|reflexivity|exact (hm_legal _ _ _ _ _ Rh)|exact Hc|].
      cbn [rel]. split; [reflexivity|]. apply (home_write s U _ v); assumption.
    + split; [|cbn; lia]. eexists. split; [reflexivity|]. cbn [events dropped].
      rewrite destroyed_app, destroyed_drop. cbn. rewrite app_nil_r. reflexivity.
Qed.

End Step.
