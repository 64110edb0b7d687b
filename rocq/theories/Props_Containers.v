(** Properties C35-C37: programs using containers. *)
From Coq Require Import Arith ZArith NArith String Bool List Lia.
From Verif Require Import Words Config Spec SpecMem ConfigFacts Pointer PointerFacts Fmt Mem MemFacts Box BoxFacts Bump
  Arms Macro SpecMacro MacroFacts Props_Pointer Props_Box Props_Macro Props_Layout Props_Clone Session SpecSession SessionFacts
  Props_Session Containers SpecContainers.
Import ListNotations.
Local Open Scope N_scope.
Local Open Scope list_scope.

(** ** One step *)

(** The memory behind a box, if any. *)
Definition kmem (E : env) (def : edef) (w : tagged_ptr) (v : evalue) : option (N * N) :=
  match assoc (ev_variant v) (e_variants def) with
  | Some k => match storage k with
              | Some U => if h_size U =? 0 then None else Some (tb_as_ptr E w, h_size U)
              | None => None
              end
  | None => None
  end.

(** It is a block, and none that was there at the start (in [s0]). *)
Definition khome (s0 s : st) (m : option (N * N)) : Prop :=
  match m with
  | Some (p, n) => (exists al, In (Block p n al) (blocks s)) /\
                   forall b, In b (blocks s0) -> clear_of m (Some (b_base b, b_size b))
  | None => True
  end.

Definition krel (E : env) (def : edef) (s0 s : st) (n : nat) (c : kcell) (a : kacell) : Prop :=
  match c, a with
  | KBox w, KABox _ l v => boxed E def s w v /\ evalue_ok def v /\ khome s0 s (kmem E def w v) /\ (l < n)%nat
  | KVal v, KAVal _ v' => v = v' /\ evalue_ok def v
  | KGone, KAGone => True
  | _, _ => False
  end.

(** Boxes share memory exactly if one is a copy of the other. *)
Definition kpair (E : env) (def : edef) (c1 : kcell) (a1 : kacell) (c2 : kcell) (a2 : kacell) : Prop :=
  match c1, a1, c2, a2 with
  | KBox w1, KABox _ l1 v1, KBox w2, KABox _ l2 v2 =>
      (l1 = l2 -> w1 = w2) /\ (l1 <> l2 -> clear_of (kmem E def w1 v1) (kmem E def w2 v2))
  | _, _, _, _ => True
  end.

Record kinv (E : env) (def : edef) (s0 s : st) (c : list kcell) (a : kastate) : Prop := {
  ki_rel : Forall2 (krel E def s0 s (kboxes a)) c (kcells a);
  ki_pair : forall i j y1 z1 y2 z2, nth_error c i = Some y1 -> nth_error (kcells a) i = Some z1 ->
    nth_error c j = Some y2 -> nth_error (kcells a) j = Some z2 -> i <> j -> kpair E def y1 z1 y2 z2;
  ki_base : keeps s0 s
}.

(** Blocks and destructors, when the user's code is harmless and storing destroys nothing. *)
Definition ktracks (def : edef) (s : st) (a : kastate) (s' : st) (a' : kastate) : Prop :=
  (List.length (blocks s') + kmade a = List.length (blocks s) + kmade a')%nat /\
  ((forall v k, In (v, k) (e_variants def) -> no_zst_drop def k) ->
   exists l, kdead a' = kdead a ++ l /\ destroyed (events s') = destroyed (events s) ++ kdead_destructors def l).

Lemma Forall2_nth {A B} (R : A -> B -> Prop) l m i y : Forall2 R l m -> nth_error m i = Some y ->
  exists z, nth_error l i = Some z /\ R z y.
Proof.
  intros H. revert i. induction H as [|a b l m Hab _ IH]; intros [|i] Hy; cbn in *; try discriminate.
  - injection Hy as <-. eauto.
  - eauto.
Qed.

Lemma Forall2_nth_iff {A B} (R : A -> B -> Prop) l m : Forall2 R l m <->
  List.length l = List.length m /\ forall i a b, nth_error l i = Some a -> nth_error m i = Some b -> R a b.
Proof.
  split.
  - intros H. split; [induction H; cbn; congruence|]. induction H as [|a b l m Hab _ IH]; intros [|i] a' b' Ha Hb; cbn in *; try discriminate.
    + congruence.
    + eauto.
  - revert m. induction l as [|a l IH]; intros [|b m] [L H]; cbn in *; try discriminate; constructor.
    + apply (H 0%nat); reflexivity.
    + apply IH. split; [congruence|]. intros i. apply (H (S i)).
Qed.

Lemma Forall2_put {A B} (R : A -> B -> Prop) l m i z y : Forall2 R l m -> R z y -> Forall2 R (put i z l) (put i y m).
Proof.
  intros H Hz. revert i. induction H as [|a b l m Hab H IH]; intros [|i]; cbn [put]; constructor; auto.
Qed.

Lemma Forall2_weak {A B} (R R' : A -> B -> Prop) l m : (forall x y, R x y -> R' x y) -> Forall2 R l m -> Forall2 R' l m.
Proof. intros Hi H. induction H; constructor; auto. Qed.

Lemma assoc_some {A} (l : list (string * A)) n a : assoc n l = Some a -> In (n, a) l.
Proof.
  induction l as [|[m b] l IH]; cbn [assoc]; [discriminate|]. destruct (String.eqb n m) eqn:Em.
  - apply String.eqb_eq in Em. intros H. injection H as <-. left. congruence.
  - right. auto.
Qed.

Lemma put_id {A} (y : A) l : forall i, nth_error l i = Some y -> put i y l = l.
Proof. induction l as [|z l IH]; intros [|i] H; cbn in *; try discriminate; [congruence|]. rewrite IH by exact H. reflexivity. Qed.

Section Step.
Variables (E : env) (def : edef) (x : expansion) (I : impls) (F : st -> meaning) (R : st -> st -> Prop).
Hypothesis Hs : macro_setup E def x.
Hypothesis HI : implements R def I F.
Hypothesis HR : forall s s', R s s' -> keeps s s'.

Let Hd : def_ok def := ms_def _ _ _ Hs.
Let Hx : expand def = Some x := ms_expand _ _ _ Hs.
Let H8 := setup_u8 _ _ _ Hs.

Lemma kpair_sym c1 a1 c2 a2 : kpair E def c1 a1 c2 a2 -> kpair E def c2 a2 c1 a1.
Proof.
  destruct c1, a1, c2, a2; cbn [kpair]; try tauto. intros [H1 H2]. split; [intros; symmetry; auto|].
  intros N. apply clear_sym. auto.
Qed.

Lemma krel_keeps s0 s s' n n' c a : keeps s s' -> (n <= n')%nat -> krel E def s0 s n c a -> krel E def s0 s' n' c a.
Proof.
  intros K L. destruct c, a; cbn [krel]; try tauto. intros (B & V & H & Hl). split; [eapply boxed_keeps; eassumption|].
  split; [exact V|]. split; [|lia]. destruct (kmem E def w v) as [[p m]|]; [|exact H]. destruct H as [[al Hb] H].
  split; [|exact H]. exists al. apply (K _ Hb).
Qed.

Lemma kinv_keeps s0 s s' c a a' : kinv E def s0 s c a -> keeps s s' -> kcells a' = kcells a -> kboxes a' = kboxes a ->
  kinv E def s0 s' c a'.
Proof.
  intros [H1 H2 H3] K Ha Hb. constructor; rewrite ?Ha, ?Hb.
  - eapply Forall2_weak; [|exact H1]. intros y z. apply krel_keeps; [exact K|lia].
  - exact H2.
  - eauto using keeps_trans.
Qed.

Lemma kinv_put s0 s s' c a a' i y z : kinv E def s0 s c a -> keeps s s' -> kcells a' = put i z (kcells a) ->
  (kboxes a <= kboxes a')%nat -> krel E def s0 s' (kboxes a') y z ->
  (forall j y2 z2, j <> i -> nth_error c j = Some y2 -> nth_error (kcells a) j = Some z2 -> kpair E def y z y2 z2) ->
  kinv E def s0 s' (put i y c) a'.
Proof.
  intros [H1 H2 H3] K Ha Hb Hy Hp. constructor; rewrite ?Ha.
  - apply Forall2_put; [|exact Hy]. eapply Forall2_weak; [|exact H1]. intros y' z'. apply krel_keeps; [exact K|exact Hb].
  - assert (Len : List.length c = List.length (kcells a)) by (eapply Forall2_len, H1).
    intros j1 j2 y1 z1 y2 z2 A1 A2 A3 A4 N.
    apply put_nth in A1 as [[-> ->]|[N1 A1]]; apply put_nth in A3 as [[-> ->]|[N3 A3]].
    + contradiction.
    + apply put_nth in A2 as [[_ ->]|[N2 A2]]; [|contradiction]. apply put_nth in A4 as [[? ->]|[N4 A4]]; [contradiction|].
      eapply Hp; [|eassumption..]; eassumption.
    + apply put_nth in A4 as [[_ ->]|[N4 A4]]; [|contradiction]. apply put_nth in A2 as [[? ->]|[N2 A2]]; [contradiction|].
      apply kpair_sym. eapply Hp; [|eassumption..]; eassumption.
    + apply put_nth in A2 as [[? ->]|[N2 A2]]; [contradiction|]. apply put_nth in A4 as [[? ->]|[N4 A4]]; [contradiction|].
      eapply (H2 j1 j2); eassumption.
  - eauto using keeps_trans.
Qed.

Lemma nth_add {A} (l : list A) e i y : nth_error (l ++ [e]) i = Some y ->
  nth_error l i = Some y \/ (i = List.length l /\ y = e).
Proof.
  revert i. induction l as [|b l IH]; intros i H.
  - destruct i as [|[|i]]; cbn in H; try discriminate. injection H as <-. auto.
  - destruct i as [|i]; cbn in *; [auto|]. destruct (IH i H) as [?|[-> ->]]; auto.
Qed.

Lemma kinv_add s0 s s' c a a' y z : kinv E def s0 s c a -> keeps s s' -> kcells a' = kcells a ++ [z] ->
  (kboxes a <= kboxes a')%nat -> krel E def s0 s' (kboxes a') y z ->
  (forall j y2 z2, nth_error c j = Some y2 -> nth_error (kcells a) j = Some z2 -> kpair E def y z y2 z2) ->
  kinv E def s0 s' (c ++ [y]) a'.
Proof.
  intros [H1 H2 H3] K Ha Hb Hy Hp. assert (Len : List.length c = List.length (kcells a)) by (eapply Forall2_len, H1).
  constructor; rewrite ?Ha.
  - apply Forall2_app; [|auto]. eapply Forall2_weak; [|exact H1]. intros y' z'. apply krel_keeps; [exact K|exact Hb].
  - assert (Lt : forall A (l : list A) i e, nth_error l i = Some e -> (i < List.length l)%nat)
      by (intros A l i e Hi; apply nth_error_Some; congruence).
    intros j1 j2 y1 z1 y2 z2 A1 A2 A3 A4 N.
    apply nth_add in A1 as [A1|[-> ->]]; apply nth_add in A3 as [A3|[-> ->]].
    + apply nth_add in A2 as [A2|[-> ->]]; [|apply Lt in A1; lia]. apply nth_add in A4 as [A4|[-> ->]]; [|apply Lt in A3; lia].
      eapply (H2 j1 j2); eassumption.
    + apply nth_add in A2 as [A2|[-> ->]]; [|apply Lt in A1; lia]. apply nth_add in A4 as [A4|[_ ->]]; [apply Lt in A4; lia|].
      apply kpair_sym. eapply Hp; eassumption.
    + apply nth_add in A4 as [A4|[-> ->]]; [|apply Lt in A3; lia]. apply nth_add in A2 as [A2|[_ ->]]; [apply Lt in A2; lia|].
      eapply Hp; eassumption.
    + contradiction.
  - eauto using keeps_trans.
Qed.

(** Everything a viewing step may do besides what the closure does: the [Drop] of a unit variant. *)
Definition almost (s s' : st) : Prop := exists l, s' = logged l s /\ (e_drop def = false -> l = []).

Lemma almost_keeps s s' : almost s s' -> keeps s s'.
Proof. intros (l & -> & _). apply keeps_logged. Qed.

Lemma view_runs s w v S (cb : evalue -> S -> M S) c r s' : boxed E def s w v -> evalue_ok def v ->
  cb v c s = ends r s' -> exists s'', macro_ref E x S w cb c s = ends r s'' /\ almost s' s''.
Proof.
  intros B (k & Hin & Ht) C.
  assert (D : quiet def v \/ In (ev_variant v, KUnit) (e_variants def)).
  { destruct k; [right; exact Hin|left..]; right; intros U;
      pose proof (assoc_in _ _ _ (do_names _ Hd) Hin); pose proof (assoc_in _ _ _ (do_names _ Hd) U); congruence. }
  destruct D as [Q|U].
  - exists s'. rewrite (boxed_ref E def x Hd Hx H8 s w v) by assumption. split; [exact C|].
    exists []. rewrite logged_nil. auto.
  - rewrite (boxed_ref_unit E def x Hd Hx H8 s w v) by assumption. unfold at_exit. rewrite C.
    destruct (e_drop def) eqn:Ed.
    + exists (log (EvDrop (e_name def) []) s'). split; [destruct r; reflexivity|].
      exists [EvDrop (e_name def) []]. split; [reflexivity|congruence].
    + exists s'. split; [destruct r; reflexivity|]. exists []. rewrite logged_nil. auto.
Qed.

Lemma almost_trans a b c : almost a b -> almost b c -> almost a c.
Proof.
  intros (l & -> & Hl) (m & -> & Hm). exists (l ++ m). split; [unfold logged; cbn; rewrite app_assoc; reflexivity|].
  intros D. rewrite Hl, Hm by exact D. reflexivity.
Qed.

Lemma almost_refl s : almost s s.
Proof. exists []. rewrite logged_nil. auto. Qed.

Lemma ended_ends {A} (m : M A) s r t : m s = ends r t -> ended m s = t.
Proof. unfold ended. intros ->. destruct r; reflexivity. Qed.

Lemma ended_some {A} (m : M A) s : ended (bind m (fun a => ret (Some a))) s = ended m s.
Proof. unfold ended, bind, ret. destruct (m s); reflexivity. Qed.

(** Viewing one or two boxes with user code. *)
Lemma view_one {A} s w v (m : evalue -> A -> M A) c0 r : boxed E def s w v -> evalue_ok def v ->
  computes R s (m v c0) r -> exists s', macro_ref E x A w m c0 s = ends r s' /\ almost (ended (m v c0) s) s' /\ R s (ended (m v c0) s).
Proof.
  intros B V (s1 & C1 & R1). rewrite (ended_ends _ _ _ _ C1).
  destruct (view_runs s w v A m c0 r s1 B V C1) as (s2 & V1 & V2). eauto.
Qed.

Lemma view_two {A} s w1 v1 w2 v2 (m : evalue -> evalue -> M A) (c0 : A) r :
  boxed E def s w1 v1 -> evalue_ok def v1 -> boxed E def s w2 v2 -> evalue_ok def v2 ->
  computes R s (m v1 v2) r ->
  exists s', macro_ref E x A w1 (fun this z => macro_ref E x A w2 (fun other z' => m this other) z) c0 s = ends r s' /\
    almost (ended (m v1 v2) s) s' /\ R s (ended (m v1 v2) s).
Proof.
  intros B1 V1 B2 V2 C.
  destruct (view_one s w2 v2 (fun other (_ : A) => m v1 other) c0 r B2 V2 C) as (s1 & W1 & W2 & W3).
  destruct (view_runs s w1 v1 A (fun this z => macro_ref E x A w2 (fun other _ => m this other) z) c0 r s1 B1 V1 W1) as (s2 & X1 & X2).
  exists s2. split; [exact X1|]. split; [eapply almost_trans; [exact W2|exact X2]|exact W3].
Qed.

Lemma destroyed_drop_events tys vs : destroyed (drop_events tys vs) =
  map (fun y => (ty_name (fst y), snd y)) (filter (fun y => ty_drop (fst y)) (combine tys vs)).
Proof.
  revert vs. induction tys as [|t tys IH]; intros [|v vs]; cbn [drop_events combine filter map fst]; try reflexivity.
  rewrite destroyed_app, IH. destruct (ty_drop t); reflexivity.
Qed.

(** A box in a block of its own shares memory with no other. *)
Lemma fresh_pair s0 s s' c a k w id v : kinv E def s0 s c a -> In (ev_variant v, k) (e_variants def) -> own_block E s s' k w ->
  khome s0 s' (kmem E def w v) /\
  forall j y2 z2, nth_error c j = Some y2 -> nth_error (kcells a) j = Some z2 ->
    kpair E def (KBox w) (KABox id (kboxes a) v) y2 z2.
Proof.
  intros H Hin O.
  assert (M : match kmem E def w v with
              | Some (p, n) => (exists al, In (Block p n al) (blocks s')) /\
                               forall b, In b (blocks s) -> clear_of (Some (p, n)) (Some (b_base b, b_size b))
              | None => True end).
  { unfold kmem. rewrite (assoc_in _ _ _ (do_names _ Hd) Hin). unfold own_block in O. destruct (storage k) as [U|]; [|exact Logic.I].
    destruct (h_size U =? 0); [exact Logic.I|]. destruct O as [-> O]. split; [eexists; left; reflexivity|]. exact O. }
  split.
  - unfold khome. destruct (kmem E def w v) as [[p n]|]; [|exact Logic.I]. destruct M as [M1 M2]. split; [exact M1|].
    intros b Hb. apply M2. apply (ki_base _ _ _ _ _ _ H _ Hb).
  - intros j y2 z2 Hy Hz. destruct (Forall2_nth _ _ _ _ _ (ki_rel _ _ _ _ _ _ H) Hz) as (y & Hy' & R2).
    rewrite Hy in Hy'. injection Hy' as <-. destruct y2 as [w2|v2|], z2 as [id2 l2 v2'|id2 v2'|]; cbn [kpair]; try exact Logic.I.
    cbn [krel] in R2. destruct R2 as (_ & _ & H2 & L2). split; [intros; lia|]. intros _.
    destruct (kmem E def w v) as [[p n]|]; [|exact Logic.I]. destruct (kmem E def w2 v2') as [[q m]|]; [|exact Logic.I].
    destruct H2 as [[al Hb] _]. apply (proj2 M _ Hb).
Qed.

(** The variables after storing a value in variable [i] or a new one. *)
Definition kplace_c (i : option nat) (z : kcell) (c : list kcell) : list kcell :=
  match i with Some i => put i z c | None => c ++ [z] end.

Lemma kinv_place s0 s s' c a a' i y z : kinv E def s0 s c a -> keeps s s' -> kcells a' = kplace i z (kcells a) ->
  (kboxes a <= kboxes a')%nat -> krel E def s0 s' (kboxes a') y z ->
  (forall j y2 z2, nth_error c j = Some y2 -> nth_error (kcells a) j = Some z2 -> kpair E def y z y2 z2) ->
  kinv E def s0 s' (kplace_c i y c) a'.
Proof. destruct i; cbn [kplace kplace_c]; intros; [eapply kinv_put|eapply kinv_add]; try eassumption; eauto. Qed.

(** Without memory, storing panics. *)
Lemma no_room_null v s : evalue_fits E def v -> no_room E def v s = true ->
  exists s', container_from E x v s = Panicked PanicNullAlloc s'.
Proof.
  intros [(k & Hin & Ht) Hfit] N. unfold no_room in N. rewrite (assoc_in _ _ _ (do_names _ Hd) Hin) in N. unfold no_block in N.
  destruct (macro_into_spec E def x Hd Hx H8 (ms_env _ _ _ Hs) v k s Hin Ht Hfit)
    as [(Hz & _) | [(U & _ & _ & _ & P) | (U & p & w & A1 & A2 & A3 & _)]].
  - destruct (storage k) as [U|]; [|discriminate]. rewrite Hz in N. discriminate.
  - eexists. exact P.
  - rewrite A1, A3, andb_false_r in N. discriminate.
Qed.

(** Storing a value. *)
Lemma store_runs s0 s c v id i (a : kastate) : kinv E def s0 s c a -> evalue_fits E def v ->
  exists fail s' m, container_from E x v s = m /\ keeps s s' /\
    let (r, a') := kstore def fail i id v a in
    (exists z, match m with Ok w t => t = s' /\ z = KBox w /\ r = KNothing
                       | Panicked p t => t = s' /\ z = KGone /\ r = KSawPanic p
                       | UB _ => False end /\
       kinv E def s0 s' (kplace_c i z c) a') /\
    ktracks def s a s' a' /\
    fail = no_room E def v s.
Proof.
  intros H [(k & Hin & Ht) Hfit]. assert (V : evalue_ok def v) by (exists k; auto).
  assert (Nb : needs_block def v = match storage k with Some U => negb (h_size U =? 0) | None => false end).
  { unfold needs_block. rewrite (assoc_in _ _ _ (do_names _ Hd) Hin). reflexivity. }
  destruct (container_from_fresh E def x v k s Hs Hin Ht Hfit) as [(w & s3 & F1 & F2 & F3 & F4 & F5) | (U & s3 & F1 & F2 & F3 & F4 & F5 & F6 & F7)].
  - exists false, s3. eexists. split; [exact F1|]. split; [exact F2|]. unfold kstore. rewrite andb_false_r.
    split; [|split; [|]].
    3: { destruct (no_room E def v s) eqn:Nr; [|reflexivity].
         destruct (no_room_null v s (conj V Hfit) Nr) as (s4 & P4). congruence. }
    + eexists. split; [auto|]. destruct (fresh_pair s0 s s3 c a k w id v H Hin F4) as [G1 G2].
      eapply kinv_place; [exact H|exact F2|reflexivity|cbn [kboxes]; lia| |exact G2].
      cbn [krel kboxes]. repeat split; auto.
    + split.
      * cbn [kmade]. rewrite Nb. unfold own_block in F4. destruct (storage k) as [U|]; [|rewrite F4; lia].
        destruct (h_size U =? 0); cbn [negb]; [rewrite F4; lia|]. destruct F4 as [-> _]. cbn. lia.
      * intros Hz. exists []. cbn [kdead]. rewrite !app_nil_r. split; [reflexivity|]. apply F5. eapply Hz, Hin.
  - exists true, s3. eexists. split; [exact F4|]. split; [exact F5|]. unfold kstore. rewrite Nb, F1.
    rewrite (proj2 (N.eqb_neq _ _) F2). cbn [negb andb].
    split; [|split].
    + eexists. split; [auto|]. eapply kinv_place; [exact H|exact F5|reflexivity|cbn [kboxes]; lia|exact Logic.I|].
      intros; exact Logic.I.
    + split; [cbn [kmade]; rewrite F6; reflexivity|]. intros Hz. exists [(id, v)]. cbn [kdead]. split; [reflexivity|].
      rewrite F7 by (apply (Hz _ _ Hin)). f_equal. unfold kdead_destructors. cbn [flat_map snd]. rewrite app_nil_r.
      unfold value_destructors. rewrite (assoc_in _ _ _ (do_names _ Hd) Hin). unfold destructors.
      destruct (storage_legal k U (kind_types_wf _ _ _ Hd Hin) F1) as [_ ->]. reflexivity.
    + unfold no_room, no_block. rewrite (assoc_in _ _ _ (do_names _ Hd) Hin), F1, F3, (proj2 (N.eqb_neq _ _) F2). reflexivity.
Qed.

(** Changing the value of a single-field variant in place. *)
Lemma boxed_apart s s' w v p n : boxed E def s w v -> blocks s' = blocks s ->
  (forall q, q < p \/ p + n <= q -> bytes s' q = bytes s q) -> clear_of (Some (p, n)) (kmem E def w v) ->
  boxed E def s' w v.
Proof.
  intros (i & k & Hi & Ht & B) Hb Hby C. exists i, k. split; [exact Hi|]. split; [exact Ht|].
  pose proof (nth_error_In _ _ Hi) as Hin. unfold kmem in C. rewrite (assoc_in _ _ _ (do_names _ Hd) Hin) in C.
  destruct (storage k) as [U|] eqn:Es; [|exact B].
  destruct (storage_legal k U (kind_types_wf _ _ _ Hd Hin) Es) as [Hl _].
  eapply (box_holds_addr E); [exact Hl|reflexivity|]. apply box_holds_inv in B.
  apply read_at_inv in B as (_ & (A1 & A2 & A3) & A4). rewrite read_at_eq.
  - rewrite (read_fields_ext _ _ (bytes s)), A4; [reflexivity|]. intros f q Hf Hq. apply Hby.
    pose proof (ll_inside U Hl) as Hin'. rewrite Forall_forall in Hin'. specialize (Hin' f Hf). unfold in_field in Hq.
    destruct (N.eqb_spec (h_size U) 0); [lia|]. cbn [clear_of] in C. unfold tb_as_ptr in C. lia.
  - split; [exact A1|]. split; [exact A2|]. unfold accessible in *. rewrite Hb. exact A3.
Qed.

(** One value behind a word. *)
Lemma boxed_inj s w v v' : boxed E def s w v -> boxed E def s w v' -> v = v'.
Proof.
  intros H H'. pose proof (boxed_into_inner E def x Hd Hx H8 s w v H). pose proof (boxed_into_inner E def x Hd Hx H8 s w v' H').
  congruence.
Qed.

Lemma nth_kwrite loc v l i : nth_error (kwrite loc v l) i =
  match nth_error l i with
  | Some (KABox id k u) => Some (if Nat.eqb k loc then KABox id loc v else KABox id k u)
  | r => r
  end.
Proof. unfold kwrite. rewrite nth_error_map. destruct (nth_error l i) as [[]|]; reflexivity. Qed.

(** The state after writing [v'] into the box of variable [i]. *)
Lemma kinv_write s0 s s' c a a' i w id loc v v' t : kinv E def s0 s c a ->
  nth_error c i = Some (KBox w) -> nth_error (kcells a) i = Some (KABox id loc v) ->
  In (ev_variant v, KTuple [t]) (e_variants def) -> ev_variant v' = ev_variant v -> evalue_ok def v' ->
  box_holds E s' (leaf_hty t) w (ev_fields v') -> blocks s' = blocks s ->
  (forall q, q < tb_as_ptr E w \/ tb_as_ptr E w + ty_size t <= q -> bytes s' q = bytes s q) ->
  kcells a' = kwrite loc v' (kcells a) -> kboxes a' = kboxes a -> kinv E def s0 s' c a'.
Proof.
  intros H Hc Ha Hin Ev V' B' Hb Hby Hk Hn.
  assert (Mv : forall w2 v2, ev_variant v2 = ev_variant v' -> kmem E def w2 v2 = kmem E def w2 v').
  { intros w2 v2 Eq. unfold kmem. rewrite Eq. reflexivity. }
  pose proof (Forall2_nth _ _ _ _ _ (ki_rel _ _ _ _ _ _ H) Ha) as (y & Hy & R1). rewrite Hc in Hy. injection Hy as <-.
  cbn [krel] in R1. destruct R1 as (B & V & Hm & Lt).
  assert (Bw : boxed E def s' w v').
  { destruct B as (n & k & Hi & Htag & _). exists n, k. rewrite Ev. split; [exact Hi|]. split; [exact Htag|].
    assert (k = KTuple [t]).
    { pose proof (assoc_in _ _ _ (do_names _ Hd) Hin). pose proof (assoc_in _ _ _ (do_names _ Hd) (nth_error_In _ _ Hi)). congruence. }
    subst k. exact B'. }
  assert (Same : forall j w2 id2 v2, nth_error c j = Some (KBox w2) -> nth_error (kcells a) j = Some (KABox id2 loc v2) -> w2 = w).
  { intros j w2 id2 v2 Hj Hj'. destruct (Nat.eq_dec i j) as [<-|N]; [congruence|].
    pose proof (ki_pair _ _ _ _ _ _ H i j _ _ _ _ Hc Ha Hj Hj' N) as [P _]. symmetry. apply P. reflexivity. }
  constructor.
  - rewrite Hk, Hn. apply Forall2_nth_iff. split.
    { unfold kwrite. rewrite map_length. eapply Forall2_len, (ki_rel _ _ _ _ _ _ H). }
    intros j y z Hj Hz. rewrite nth_kwrite in Hz. destruct (nth_error (kcells a) j) as [z0|] eqn:Hz0; [|discriminate].
    pose proof (Forall2_nth _ _ _ _ _ (ki_rel _ _ _ _ _ _ H) Hz0) as (y' & Hy' & R2). rewrite Hj in Hy'. injection Hy' as <-.
    destruct y as [w2|u|], z0 as [id2 l2 v2|id2 u2|]; cbn [krel] in R2; try contradiction.
    + destruct R2 as (B2 & V2 & Hm2 & Lt2). destruct (Nat.eqb_spec l2 loc) as [->|N]; injection Hz as <-; cbn [krel].
      * assert (w2 = w) by (eapply Same; eassumption). subst w2.
        split; [exact Bw|]. split; [exact V'|]. split; [|exact Lt].
        rewrite (Mv w v) in Hm by congruence. unfold khome in *. rewrite Hb. exact Hm.
      * split; [|split; [exact V2|split; [unfold khome in *; rewrite Hb; exact Hm2|exact Lt2]]].
        assert (Nij : i <> j) by (intros <-; congruence).
        pose proof (ki_pair _ _ _ _ _ _ H i j _ _ _ _ Hc Ha Hj Hz0 Nij) as [_ P]. specialize (P (not_eq_sym N)).
        unfold kmem at 1 in P. rewrite (assoc_in _ _ _ (do_names _ Hd) Hin) in P. cbn [storage leaf_hty h_size] in P.
        destruct (N.eqb_spec (ty_size t) 0) as [Z|Z].
        -- assert (K : keeps s s') by (intros b Hb'; rewrite Hb; split; [exact Hb'|]; intros q _; apply Hby; lia).
           eapply boxed_keeps; [exact Hd|exact K|exact B2].
        -- eapply boxed_apart; [exact B2|exact Hb|exact Hby|exact P].
    + injection Hz as <-. exact R2.
    + injection Hz as <-. exact R2.
  - intros j1 j2 y1 z1 y2 z2 A1 A2 A3 A4 N. rewrite Hk in A2, A4. rewrite nth_kwrite in A2, A4.
    destruct (nth_error (kcells a) j1) as [u1|] eqn:U1; [|discriminate]. destruct (nth_error (kcells a) j2) as [u2|] eqn:U2; [|discriminate].
    pose proof (ki_pair _ _ _ _ _ _ H j1 j2 _ _ _ _ A1 U1 A3 U2 N) as P.
    assert (Var : forall j w2 id2 l2 v2, nth_error c j = Some (KBox w2) -> nth_error (kcells a) j = Some (KABox id2 l2 v2) ->
              kmem E def w2 (if Nat.eqb l2 loc then v' else v2) = kmem E def w2 v2).
    { intros j w2 id2 l2 v2 Hj Hj'. destruct (Nat.eqb_spec l2 loc) as [->|]; [|reflexivity].
      assert (w2 = w) by (eapply Same; eassumption). subst w2.
      pose proof (Forall2_nth _ _ _ _ _ (ki_rel _ _ _ _ _ _ H) Hj') as (y & Hy & R2). rewrite Hj in Hy. injection Hy as <-.
      cbn [krel] in R2. destruct R2 as (B2 & _). rewrite <- (boxed_inj s w v v2 B B2). symmetry. apply Mv. congruence. }
    destruct y1 as [w1|e1|], u1 as [i1 l1 v1|i1 f1|], y2 as [w2|e2|], u2 as [i2 l2 v2|i2 f2|]; cbn [kpair] in P |- *;
      injection A2 as <-; injection A4 as <-; try exact Logic.I;
      try (destruct (Nat.eqb l1 loc); exact Logic.I); try (destruct (Nat.eqb l2 loc); exact Logic.I).
    pose proof (Var j1 w1 i1 l1 v1 A1 U1) as W1. pose proof (Var j2 w2 i2 l2 v2 A3 U2) as W2.
    destruct (Nat.eqb_spec l1 loc) as [->|], (Nat.eqb_spec l2 loc) as [->|]; cbn [kpair]; rewrite ?W1, ?W2; exact P.
  - intros b Hb0. destruct (ki_base _ _ _ _ _ _ H b Hb0) as [K1 K2]. split; [rewrite Hb; exact K1|].
    intros q Hq. rewrite <- (K2 q Hq). apply Hby. unfold khome, kmem in Hm. rewrite (assoc_in _ _ _ (do_names _ Hd) Hin) in Hm.
    cbn [storage leaf_hty h_size] in Hm. destruct (N.eqb_spec (ty_size t) 0); [lia|].
    destruct Hm as [_ Hm]. specialize (Hm b Hb0). cbn [clear_of] in Hm. lia.
Qed.

(** The [From] impl found by the payload's type. *)
Lemma payload_found src n vals : payload_variant def src = Some n -> evalue_ok def (EV n vals) ->
  exists f, find (fun f => match f with
                           | FromLeaf t _ => String.eqb (ty_name t) src
                           | FromTuple tys _ _ => String.eqb ("(" ++ String.concat ", " (map ty_name tys) ++ ")") src
                           end) (x_froms x) = Some f /\
    forall s, container_from_payload E x f vals s = container_from E x (EV n vals) s.
Proof.
  unfold payload_variant. destruct (find _ (e_variants def)) as [[v k]|] eqn:Fi; [|discriminate].
  intros En (k' & Hin' & Ht). cbn in En. injection En as ->. apply find_some in Fi as [Hin Hk]. cbn [snd] in Hk.
  cbn [ev_variant ev_fields] in *.
  assert (k' = k) by (pose proof (assoc_in _ _ _ (do_names _ Hd) Hin); pose proof (assoc_in _ _ _ (do_names _ Hd) Hin'); congruence).
  subst k'. apply existsb_exists in Hk as (key & Hkey & Eq). apply String.eqb_eq in Eq. subst key.
  destruct k as [|tys|ms]; [destruct Hkey| |destruct Hkey].
  assert (K : src = match tys with [t] => ty_name t | _ => tuple_name (map ty_name tys) end).
  { destruct tys as [|t [|t2 tys]]; cbn in Hkey; destruct Hkey as [<-|[]]; reflexivity. }
  destruct (C30_builds E def x n tys Hd Hx Hin) as (f & Hf & Hsrc & Hrun).
  assert (G : forall g, (match g with
                         | FromLeaf t _ => String.eqb (ty_name t) src
                         | FromTuple tys _ _ => String.eqb ("(" ++ String.concat ", " (map ty_name tys) ++ ")") src
                         end = true <-> from_source g = src)).
  { intros [t v0|ts v0 idx]; cbn [from_source]; unfold tuple_name; rewrite String.eqb_eq; reflexivity. }
  destruct (find _ (x_froms x)) as [g|] eqn:Fg.
  - exists g. split; [reflexivity|]. apply find_some in Fg as [Hg Sg]. apply G in Sg.
    assert (g = f) by (apply (proj2 (C30_unambiguous def x Hd Hx)); [assumption|assumption|congruence]). subst g.
    intros s. apply Hrun. symmetry. eapply Forall2_len, Ht.
  - exfalso. pose proof (find_none _ _ Fg f Hf) as Hn. cbv beta in Hn. rewrite <- not_true_iff_false in Hn.
    apply Hn, G. congruence.
Qed.

Definition kdoes (o : kop) (c : list kcell) (m : M (kobs * list kcell)) (s : st) (r : kobs) (c' : list kcell) (s' : st) : Prop :=
  m s = Ok (r, c') s' \/ exists p, r = KSawPanic p /\ m s = Panicked p s' /\ c' = kafter_panic o c.

Definition ksim (s0 s : st) (c : list kcell) (a : kastate) (o : kop) : Prop :=
  exists fail m r a' c' s', kastep def (F s) fail o a = Some (r, a') /\ kstep E x I o c = Some m /\ kdoes o c m s r c' s' /\
    kinv E def s0 s' c' a' /\
    ((R s (kcalled I o a s) \/ kcalled I o a s = s) /\ ktracks def (kcalled I o a s) a s' a') /\
    fail = kstarved E def x I o c s.

Lemma looked {A} (f : A -> kobs) (r : outcome A) c s o : kafter_panic o c = c ->
  (match ends r s with
   | Ok b t => ret (f b, c) t
   | Panicked p t => Panicked p t
   | UB u => UB u
   end = Ok (ksee f r, c) s) \/
  (exists p, ksee f r = KSawPanic p /\
     match ends r s with
     | Ok b t => ret (f b, c) t
     | Panicked p t => Panicked p t
     | UB u => UB u
     end = Panicked p s /\ kafter_panic o c = c).
Proof. destruct r as [b|p]; cbn [ends ksee]; eauto. Qed.

Lemma place_nth l : NoDup (map fst l) -> forall i n (k : vkind), nth_error l i = Some (n, k) -> place n l = N.of_nat i.
Proof.
  induction l as [|[m k0] l IH]; intros Nd i n k H; [destruct i; discriminate|]. cbn [map fst] in Nd.
  apply NoDup_cons_iff in Nd as [Nm Nd]. destruct i as [|i]; cbn [nth_error] in H.
  - injection H as <- <-. cbn [place]. rewrite String.eqb_refl. reflexivity.
  - cbn [place]. destruct (String.eqb_spec n m) as [->|].
    + destruct Nm. apply nth_error_In, (in_map fst) in H. exact H.
    + rewrite (IH Nd i n k H). lia.
Qed.

Lemma boxed_tag s w v : boxed E def s w v -> tb_discriminant E w = place (ev_variant v) (e_variants def).
Proof. intros (i & k & Hi & Ht & _). rewrite Ht. symmetry. eapply place_nth; [apply (do_names _ Hd)|exact Hi]. Qed.

Lemma user_keeps s t : R s t \/ t = s -> keeps s t.
Proof. intros [H| ->]; [apply HR, H|apply keeps_refl]. Qed.

(** Steps that only look. *)
Lemma ksim_look s0 s c a o r m s' : kinv E def s0 s c a -> kastep def (F s) false o a = Some (r, a) -> kstep E x I o c = Some m ->
  m s = Ok (r, c) s' \/ (exists p, r = KSawPanic p /\ m s = Panicked p s' /\ kafter_panic o c = c) ->
  almost (kcalled I o a s) s' -> R s (kcalled I o a s) \/ kcalled I o a s = s ->
  kstarved E def x I o c s = false -> ksim s0 s c a o.
Proof.
  intros H H1 H2 H3 H4 H5 H6. exists false, m, r, a, c, s'. split; [exact H1|]. split; [exact H2|].
  split; [destruct H3 as [H3|(p & -> & H3 & H7)]; [left; exact H3|right; exists p; auto]|].
  split; [apply (kinv_keeps s0 s s' c a a); auto; eapply keeps_trans; [apply user_keeps, H5|apply almost_keeps, H4]|].
  split; [|symmetry; assumption]. split; [exact H5|].
  destruct H4 as (l & -> & D). split; [cbn; lia|]. intros Hz. exists []. rewrite !app_nil_r. split; [reflexivity|].
  rewrite D, logged_nil; [reflexivity|]. destruct (e_variants def) as [|[v k] l'] eqn:Ev; [destruct (do_some _ Hd Ev)|].
  destruct (Hz v k (or_introl eq_refl)) as [Hz' _]. exact Hz'.
Qed.

Lemma only_field_leaf n t : only_field def n = Some t -> In (n, KTuple [t]) (e_variants def) /\ leaf_type x n = Some t.
Proof.
  unfold only_field, leaf_type. rewrite (xp_enum _ _ (expand_inv _ _ Hx)).
  destruct (assoc n (e_variants def)) as [[|[|u [|]]|]|] eqn:A; try discriminate. intros Eq. injection Eq as ->.
  split; [|reflexivity]. apply assoc_some, A.
Qed.

Lemma boxed_leaf s w v t : boxed E def s w v -> In (ev_variant v, KTuple [t]) (e_variants def) ->
  box_holds E s (leaf_hty t) w (ev_fields v) /\ layout_legal (leaf_hty t).
Proof.
  intros (i & k & Hi & _ & B) Hin.
  assert (k = KTuple [t]).
  { pose proof (assoc_in _ _ _ (do_names _ Hd) Hin). pose proof (assoc_in _ _ _ (do_names _ Hd) (nth_error_In _ _ Hi)). congruence. }
  subst k. split; [exact B|]. apply (storage_legal (KTuple [t]) _ (kind_types_wf _ _ _ Hd Hin) eq_refl).
Qed.

Lemma leaf_value v t : In (ev_variant v, KTuple [t]) (e_variants def) -> evalue_ok def v -> Forall2 has_type [t] (ev_fields v).
Proof.
  intros Hin (k & Hin' & Ht).
  assert (k = KTuple [t]) by (pose proof (assoc_in _ _ _ (do_names _ Hd) Hin); pose proof (assoc_in _ _ _ (do_names _ Hd) Hin'); congruence).
  subst k. exact Ht.
Qed.

Lemma leaf_hval t vals : Forall2 has_type [t] vals -> hval_ok (leaf_hty t) vals.
Proof. intros H. exact H. Qed.

Theorem kstep_sim s0 s c a o : kinv E def s0 s c a -> kcontract E def (F s) a o -> kastep def (F s) false o a <> None -> ksim s0 s c a o.
Proof.
  intros H Hc Hn. destruct o as [v|i|src vals|i|i|i j|i j|i j|i o out|i o out|i o out|i|i|i n f|i n val|i|i|i|i]; cbn [kastep] in Hn.
  - (* KNew *)
    exists false. do 5 eexists. split; [reflexivity|]. split; [reflexivity|]. split; [left; reflexivity|].
    split; [|split; [|cbn [kstarved]; rewrite ?Hz; reflexivity]].
    + eapply kinv_add; [exact H|apply keeps_refl|reflexivity|reflexivity|split; [reflexivity|exact Hc]|intros; exact Logic.I].
    + split; [right; reflexivity|]. split; [reflexivity|]. intros _. exists []. cbn [kdead kcalled]. rewrite !app_nil_r. auto.
  - (* KFrom *)
    destruct (nth_error (kcells a) i) as [[id loc v|id v|]|] eqn:Hy; try contradiction.
    destruct (Forall2_nth _ _ _ _ _ (ki_rel _ _ _ _ _ _ H) Hy) as ([w|v'|] & Hz & Rz); cbn [krel] in Rz; try contradiction.
    destruct Rz as [-> V].
    destruct (store_runs s0 s c v id (Some i) a H (conj V (Hc id v Hy))) as (fail & s' & m & M1 & M2 & M3).
    exists fail. destruct (kstore def fail (Some i) id v a) as [r a'] eqn:St0. destruct M3 as ((z & Mz & Hi) & Tr & Fl).
    eexists. exists r, a', (put i z c), s'. cbn [kastep kstep]. rewrite Hy, Hz, St0.
    split; [reflexivity|]. split; [reflexivity|]. split.
    + unfold kdoes, bind. rewrite M1. destruct m as [w t|p t|u]; [| |contradiction]; destruct Mz as (-> & -> & ->).
      * left. reflexivity.
      * right. exists p. auto.
    + split; [exact Hi|]. split; [split; [right; reflexivity|exact Tr]|cbn [kstarved]; rewrite Hz; exact Fl].
  - (* KFromPayload *)
    destruct (payload_variant def src) as [n|] eqn:Pv; [|contradiction].
    cbn [kcontract] in Hc. rewrite Pv in Hc.
    destruct (payload_found src n vals Pv (proj1 Hc)) as (f & Ff & Hf).
    destruct (store_runs s0 s c (EV n vals) (knext a) None (kfresh a)
                (kinv_keeps s0 s s c a (kfresh a) H (keeps_refl s) eq_refl eq_refl) Hc) as (fail & s' & m & M1 & M2 & M3).
    exists fail. destruct (kstore def fail None (knext a) (EV n vals) (kfresh a)) as [r a'] eqn:St0.
    destruct M3 as ((z & Mz & Hi) & Tr & Fl).
    eexists. exists r, a', (c ++ [z]), s'. cbn [kastep kstep]. rewrite Pv, Ff, St0.
    split; [reflexivity|]. split; [reflexivity|]. split.
    + unfold kdoes, bind. rewrite Hf, M1. destruct m as [w t|p t|u]; [| |contradiction]; destruct Mz as (-> & -> & ->).
      * left. reflexivity.
      * right. exists p. auto.
    + split; [exact Hi|]. split; [split; [right; reflexivity|exact Tr]|cbn [kstarved]; rewrite Pv; exact Fl].
  - (* KClone *)
    destruct (nth_error (kcells a) i) as [[id loc v|id v|]|] eqn:Hy; try contradiction.
    destruct (Forall2_nth _ _ _ _ _ (ki_rel _ _ _ _ _ _ H) Hy) as ([w|v'|] & Hz & Rz); cbn [krel] in Rz; try contradiction.
    destruct Rz as (B & V & Hm & Hlt). destruct (im_clone _ _ _ _ HI s v V) as [Cc Vc].
    assert (Cs : computes R s (bind (i_clone I v) (fun c0 => ret (Some c0)))
                   (match m_clone (F s) v with Done c0 => Done (Some c0) | Panics p => Panics p end)).
    { destruct Cc as (s1 & C1 & R1). exists s1. unfold bind. rewrite C1. destruct (m_clone (F s) v); auto. }
    destruct (view_one s w v (fun this (_ : option evalue) => bind (i_clone I this) (fun c0 => ret (Some c0))) None _ B V Cs)
      as (s1 & V1 & V2 & V3).
    rewrite ended_some in V2, V3.
    assert (Kc : kcalled I (KClone i) a s = ended (i_clone I v) s) by (cbn [kcalled]; rewrite Hy; reflexivity).
    assert (K1 : keeps s s1) by (eapply keeps_trans; [apply HR, V3|apply almost_keeps, V2]).
    assert (L : blocks s1 = blocks (ended (i_clone I v) s)) by (destruct V2 as (lg & -> & _); reflexivity).
    assert (D : e_drop def = false -> events s1 = events (ended (i_clone I v) s))
      by (destruct V2 as (lg & -> & Hlg); intros Dr; rewrite Hlg, logged_nil by exact Dr; reflexivity).
    destruct (m_clone (F s) v) as [cv|p] eqn:Mc; cbn [ends] in V1.
    + specialize (Vc cv eq_refl).
      destruct (store_runs s0 s1 c cv (knext a) None (kfresh a)
                  (kinv_keeps s0 s s1 c a (kfresh a) H K1 eq_refl eq_refl) (conj Vc (Hc id loc v cv Hy Mc))) as (fail & s' & m & M1 & M2 & M3).
      exists fail. destruct (kstore def fail None (knext a) cv (kfresh a)) as [r a'] eqn:St0.
      destruct M3 as ((z & Mz & Hi) & Tr & Fl).
      eexists. exists r, a', (c ++ [z]), s'. cbn [kastep kstep]. rewrite Hy, Hz, Mc, St0.
      split; [reflexivity|]. split; [reflexivity|].
      assert (Ru : tb_clone (macro_taggable E x) (i_clone I) w s = m).
      { unfold tb_clone. unfold bind at 1. cbn [ref_from_tagged_box macro_taggable into_tagged_box]. rewrite V1. exact M1. }
      split.
      * unfold kdoes, bind. rewrite Ru. destruct m as [w' t|p t|u]; [| |contradiction]; destruct Mz as (-> & -> & ->).
        -- left. reflexivity.
        -- right. exists p. auto.
      * split; [exact Hi|]. split; [|cbn [kstarved]; rewrite Hz, V1; exact Fl].
        -- rewrite Kc. split; [left; exact V3|]. destruct Tr as [T1 T2]. cbn [kfresh kmade kdead] in *. split; [rewrite <- L; exact T1|].
           intros Hq. destruct (T2 Hq) as (l & -> & Dl). exists l. split; [reflexivity|]. rewrite Dl, D; [reflexivity|].
           destruct Vc as (k & Hin & _). apply (Hq _ _ Hin).
    + exists false. eexists. exists (KSawPanic p). do 3 eexists. cbn [kastep kstep]. rewrite Hy, Hz, Mc.
      split; [reflexivity|]. split; [reflexivity|].
      assert (Ru : tb_clone (macro_taggable E x) (i_clone I) w s = Panicked p s1).
      { unfold tb_clone. unfold bind at 1. cbn [ref_from_tagged_box macro_taggable into_tagged_box]. rewrite V1. reflexivity. }
      split; [right; exists p; unfold bind; rewrite Ru; auto|].
      split; [|split; [|cbn [kstarved]; rewrite Hz, V1; reflexivity]].
      * eapply kinv_add; [exact H|exact K1|reflexivity|reflexivity|exact Logic.I|intros; exact Logic.I].
      * rewrite Kc. split; [left; exact V3|]. unfold ktracks. cbn [kmade kdead]. split; [rewrite L; reflexivity|].
        intros Hq. exists []. rewrite !app_nil_r. split; [reflexivity|]. f_equal. apply D.
        destruct V as (k & Hin & _). apply (Hq _ _ Hin).
  - (* KCopy *)
    destruct (nth_error (kcells a) i) as [[id loc v|id v|]|] eqn:Hy; try contradiction.
    destruct (e_copy def) eqn:Ec; [|contradiction].
    destruct (Forall2_nth _ _ _ _ _ (ki_rel _ _ _ _ _ _ H) Hy) as ([w|v'|] & Hz & Rz); cbn [krel] in Rz; try contradiction.
    exists false. do 5 eexists. cbn [kastep kstep]. rewrite (xp_copy _ _ (expand_inv _ _ Hx)), Ec, Hy, Hz.
    split; [reflexivity|]. split; [reflexivity|]. split; [left; reflexivity|].
    split; [|split; [|cbn [kstarved]; rewrite ?Hz; reflexivity]].
    + eapply kinv_add; [exact H|apply keeps_refl|reflexivity|reflexivity|exact Rz|].
      intros j y2 z2 Hy2 Hz2. destruct (Nat.eq_dec i j) as [<-|N].
      * rewrite Hz in Hy2. injection Hy2 as <-. rewrite Hy in Hz2. injection Hz2 as <-. cbn [kpair]. tauto.
      * exact (ki_pair _ _ _ _ _ _ H i j _ _ _ _ Hz Hy Hy2 Hz2 N).
    + split; [right; reflexivity|]. split; [reflexivity|]. intros _. exists []. cbn [kdead kcalled]. rewrite !app_nil_r. auto.
  - (* KEq *)
    destruct (nth_error (kcells a) i) as [[id1 loc1 v1|id1 v1|]|] eqn:Hy1; try contradiction.
    destruct (nth_error (kcells a) j) as [[id2 loc2 v2|id2 v2|]|] eqn:Hy2; try contradiction.
    destruct (Forall2_nth _ _ _ _ _ (ki_rel _ _ _ _ _ _ H) Hy1) as ([w1|v'|] & Hz1 & R1); cbn [krel] in R1; try contradiction.
    destruct (Forall2_nth _ _ _ _ _ (ki_rel _ _ _ _ _ _ H) Hy2) as ([w2|v'|] & Hz2 & R2); cbn [krel] in R2; try contradiction.
    destruct R1 as (B1 & V1 & _), R2 as (B2 & V2 & _).
    destruct (view_two s w1 v1 w2 v2 (i_eq I) false _ B1 V1 B2 V2 (im_eq _ _ _ _ HI s v1 v2 V1 V2)) as (s' & W1 & W2 & W3).
    eapply ksim_look; [exact H|cbn [kastep]; rewrite Hy1, Hy2; reflexivity|cbn [kstep]; rewrite Hz1, Hz2; reflexivity| |cbn [kcalled]; rewrite Hy1, Hy2; exact W2|cbn [kcalled]; rewrite Hy1, Hy2; left; exact W3|reflexivity].
    unfold bind, tb_eq. cbn [ref_from_tagged_box macro_taggable]. rewrite W1. apply looked. reflexivity.
  - (* KPartialCmp *)
    destruct (nth_error (kcells a) i) as [[id1 loc1 v1|id1 v1|]|] eqn:Hy1; try contradiction.
    destruct (nth_error (kcells a) j) as [[id2 loc2 v2|id2 v2|]|] eqn:Hy2; try contradiction.
    destruct (Forall2_nth _ _ _ _ _ (ki_rel _ _ _ _ _ _ H) Hy1) as ([w1|v'|] & Hz1 & R1); cbn [krel] in R1; try contradiction.
    destruct (Forall2_nth _ _ _ _ _ (ki_rel _ _ _ _ _ _ H) Hy2) as ([w2|v'|] & Hz2 & R2); cbn [krel] in R2; try contradiction.
    destruct R1 as (B1 & V1 & _), R2 as (B2 & V2 & _).
    destruct (view_two s w1 v1 w2 v2 (i_pcmp I) None _ B1 V1 B2 V2 (im_pcmp _ _ _ _ HI s v1 v2 V1 V2)) as (s' & W1 & W2 & W3).
    eapply ksim_look; [exact H|cbn [kastep]; rewrite Hy1, Hy2; reflexivity|cbn [kstep]; rewrite Hz1, Hz2; reflexivity| |cbn [kcalled]; rewrite Hy1, Hy2; exact W2|cbn [kcalled]; rewrite Hy1, Hy2; left; exact W3|reflexivity].
    unfold bind, tb_partial_cmp. cbn [ref_from_tagged_box macro_taggable]. rewrite W1. apply looked. reflexivity.
  - (* KCmp *)
    destruct (nth_error (kcells a) i) as [[id1 loc1 v1|id1 v1|]|] eqn:Hy1; try contradiction.
    destruct (nth_error (kcells a) j) as [[id2 loc2 v2|id2 v2|]|] eqn:Hy2; try contradiction.
    destruct (Forall2_nth _ _ _ _ _ (ki_rel _ _ _ _ _ _ H) Hy1) as ([w1|v'|] & Hz1 & R1); cbn [krel] in R1; try contradiction.
    destruct (Forall2_nth _ _ _ _ _ (ki_rel _ _ _ _ _ _ H) Hy2) as ([w2|v'|] & Hz2 & R2); cbn [krel] in R2; try contradiction.
    destruct R1 as (B1 & V1 & _), R2 as (B2 & V2 & _).
    destruct (view_two s w1 v1 w2 v2 (i_cmp I) Eq _ B1 V1 B2 V2 (im_cmp _ _ _ _ HI s v1 v2 V1 V2)) as (s' & W1 & W2 & W3).
    eapply ksim_look; [exact H|cbn [kastep]; rewrite Hy1, Hy2; reflexivity|cbn [kstep]; rewrite Hz1, Hz2; reflexivity| |cbn [kcalled]; rewrite Hy1, Hy2; exact W2|cbn [kcalled]; rewrite Hy1, Hy2; left; exact W3|reflexivity].
    unfold bind, tb_cmp. cbn [ref_from_tagged_box macro_taggable]. rewrite W1. apply looked. reflexivity.
  - (* KDebug *)
    destruct (nth_error (kcells a) i) as [[id loc v|id v|]|] eqn:Hy; try contradiction.
    destruct (Forall2_nth _ _ _ _ _ (ki_rel _ _ _ _ _ _ H) Hy) as ([w|v'|] & Hz & Rz); cbn [krel] in Rz; try contradiction.
    destruct Rz as (B & V & Hm & Hlt).
    destruct (view_one s w v (fun this r => i_debug I default_opts this (fst r)) (EmptyString, true) _ B V (im_debug _ _ _ _ HI s v default_opts EmptyString V))
      as (s' & W1 & W2 & W3).
    eapply ksim_look; [exact H|cbn [kastep]; rewrite Hy; reflexivity|cbn [kstep]; rewrite Hz; reflexivity| |cbn [kcalled]; rewrite Hy; exact W2|cbn [kcalled]; rewrite Hy; left; exact W3|reflexivity].
    unfold container_debug, bind, tb_debug. cbn [ref_from_tagged_box macro_taggable]. rewrite W1.
    rewrite (xp_container _ _ (expand_inv _ _ Hx)).
    destruct (m_debug (F s) default_opts v EmptyString) as [r|p]; cbn [ends ksee].
    + left. destruct (derived_debug o (e_container def) "value" r) as [text ok]. reflexivity.
    + right. exists p. auto.
  - (* KDebugValue *)
    destruct (nth_error (kcells a) i) as [[id loc v|id v|]|] eqn:Hy; try contradiction.
    destruct (Forall2_nth _ _ _ _ _ (ki_rel _ _ _ _ _ _ H) Hy) as ([w|v'|] & Hz & Rz); cbn [krel] in Rz; try contradiction.
    destruct Rz as (B & V & Hm & Hlt).
    destruct (view_one s w v (fun this r => i_debug I default_opts this (fst r)) (out, true) _ B V (im_debug _ _ _ _ HI s v default_opts out V))
      as (s' & W1 & W2 & W3).
    eapply ksim_look; [exact H|cbn [kastep]; rewrite Hy; reflexivity|cbn [kstep]; rewrite Hz; reflexivity| |cbn [kcalled]; rewrite Hy; exact W2|cbn [kcalled]; rewrite Hy; left; exact W3|reflexivity].
    unfold bind, tb_debug. cbn [ref_from_tagged_box macro_taggable]. rewrite W1. apply looked. reflexivity.
  - (* KDisplay *)
    destruct (nth_error (kcells a) i) as [[id loc v|id v|]|] eqn:Hy; try contradiction.
    destruct (Forall2_nth _ _ _ _ _ (ki_rel _ _ _ _ _ _ H) Hy) as ([w|v'|] & Hz & Rz); cbn [krel] in Rz; try contradiction.
    destruct Rz as (B & V & Hm & Hlt).
    destruct (view_one s w v (fun this r => i_display I default_opts this (fst r)) (out, true) _ B V (im_display _ _ _ _ HI s v default_opts out V))
      as (s' & W1 & W2 & W3).
    eapply ksim_look; [exact H|cbn [kastep]; rewrite Hy; reflexivity|cbn [kstep]; rewrite Hz; reflexivity| |cbn [kcalled]; rewrite Hy; exact W2|cbn [kcalled]; rewrite Hy; left; exact W3|reflexivity].
    unfold bind, tb_display. cbn [ref_from_tagged_box macro_taggable]. rewrite W1. apply looked. reflexivity.
  - (* KView *)
    destruct (nth_error (kcells a) i) as [[id loc v|id v|]|] eqn:Hy; try contradiction.
    destruct (Forall2_nth _ _ _ _ _ (ki_rel _ _ _ _ _ _ H) Hy) as ([w|v'|] & Hz & Rz); cbn [krel] in Rz; try contradiction.
    destruct Rz as (B & V & Hm & Hlt).
    destruct (view_runs s w v (list evalue) (fun v seen => ret (seen ++ [v])) [] (Done [v]) s B V eq_refl) as (s' & W1 & W2).
    eapply ksim_look; [exact H|cbn [kastep]; rewrite Hy; reflexivity|cbn [kstep]; rewrite Hz; reflexivity| |exact W2|right; reflexivity|reflexivity].
    left. unfold bind. rewrite W1. reflexivity.
  - (* KTag *)
    destruct (nth_error (kcells a) i) as [[id loc v|id v|]|] eqn:Hy; try contradiction.
    destruct (Forall2_nth _ _ _ _ _ (ki_rel _ _ _ _ _ _ H) Hy) as ([w|v'|] & Hz & Rz); cbn [krel] in Rz; try contradiction.
    destruct Rz as (B & V & Hm & Hlt).
    eapply (ksim_look s0 s c a (KTag i)); [exact H|cbn [kastep]; rewrite Hy; reflexivity|cbn [kstep]; rewrite Hz; reflexivity| |apply almost_refl|right; reflexivity|reflexivity].
    left. rewrite (boxed_tag s w v B). reflexivity.
  - (* KModify *)
    destruct (nth_error (kcells a) i) as [[id loc v|id v|]|] eqn:Hy; try contradiction.
    destruct (only_field def n) as [t|] eqn:Of; [|contradiction].
    destruct (Forall2_nth _ _ _ _ _ (ki_rel _ _ _ _ _ _ H) Hy) as ([w|v'|] & Hz & Rz); cbn [krel] in Rz; try contradiction.
    destruct Rz as (B & V & Hm & Hlt). destruct (Hc id loc v Hy) as [Ev Vn].
    destruct (only_field_leaf n t Of) as [Hin Lt']. rewrite <- Ev in Hin.
    destruct (boxed_leaf s w v t B Hin) as (Bl & Hl).
    destruct (C17_modify E (leaf_hty t) w (ev_fields v) (map f) s (ms_env _ _ _ Hs) Hl) as (s' & M1 & M2 & M3 & M4 & _ & M6).
    { apply leaf_hval. rewrite <- Ev in Vn. apply (leaf_value (EV (ev_variant v) (map f (ev_fields v))) t Hin Vn). }
    { exact Bl. }
    exists false. do 5 eexists. cbn [kastep kstep]. rewrite Hy, Hz, Of, Lt'.
    split; [reflexivity|]. split; [reflexivity|]. split; [left; unfold bind; rewrite M1; reflexivity|].
    split; [|split; [|cbn [kstarved]; rewrite ?Hz; reflexivity]].
    + eapply (kinv_write s0 s s' c a _ i w id loc v (EV n (map f (ev_fields v))) t); try eassumption; try reflexivity.
      cbn [ev_variant]. congruence.
    + split; [right; reflexivity|]. unfold ktracks. cbn [kmade kdead kcalled]. rewrite M3, M4. split; [reflexivity|]. intros _. exists []. rewrite !app_nil_r. auto.
  - (* KAssign *)
    destruct (nth_error (kcells a) i) as [[id loc v|id v|]|] eqn:Hy; try contradiction.
    destruct (only_field def n) as [t|] eqn:Of; [|contradiction].
    destruct (Forall2_nth _ _ _ _ _ (ki_rel _ _ _ _ _ _ H) Hy) as ([w|v'|] & Hz & Rz); cbn [krel] in Rz; try contradiction.
    destruct Rz as (B & V & Hm & Hlt). destruct (Hc id loc v Hy) as [Ev Vn].
    destruct (only_field_leaf n t Of) as [Hin Lt']. rewrite <- Ev in Hin.
    destruct (boxed_leaf s w v t B Hin) as (Bl & Hl).
    destruct (C17_assign E (leaf_hty t) w (ev_fields v) [val] s (ms_env _ _ _ Hs) Hl) as (s' & M1 & M2 & M3 & M4 & _ & M6).
    { apply leaf_hval. rewrite <- Ev in Vn. apply (leaf_value (EV (ev_variant v) [val]) t Hin Vn). }
    { exact Bl. }
    exists false. do 5 eexists. cbn [kastep kstep]. rewrite Hy, Hz, Of, Lt'.
    split; [reflexivity|]. split; [reflexivity|]. split; [left; unfold bind; rewrite M1; reflexivity|].
    split; [|split; [|cbn [kstarved]; rewrite ?Hz; reflexivity]].
    + set (a1 := KAState (kwrite loc (EV n [val]) (kcells a)) (knext a) (kdead a) (kmade a) (kboxes a)).
      assert (H1 : kinv E def s0 s' c a1).
      { eapply (kinv_write s0 s s' c a a1 i w id loc v (EV n [val]) t); try eassumption; try reflexivity.
      cbn [ev_variant]. congruence. }
      assert (Hy1 : nth_error (kcells a1) i = Some (KABox id loc (EV n [val]))).
      { cbn [a1 kcells]. rewrite nth_kwrite, Hy, Nat.eqb_refl. reflexivity. }
      rewrite <- (put_id (KBox w) c i Hz).
      eapply (kinv_put s0 s' s' c a1); [exact H1|apply keeps_refl|reflexivity|reflexivity| |].
      * destruct (Forall2_nth _ _ _ _ _ (ki_rel _ _ _ _ _ _ H1) Hy1) as (y & Hy2 & R2). rewrite Hz in Hy2. injection Hy2 as <-. exact R2.
      * intros j y2 z2 N A1 A2. exact (ki_pair _ _ _ _ _ _ H1 i j _ _ _ _ Hz Hy1 A1 A2 (not_eq_sym N)).
    + split; [right; reflexivity|]. unfold ktracks. cbn [kmade kdead kcalled]. rewrite M3. split; [reflexivity|]. intros _. exists [(id, v)]. split; [reflexivity|].
      rewrite M4. f_equal. unfold kdead_destructors, value_destructors, destructors. cbn [flat_map snd].
      rewrite (assoc_in _ _ _ (do_names _ Hd) Hin), app_nil_r. reflexivity.
  - (* KIntoInner *)
    destruct (nth_error (kcells a) i) as [[id loc v|id v|]|] eqn:Hy; try contradiction.
    destruct (Forall2_nth _ _ _ _ _ (ki_rel _ _ _ _ _ _ H) Hy) as ([w|v'|] & Hz & Rz); cbn [krel] in Rz; try contradiction.
    destruct Rz as (B & V & Hm & Hlt). exists false. do 5 eexists. cbn [kastep kstep]. rewrite Hy, Hz.
    split; [reflexivity|]. split; [reflexivity|].
    split; [left; unfold bind; rewrite (boxed_into_inner E def x Hd Hx H8 s w v B); reflexivity|].
    split; [|split; [|cbn [kstarved]; rewrite ?Hz; reflexivity]].
    + eapply kinv_put; [exact H|apply keeps_refl|reflexivity|reflexivity|split; [reflexivity|exact V]|intros; exact Logic.I].
    + split; [right; reflexivity|]. split; [reflexivity|]. intros _. exists []. cbn [kset kdead kcalled]. rewrite !app_nil_r. auto.
  - (* KFromTagged *)
    destruct (nth_error (kcells a) i) as [[id loc v|id v|]|] eqn:Hy; try contradiction.
    destruct (Forall2_nth _ _ _ _ _ (ki_rel _ _ _ _ _ _ H) Hy) as ([w|v'|] & Hz & Rz); cbn [krel] in Rz; try contradiction.
    destruct Rz as (B & V & Hm & Hlt). exists false. do 5 eexists. cbn [kastep kstep]. rewrite Hy, Hz.
    split; [reflexivity|]. split; [reflexivity|].
    split; [left; unfold bind; destruct V as (k & Hin & _); rewrite (boxed_from E def x s w v k Hs B Hin (Hc id loc v k Hy Hin)); reflexivity|].
    split; [|split; [|cbn [kstarved]; rewrite ?Hz; reflexivity]].
    + eapply kinv_put; [exact H|apply keeps_refl|reflexivity|reflexivity|split; [reflexivity|exact V]|intros; exact Logic.I].
    + split; [right; reflexivity|]. split; [reflexivity|]. intros _. exists []. cbn [kset kdead kcalled]. rewrite !app_nil_r. auto.
  - (* KDrop *)
    destruct (nth_error (kcells a) i) as [[id loc v|id v|]|] eqn:Hy; try contradiction.
    destruct (Forall2_nth _ _ _ _ _ (ki_rel _ _ _ _ _ _ H) Hy) as ([w|v'|] & Hz & Rz); cbn [krel] in Rz; try contradiction.
    exists false. do 5 eexists. cbn [kastep kstep]. rewrite Hy, Hz.
    split; [reflexivity|]. split; [reflexivity|]. split; [left; reflexivity|].
    split; [|split; [|cbn [kstarved]; rewrite ?Hz; reflexivity]].
    + eapply kinv_put; [exact H|apply keeps_refl|reflexivity|reflexivity|exact Logic.I|intros; exact Logic.I].
    + split; [right; reflexivity|]. split; [reflexivity|]. intros _. exists []. cbn [kset kdead kcalled]. rewrite !app_nil_r. auto.
  - (* KDropVal *)
    destruct (nth_error (kcells a) i) as [[id loc v|id v|]|] eqn:Hy; try contradiction.
    destruct (Forall2_nth _ _ _ _ _ (ki_rel _ _ _ _ _ _ H) Hy) as ([w|v'|] & Hz & Rz); cbn [krel] in Rz; try contradiction.
    destruct Rz as [-> (k & Hin & Ht)].
    exists false. do 5 eexists. cbn [kastep kstep]. rewrite Hy, Hz.
    split; [reflexivity|]. split; [reflexivity|]. split; [left; reflexivity|].
    split; [|split; [|cbn [kstarved]; rewrite ?Hz; reflexivity]].
    + eapply kinv_put; [exact H|apply keeps_same; reflexivity|reflexivity|reflexivity|exact Logic.I|intros; exact Logic.I].
    + split; [right; reflexivity|]. split; [reflexivity|]. intros Hq. exists [(id, v)]. cbn [kdead events kcalled]. split; [reflexivity|].
      rewrite (xp_drop _ _ (expand_inv _ _ Hx)), (proj1 (Hq _ _ Hin)), (xp_enum _ _ (expand_inv _ _ Hx)).
      rewrite (assoc_in _ _ _ (do_names _ Hd) Hin). cbn [app]. rewrite destroyed_app, destroyed_drop_events.
      unfold kdead_destructors, value_destructors. cbn [flat_map snd]. rewrite (assoc_in _ _ _ (do_names _ Hd) Hin), app_nil_r.
      reflexivity.
Qed.

End Step.

(** ** Whole programs *)

Lemma kdead_destructors_app def l r : kdead_destructors def (l ++ r) = kdead_destructors def l ++ kdead_destructors def r.
Proof. apply flat_map_app. Qed.

(** With the user's own work accounted for. *)
Definition kaccounts (def : edef) (l : list (st * st)) (s : st) (a : kastate) (s' : st) (a' : kastate) : Prop :=
  (Z.of_nat (List.length (blocks s')) + Z.of_nat (kmade a) =
   Z.of_nat (List.length (blocks s)) + Z.of_nat (kmade a') + grown (fun t => List.length (blocks t)) l)%Z /\
  ((forall v k, In (v, k) (e_variants def) -> no_zst_drop def k) ->
   exists q, kdead a' = kdead a ++ q /\
     forall d, (Z.of_nat (times d (destroyed (events s'))) =
                Z.of_nat (times d (destroyed (events s))) + Z.of_nat (times d (kdead_destructors def q))
                + grown (fun t => times d (destroyed (events t))) l)%Z).

Lemma times_app d l m : times d (l ++ m) = (times d l + times d m)%nat.
Proof. apply count_occ_app. Qed.

Lemma grown_cons f s t l : grown f ((s, t) :: l) = (Z.of_nat (f t) - Z.of_nat (f s) + grown f l)%Z.
Proof. reflexivity. Qed.

Lemma krun_sim E def x I F R : macro_setup E def x -> implements R def I F -> (forall s s', R s s' -> keeps s s') ->
  forall p c s0 s a d, kinv E def s0 s c a -> kfollows E def F p a ->
  exists c' s', let r := karun def p (fun n => F (nth n (kstates E x I p c s) d)) (kshortages E def x I p c s) a in
    krun E x I p c s = (fst r, KFinished c' s') /\ kinv E def s0 s' c' (snd r) /\
    ((forall t t', R t t' -> harmless t t') -> ktracks def s a s' (snd r)) /\
    kaccounts def (kprivate E def x I F p c s a) s a s' (snd r).
Proof.
  intros Hs HI HR p. induction p as [|o k IH]; intros c s0 s a d Hi Hf; cbn [kfollows] in Hf.
  - exists c, s. cbn [karun krun fst snd]. split; [reflexivity|]. split; [exact Hi|]. split.
    + intros _. split; [reflexivity|]. intros _. exists []. rewrite !app_nil_r. auto.
    + split; [cbn; lia|]. intros _. exists []. rewrite app_nil_r. split; [reflexivity|]. intros e. cbn. lia.
  - destruct (Hf s) as [Hc Hf'].
    destruct (kstep_sim E def x I F R Hs HI HR s0 s c a o Hi Hc) as (fail & m & r & a' & c' & s' & H1 & H2 & H3 & H4 & [H5 H6] & ->).
    { specialize (Hf' false). destruct (kastep def (F s) false o a); [discriminate|contradiction]. }
    specialize (Hf' (kstarved E def x I o c s)). rewrite H1 in Hf'.
    destruct (IH r c' s0 s' a' d H4 Hf') as (c2 & s2 & R1 & R3 & R4 & R5).
    exists c2, s2. cbn [karun kshortages kstates nth hd tl krun kprivate]. rewrite H1, H2.
    assert (G : match m s with
                | Ok (r, c') s' => kshortages E def x I (k r) c' s'
                | Panicked q s' => kshortages E def x I (k (KSawPanic q)) (kafter_panic o c) s'
                | UB _ => [] end = kshortages E def x I (k r) c' s')
      by (destruct H3 as [->|(q & -> & -> & ->)]; reflexivity).
    assert (G' : match m s with
                | Ok (r, c') s' => kstates E x I (k r) c' s'
                | Panicked q s' => kstates E x I (k (KSawPanic q)) (kafter_panic o c) s'
                | UB _ => [] end = kstates E x I (k r) c' s')
      by (destruct H3 as [->|(q & -> & -> & ->)]; reflexivity).
    assert (G2 : match m s with
                | Ok (_, c') s' => kprivate E def x I F (k r) c' s' a'
                | Panicked _ s' => kprivate E def x I F (k r) (kafter_panic o c) s' a'
                | UB _ => [] end = kprivate E def x I F (k r) c' s' a')
      by (destruct H3 as [->|(q & -> & -> & ->)]; reflexivity).
    rewrite G, G', G2. destruct (karun def (k r) _ (kshortages E def x I (k r) c' s') a') as [l e]. cbn [fst snd] in *.
    split; [|split; [exact R3|split]].
    + destruct H3 as [->|(q & -> & -> & ->)]; rewrite R1; reflexivity.
    + intros Hh. destruct H6 as [B1 T1], (R4 Hh) as [B2 T2].
      assert (Hm : List.length (blocks (kcalled I o a s)) = List.length (blocks s) /\
                   destroyed (events (kcalled I o a s)) = destroyed (events s)).
      { destruct H5 as [H5| ->]; [|auto]. destruct (Hh _ _ H5) as (_ & L & D). auto. }
      destruct Hm as [L D]. split; [lia|]. intros Hz.
      destruct (T1 Hz) as (l1 & D1 & D2), (T2 Hz) as (l2 & D3 & D4). exists (l1 ++ l2).
      rewrite D3, D1, D4, D2, D, kdead_destructors_app, !app_assoc. auto.
    + destruct H6 as [B1 T1], R5 as [B2 T2]. split; [rewrite grown_cons; lia|]. intros Hz.
      destruct (T1 Hz) as (l1 & D1 & D2), (T2 Hz) as (l2 & D3 & D4). exists (l1 ++ l2).
      split; [rewrite D3, D1, app_assoc; reflexivity|]. intros y. rewrite grown_cons, kdead_destructors_app, times_app, D4, D2, times_app. lia.
Qed.

Lemma kinv0 E def s : kinv E def s s [] ka0.
Proof.
  constructor; [constructor| |apply keeps_refl]. intros [|i] j y1 z1 y2 z2 A; discriminate.
Qed.

(** ** C35 Containers behave like plain enum values over any history *)

(** Whatever the program, the allocator and the user's impls (which may panic, but leave live memory
    alone): what it sees is what it sees on plain values, with an out-of-memory panic exactly at the
    calls for whose block the allocator has no memory. *)
Theorem C35_history : forall E def x I F p s, macro_setup E def x -> implements keeps def I F ->
  kfollows E def F p ka0 ->
  exists c s', krun E x I p [] s = (fst (karun def p (kmeanings E x I F p s) (kshortages E def x I p [] s) ka0), KFinished c s').
Proof.
  intros E def x I F p s Hs HI Hf.
  destruct (krun_sim E def x I F keeps Hs HI (fun _ _ H => H) p [] s s ka0 s (kinv0 E def s) Hf) as (c & s' & R1 & _).
  eauto.
Qed.

Lemma karun_no_failure def p : forall G fails a, ~ In true fails -> karun def p G fails a = karun def p G [] a.
Proof.
  induction p as [|o k IH]; intros G fails a H; cbn [karun]; [reflexivity|].
  assert (Hh : hd false fails = false) by (destruct fails as [|[]]; cbn in *; tauto).
  rewrite Hh. cbn [hd tl]. destruct (kastep def (G 0%nat) false o a) as [[r a']|]; [|reflexivity].
  rewrite IH; [reflexivity|]. destruct fails; cbn in *; tauto.
Qed.

(** As long as memory lasts, what it sees is what it sees on plain values. *)
Theorem C35_no_failure : forall E def x I F p s, macro_setup E def x -> implements keeps def I F ->
  kfollows E def F p ka0 -> ~ In true (kshortages E def x I p [] s) ->
  exists c s', krun E x I p [] s = (fst (karun def p (kmeanings E x I F p s) [] ka0), KFinished c s').
Proof.
  intros E def x I F p s Hs HI Hf Hn. destruct (C35_history E def x I F p s Hs HI Hf) as (c & s' & R).
  rewrite karun_no_failure in R by exact Hn. eauto.
Qed.

(** ** C36 Allocation accounting over histories *)

(** Nothing that was live before is freed or changed ([keeps]), and when the user's impls keep no
    block of their own there is one more block per value stored in non-zero-sized storage. *)
Theorem C36_blocks : forall E def x I F p s, macro_setup E def x -> implements harmless def I F ->
  kfollows E def F p ka0 ->
  exists c s', let (seen, a) := karun def p (kmeanings E x I F p s) (kshortages E def x I p [] s) ka0 in
    krun E x I p [] s = (seen, KFinished c s') /\ keeps s s' /\
    List.length (blocks s') = (List.length (blocks s) + kmade a)%nat.
Proof.
  intros E def x I F p s Hs HI Hf.
  destruct (krun_sim E def x I F harmless Hs HI (fun _ _ H => proj1 H) p [] s s ka0 s (kinv0 E def s) Hf)
    as (c & s' & R1 & R2 & R4 & _).
  exists c, s'. destruct (karun def p _ _ ka0) as [seen a]. cbn [fst snd] in *.
  split; [exact R1|]. split; [exact (ki_base _ _ _ _ _ _ R2)|]. destruct (R4 (fun _ _ H => H)) as [B _]. cbn in B. lia.
Qed.

(** Whatever the user's impls do (a clone's [String] takes a block of its own), every other block is
    one of theirs. *)
Theorem C36_accounting : forall E def x I F p s, macro_setup E def x -> implements keeps def I F ->
  kfollows E def F p ka0 ->
  exists c s', let (seen, a) := karun def p (kmeanings E x I F p s) (kshortages E def x I p [] s) ka0 in
    krun E x I p [] s = (seen, KFinished c s') /\ keeps s s' /\
    (Z.of_nat (List.length (blocks s')) = Z.of_nat (List.length (blocks s)) + Z.of_nat (kmade a)
       + grown (fun t => List.length (blocks t)) (kprivate E def x I F p [] s ka0))%Z.
Proof.
  intros E def x I F p s Hs HI Hf.
  destruct (krun_sim E def x I F keeps Hs HI (fun _ _ H => H) p [] s s ka0 s (kinv0 E def s) Hf)
    as (c & s' & R1 & R2 & _ & R4).
  exists c, s'. unfold kmeanings. destruct (karun def p _ _ ka0) as [seen a]. cbn [fst snd] in *.
  split; [exact R1|]. split; [exact (ki_base _ _ _ _ _ _ R2)|]. destruct R4 as [B _]. cbn [ka0 kmade] in B. lia.
Qed.

(** ** C37 Destructor accounting over histories *)

(** The destructors that ran are those of the values the program dropped itself and of the values
    whose storing failed. *)
Theorem C37_destroyed : forall E def x I F p s, macro_setup E def x -> implements harmless def I F ->
  (forall v k, In (v, k) (e_variants def) -> no_zst_drop def k) ->
  kfollows E def F p ka0 ->
  exists c s', let (seen, a) := karun def p (kmeanings E x I F p s) (kshortages E def x I p [] s) ka0 in
    krun E x I p [] s = (seen, KFinished c s') /\
    destroyed (events s') = destroyed (events s) ++ kdead_destructors def (kdead a).
Proof.
  intros E def x I F p s Hs HI Hz Hf.
  destruct (krun_sim E def x I F harmless Hs HI (fun _ _ H => proj1 H) p [] s s ka0 s (kinv0 E def s) Hf)
    as (c & s' & R1 & _ & R4 & _).
  exists c, s'. destruct (karun def p _ _ ka0) as [seen a]. cbn [fst snd] in *.
  split; [exact R1|]. destruct (R4 (fun _ _ H => H)) as [_ T]. destruct (T Hz) as (l & D1 & D2).
  cbn in D1. subst l. exact D2.
Qed.

(** Whatever the user's impls do, every other destructor was run by them. *)
Theorem C37_accounting : forall E def x I F p s, macro_setup E def x -> implements keeps def I F ->
  (forall v k, In (v, k) (e_variants def) -> no_zst_drop def k) ->
  kfollows E def F p ka0 ->
  exists c s', let (seen, a) := karun def p (kmeanings E x I F p s) (kshortages E def x I p [] s) ka0 in
    krun E x I p [] s = (seen, KFinished c s') /\
    forall d, (Z.of_nat (times d (destroyed (events s'))) =
               Z.of_nat (times d (destroyed (events s))) + Z.of_nat (times d (kdead_destructors def (kdead a)))
               + grown (fun t => times d (destroyed (events t))) (kprivate E def x I F p [] s ka0))%Z.
Proof.
  intros E def x I F p s Hs HI Hz Hf.
  destruct (krun_sim E def x I F keeps Hs HI (fun _ _ H => H) p [] s s ka0 s (kinv0 E def s) Hf)
    as (c & s' & R1 & _ & _ & R4).
  exists c, s'. unfold kmeanings. destruct (karun def p _ _ ka0) as [seen a]. cbn [fst snd] in *.
  split; [exact R1|]. destruct R4 as [_ T]. destruct (T Hz) as (l & D1 & D2). cbn in D1. subst l. exact D2.
Qed.

(** *** No value is destroyed twice *)

Lemma klive_put n y l : forall i z, nth_error l i = Some z ->
  (occ n (flat_map kcell_id (put i y l)) + occ n (kcell_id z) = occ n (flat_map kcell_id l) + occ n (kcell_id y))%nat.
Proof.
  unfold occ. induction l as [|a l IH]; intros [|i] z H; cbn [nth_error put flat_map] in *; try discriminate.
  - injection H as ->. rewrite !count_occ_app. lia.
  - rewrite !count_occ_app. specialize (IH i z H). lia.
Qed.

Lemma klive_add n l y : occ n (flat_map kcell_id (l ++ [y])) = (occ n (flat_map kcell_id l) + occ n (kcell_id y))%nat.
Proof. unfold occ. rewrite flat_map_app, count_occ_app. cbn [flat_map]. rewrite app_nil_r. reflexivity. Qed.

Definition kcounted (a : kastate) : Prop := forall n,
  (occ n (klive_ids a) + occ n (map fst (kdead a)) <= (if (n <? knext a)%nat then 1 else 0))%nat.

Lemma occ_kdead n (l : list (nat * evalue)) id v : occ n (map fst (l ++ [(id, v)])) = (occ n (map fst l) + occ n [id])%nat.
Proof. unfold occ. rewrite map_app, count_occ_app. reflexivity. Qed.

Lemma kwrite_ids loc v l : flat_map kcell_id (kwrite loc v l) = flat_map kcell_id l.
Proof.
  induction l as [|[id k u|id u|] l IH]; cbn [kwrite map flat_map]; [reflexivity| | |]; fold (kwrite loc v l); rewrite IH; [|reflexivity..].
  destruct (Nat.eqb k loc); reflexivity.
Qed.

Lemma kcounted_step def (F : meaning) fail o a r a' : e_copy def = false -> kcounted a -> kastep def F fail o a = Some (r, a') -> kcounted a'.
Proof.
  intros Ec C H n. specialize (C n). unfold klive_ids in *.
  pose proof (occ_new n (knext a) false) as B. cbn beta iota in B. change (occ n []) with 0%nat in *.
  destruct o as [v|i|src vals|i|i|i j|i j|i j|i o out|i o out|i o out|i|i|i n0 f|i n0 val|i|i|i|i]; cbn [kastep] in H.
  - injection H as <- <-. cbn [kcells kdead knext]. rewrite klive_add. cbn [kcell_id]. lia.
  - destruct (nth_error (kcells a) i) as [[]|] eqn:Hy; try discriminate. unfold kstore in H.
    destruct (needs_block def v && fail); injection H as <- <-; cbn [kcells kdead knext kplace].
    + pose proof (klive_put n KAGone _ _ _ Hy) as P. cbn [kcell_id] in P. change (occ n []) with 0%nat in P.
      rewrite occ_kdead. lia.
    + pose proof (klive_put n (KABox id (kboxes a) v) _ _ _ Hy) as P. cbn [kcell_id] in P. lia.
  - destruct (payload_variant def src) as [m|]; [|discriminate]. unfold kstore in H.
    destruct (needs_block def (EV m vals) && fail); injection H as <- <-; cbn [kfresh kcells kdead knext kplace];
      rewrite klive_add; cbn [kcell_id]; rewrite ?occ_kdead; change (occ n []) with 0%nat; lia.
  - destruct (nth_error (kcells a) i) as [[]|] eqn:Hy; try discriminate. unfold kstore in H.
    destruct (m_clone F v) as [cv|p];
      [|injection H as <- <-; cbn [kcells kdead knext]; rewrite klive_add; cbn [kcell_id]; change (occ n []) with 0%nat; lia].
    destruct (needs_block def cv && fail); injection H as <- <-; cbn [kfresh kcells kdead knext kplace];
      rewrite klive_add; cbn [kcell_id]; rewrite ?occ_kdead; change (occ n []) with 0%nat; lia.
  - destruct (nth_error (kcells a) i) as [[]|]; try discriminate. rewrite Ec in H. discriminate.
  - destruct (nth_error (kcells a) i) as [[]|], (nth_error (kcells a) j) as [[]|]; try discriminate. injection H as <- <-. exact C.
  - destruct (nth_error (kcells a) i) as [[]|], (nth_error (kcells a) j) as [[]|]; try discriminate. injection H as <- <-. exact C.
  - destruct (nth_error (kcells a) i) as [[]|], (nth_error (kcells a) j) as [[]|]; try discriminate. injection H as <- <-. exact C.
  - destruct (nth_error (kcells a) i) as [[]|]; try discriminate. injection H as <- <-. exact C.
  - destruct (nth_error (kcells a) i) as [[]|]; try discriminate. injection H as <- <-. exact C.
  - destruct (nth_error (kcells a) i) as [[]|]; try discriminate. injection H as <- <-. exact C.
  - destruct (nth_error (kcells a) i) as [[]|]; try discriminate. injection H as <- <-. exact C.
  - destruct (nth_error (kcells a) i) as [[]|]; try discriminate. injection H as <- <-. exact C.
  - destruct (nth_error (kcells a) i) as [[]|] eqn:Hy; try discriminate. destruct (only_field def n0); [|discriminate].
    injection H as <- <-. cbn [kcells kdead knext]. rewrite kwrite_ids. exact C.
  - destruct (nth_error (kcells a) i) as [[]|] eqn:Hy; try discriminate. destruct (only_field def n0); [|discriminate].
    injection H as <- <-. cbn [kcells kdead knext].
    assert (Hy' : nth_error (kwrite loc (EV n0 [val]) (kcells a)) i = Some (KABox id loc (EV n0 [val]))).
    { rewrite nth_kwrite, Hy, Nat.eqb_refl. reflexivity. }
    pose proof (klive_put n (KABox (knext a) loc (EV n0 [val])) _ _ _ Hy') as P. cbn [kcell_id] in P.
    rewrite kwrite_ids in P. rewrite occ_kdead. lia.
  - destruct (nth_error (kcells a) i) as [[]|] eqn:Hy; try discriminate. injection H as <- <-. cbn [kset kcells kdead knext].
    pose proof (klive_put n (KAVal id v) _ _ _ Hy) as P. cbn [kcell_id] in P. lia.
  - destruct (nth_error (kcells a) i) as [[]|] eqn:Hy; try discriminate. injection H as <- <-. cbn [kset kcells kdead knext].
    pose proof (klive_put n (KAVal id v) _ _ _ Hy) as P. cbn [kcell_id] in P. lia.
  - destruct (nth_error (kcells a) i) as [[]|] eqn:Hy; try discriminate. injection H as <- <-. cbn [kset kcells kdead knext].
    pose proof (klive_put n KAGone _ _ _ Hy) as P. cbn [kcell_id] in P. change (occ n []) with 0%nat in P. lia.
  - destruct (nth_error (kcells a) i) as [[]|] eqn:Hy; try discriminate. injection H as <- <-. cbn [kcells kdead knext].
    pose proof (klive_put n KAGone _ _ _ Hy) as P. cbn [kcell_id] in P. change (occ n []) with 0%nat in P.
    rewrite occ_kdead. lia.
Qed.

Lemma karun_once def p G fails : e_copy def = false ->
  let a := snd (karun def p G fails ka0) in NoDup (klive_ids a ++ map fst (kdead a)).
Proof.
  intros Ec.
  assert (K : forall p G fails a, kcounted a -> kcounted (snd (karun def p G fails a))).
  { clear - Ec. induction p as [|o k IH]; intros G fails a C; cbn [karun]; [exact C|].
    destruct (kastep def (G 0%nat) (hd false fails) o a) as [[r a']|] eqn:A; [|exact C].
    specialize (IH r (fun n => G (S n)) (tl fails) a' (kcounted_step _ _ _ _ _ _ _ Ec C A)).
    destruct (karun def (k r) _ (tl fails) a') as [l e]. exact IH. }
  intros a. apply (NoDup_count_occ Nat.eq_dec). intros n.
  assert (C : kcounted a) by (apply K; intros m; cbn; destruct (m <? 0)%nat; lia).
  specialize (C n). unfold occ in C. rewrite count_occ_app. destruct (n <? knext a)%nat; lia.
Qed.

(** What a variable of the program holds. *)
Definition kshows (E : env) (x : expansion) (s : st) (c : kcell) (a : kacell) : Prop :=
  match c, a with
  | KBox w, KABox _ _ v => macro_into_inner E x w s = Ok v s
  | KVal v, KAVal _ v' => v = v'
  | KGone, KAGone => True
  | _, _ => False
  end.

(** Without [Copy]: every value has a number from when it was made. The destructors that ran are those of certain values; none of
    these was destroyed twice, and none is still held in a variable, boxed or not. *)
Theorem C37_once : forall E def x I F p s, macro_setup E def x -> implements harmless def I F ->
  (forall v k, In (v, k) (e_variants def) -> no_zst_drop def k) ->
  kfollows E def F p ka0 -> e_copy def = false ->
  exists c s', let (seen, a) := karun def p (kmeanings E x I F p s) (kshortages E def x I p [] s) ka0 in
    krun E x I p [] s = (seen, KFinished c s') /\ Forall2 (kshows E x s') c (kcells a) /\
    destroyed (events s') = destroyed (events s) ++ kdead_destructors def (kdead a) /\
    NoDup (klive_ids a ++ map fst (kdead a)).
Proof.
  intros E def x I F p s Hs HI Hz Hf Ec.
  destruct (krun_sim E def x I F harmless Hs HI (fun _ _ H => proj1 H) p [] s s ka0 s (kinv0 E def s) Hf)
    as (c & s' & R1 & R2 & R4 & _).
  pose proof (karun_once def p (kmeanings E x I F p s) (kshortages E def x I p [] s) Ec) as N. unfold kmeanings in *.
  exists c, s'. destruct (karun def p _ _ ka0) as [seen a]. cbn [fst snd] in *.
  split; [exact R1|]. split; [|split; [|exact N]].
  - eapply Forall2_weak; [|exact (ki_rel _ _ _ _ _ _ R2)]. intros [w|v|] [id loc v'|id v'|]; cbn [krel kshows]; try tauto.
    intros (B & _). apply (boxed_into_inner E def x (ms_def _ _ _ Hs) (ms_expand _ _ _ Hs) (setup_u8 _ _ _ Hs) s' w v' B).
  - destruct (R4 (fun _ _ H => H)) as [_ T]. destruct (T Hz) as (l & D1 & D2). cbn in D1. subst l. exact D2.
Qed.

(** With [Copy]: no field has a destructor, so nothing is ever destroyed. *)
Theorem C37_copy : forall E def x I F p s, macro_setup E def x -> implements harmless def I F ->
  (forall v k, In (v, k) (e_variants def) -> no_zst_drop def k) ->
  kfollows E def F p ka0 -> e_copy def = true ->
  exists seen c s', krun E x I p [] s = (seen, KFinished c s') /\ destroyed (events s') = destroyed (events s).
Proof.
  intros E def x I F p s Hs HI Hz Hf Ec. pose proof (ms_def _ _ _ Hs) as Hd.
  destruct (C37_destroyed E def x I F p s Hs HI Hz Hf) as (c & s' & H).
  destruct (karun def p _ _ ka0) as [seen a]. destruct H as (R & D). exists seen, c, s'. split; [exact R|].
  assert (N : forall v, value_destructors def v = []).
  { intros v. unfold value_destructors. destruct (assoc (ev_variant v) (e_variants def)) as [k|] eqn:Ak; [|reflexivity].
    assert (T : Forall (fun t => ty_drop t = false) (kind_types k)).
    { apply assoc_some in Ak. apply Forall_forall. intros t Ht.
      assert (Hall : In t (all_types def)) by (apply in_concat; exists (kind_types k); split; [apply in_map_iff; exists (ev_variant v, k); auto|exact Ht]).
      pose proof (proj1 (Forall_forall _ _) (do_glue _ Hd) t Hall) as G.
      pose proof (proj1 (Forall_forall _ _) (do_copy _ Hd (or_introl Ec)) t Hall) as C. auto. }
    generalize (ev_fields v). induction T as [|t ts Ht _ IH]; intros [|y ys]; cbn [combine filter map fst]; try reflexivity.
    rewrite Ht. apply IH. }
  rewrite D. rewrite <- (app_nil_r (destroyed (events s))) at 2. f_equal.
  unfold kdead_destructors. generalize (kdead a). induction l as [|[id v] l IH]; cbn [flat_map snd]; [reflexivity|].
  rewrite N, IH. reflexivity.
Qed.

(** The crate alone destroys nothing: if the program drops no enum value and no allocation fails,
    no destructor runs, however many containers are made, cloned, viewed, emptied and dropped. *)
Lemma kdead_untouched def p : keeps_values p -> forall G a, kdead (snd (karun def p G [] a)) = kdead a.
Proof.
  induction p as [|o k IH]; intros K G a; cbn [karun]; [reflexivity|]. cbn [keeps_values] in K. destruct K as [Ko Kk].
  cbn [hd tl]. destruct (kastep def (G 0%nat) false o a) as [[r a']|] eqn:A; [|reflexivity].
  specialize (IH r (Kk r) (fun n => G (S n)) a'). destruct (karun def (k r) _ [] a') as [l e]. cbn [snd] in *. rewrite IH.
  destruct o as [v|i|src vals|i|i|i j|i j|i j|i o out|i o out|i o out|i|i|i n f|i n val|i|i|i|i]; cbn [kastep] in A; try contradiction;
    unfold kstore in A;
    repeat (rewrite ?andb_false_r in A; match type of A with context [match ?t with _ => _ end] => destruct t; try discriminate end);
    injection A as <- <-; reflexivity.
Qed.

Theorem C37_untouched : forall E def x I F p s, macro_setup E def x -> implements harmless def I F ->
  (forall v k, In (v, k) (e_variants def) -> no_zst_drop def k) ->
  kfollows E def F p ka0 -> keeps_values p -> ~ In true (kshortages E def x I p [] s) ->
  exists seen c s', krun E x I p [] s = (seen, KFinished c s') /\ destroyed (events s') = destroyed (events s).
Proof.
  intros E def x I F p s Hs HI Hz Hf Hk Hn.
  destruct (C37_destroyed E def x I F p s Hs HI Hz Hf) as (c & s' & H).
  rewrite karun_no_failure in H by exact Hn. destruct (karun def p _ [] ka0) as [seen a] eqn:Ar. destruct H as (R & D).
  exists seen, c, s'. split; [exact R|].
  pose proof (kdead_untouched def p Hk (kmeanings E x I F p s) ka0) as U. rewrite Ar in U. cbn in U. rewrite D, U. apply app_nil_r.
Qed.

(** ** Examples *)

(** Impls for [item]: clone copies; two values are equal, and print, by their variant's name. *)
Definition name_eq (a b : evalue) : bool := String.eqb (ev_variant a) (ev_variant b).
Definition item_meaning : meaning :=
  Meaning (fun v => Done v) (fun a b => Done (name_eq a b)) (fun a b => Done (if name_eq a b then Some Eq else None))
    (fun a b => Done (if name_eq a b then Eq else Lt))
    (fun o v out => Done ((out ++ ev_variant v)%string, true)) (fun o v out => Done (out, false)).
Definition pure_impls (F : meaning) : impls :=
  Impls (fun v => of_outcome (m_clone F v)) (fun v w => of_outcome (m_eq F v w)) (fun v w => of_outcome (m_pcmp F v w))
    (fun v w => of_outcome (m_cmp F v w)) (fun o v out => of_outcome (m_debug F o v out))
    (fun o v out => of_outcome (m_display F o v out)).

Lemma pure_implements def F : (forall v c, evalue_ok def v -> m_clone F v = Done c -> evalue_ok def c) ->
  implements harmless def (pure_impls F) (fun _ => F).
Proof.
  intros H. assert (C : forall A (r : outcome A) s, computes harmless s (of_outcome r) r).
  { intros A r s. exists s. split; [destruct r; reflexivity|]. split; [apply keeps_refl|]. auto. }
  constructor; intros; cbn; auto. split; [apply C|]. eauto.
Qed.

Lemma implements_weak (R R' : st -> st -> Prop) def I F : (forall s s', R s s' -> R' s s') -> implements R def I F -> implements R' def I F.
Proof.
  intros H [A B C D G J].
  assert (W : forall T s (m : M T) r, computes R s m r -> computes R' s m r).
  { intros T s m r (s' & H1 & H2). exists s'. auto. }
  constructor; intros; auto. destruct (A s v); auto.
Qed.

Ltac item_clones := cbn; intros ? ? ? Hc; injection Hc as <-; assumption.

Definition kgo (l : list kop) : kprog := fold_right (fun o p => KDo o (fun _ => p)) KStop l.

(** A text is stored, cloned, compared, printed, viewed; the clone is taken out and dropped, the
    original container just dropped; an integer is made from its payload and leaked. *)
Definition kdemo : list kop :=
  [KNew v_text; KFrom 0; KClone 0; KEq 0 1; KCmp 0 1; KDebug 0 default_opts "> "; KDebugValue 0 default_opts "> "; KView 1; KIntoInner 1; KDropVal 1; KView 0; KDrop 0;
   KFromPayload "i32" [le_bytes 4 42]; KView 2].

(** The program chooses: it goes on with the clone only if the clone was made. *)
Definition kdemo_prog : kprog :=
  KDo (KNew v_text) (fun _ => KDo (KFrom 0) (fun r =>
    match r with KSawPanic _ => KStop | _ => KDo (KClone 0) (fun r =>
      match r with KSawPanic _ => KStop | _ => kgo [KEq 0 1; KView 1; KIntoInner 1; KDropVal 1; KView 0] end) end)).

Lemma item_no_zst_drop v k : In (v, k) (e_variants item) -> no_zst_drop item k.
Proof.
  intros H. split; [reflexivity|]. cbn in H.
  repeat (destruct H as [H|H]; [injection H as <- <-; cbn; try exact Logic.I; discriminate|]). destruct H.
Qed.

(** Contracts of the examples' steps: the tag of the variant is small enough. *)
Ltac fits_at n := solve [exists n; eexists; split; [reflexivity|vm_compute; discriminate]].
Ltac kcontract_ok :=
  first [ exact Logic.I
        | intros; repeat match goal with H : Some _ = Some _ |- _ => injection H as H; subst
                                       | H : Done _ = Done _ |- _ => injection H as H; subst
                                       | H : Some _ = None |- _ => discriminate H
                                       | H : Panics _ = Done _ |- _ => discriminate H end;
          cbn [ev_variant];
          first [discriminate|fits_at 0%nat|fits_at 1%nat|fits_at 2%nat|fits_at 3%nat|fits_at 4%nat|fits_at 5%nat|fits_at 6%nat]].

Lemma kdemo_follows : kfollows (bump_env dbg60) item (fun _ => item_meaning) kdemo_prog ka0.
Proof.
  assert (V : evalue_ok item v_text) by (pose proof item_values_ok as H; rewrite Forall_forall in H; apply H; cbn; tauto).
  intros t1. split; [exact V|]. intros f1. cbn. intros t2. split; [kcontract_ok|]. intros []; cbn; [exact Logic.I|].
  split; [kcontract_ok|]. intros []; cbn; [exact Logic.I|]. repeat (intros ?; split; [kcontract_ok|intros _; cbn]). exact Logic.I.
Qed.

Example C35_example : let E := bump_env dbg60 in let I := pure_impls item_meaning in
  macro_setup E item item_x /\ implements keeps item I (fun _ => item_meaning) /\ kfollows (bump_env dbg60) item (fun _ => item_meaning) kdemo_prog ka0 /\
  fst (krun E item_x I kdemo_prog [] st0)
    = [KNothing; KNothing; KNothing; KSawBool true; KSawValues [v_text]; KSawValues [v_text]; KNothing; KSawValues [v_text]] /\
  ~ In true (kshortages E item item_x I kdemo_prog [] st0) /\
  fst (krun (Env dbg60 no_memory reprC) item_x I kdemo_prog [] st0) = [KNothing; KSawPanic PanicNullAlloc] /\
  kshortages (Env dbg60 no_memory reprC) item item_x I kdemo_prog [] st0 = [false; true] /\
  fst (krun E item_x I (kgo kdemo) [] st0)
    = [KNothing; KNothing; KNothing; KSawBool true; KSawOrd Eq; KSawText ("> Container { value: Text }"%string, true); KSawText ("> Text"%string, true); KSawValues [v_text];
       KSawValues [v_text]; KNothing; KSawValues [v_text]; KNothing; KNothing; KSawValues [v_integer]].
Proof.
  split; [apply item_setup|]. split; [|split; [apply kdemo_follows|vm_compute; intuition discriminate]].
  eapply implements_weak; [|apply pure_implements; item_clones]. intros s s' H. apply H.
Qed.

(** The tag is the variant's place; a tuple variant of several fields is read with [from_tagged_box]
    (the layouts agree in this environment). *)
Definition tagged_prog : kprog :=
  KDo (KNew v_many) (fun _ => KDo (KFrom 0) (fun r =>
    match r with KSawPanic _ => KStop | _ => kgo [KTag 0; KFromTagged 0; KDropVal 0] end)).

Example C35_tag_example : kfollows (bump_env dbg60) item (fun _ => item_meaning) tagged_prog ka0 /\ several_fields (KTuple [ty_u8; ty_u32; ty_u8]) /\
  fst (krun (bump_env dbg60) item_x (pure_impls item_meaning) tagged_prog [] st0)
    = [KNothing; KNothing; KSawTag 5; KSawValues [v_many]; KNothing].
Proof.
  split; [|split; [cbn; lia|vm_compute; reflexivity]].
  assert (V : evalue_ok item v_many) by (pose proof item_values_ok as H; rewrite Forall_forall in H; apply H; cbn; tauto).
  intros t1. split; [exact V|]. intros f1. cbn. intros t2. split; [kcontract_ok|]. intros []; cbn; [exact Logic.I|].
  split; [exact Logic.I|]. intros _. cbn. split.
  - intros id v k Hv Hin Hm. split; [|split]; reflexivity || (cbn; lia).
  - intros _. cbn. split; [exact Logic.I|]. intros _. exact Logic.I.
Qed.

(** User code that panics: cloning always, comparing only different variants. The panics reach the
    program and the containers stay as they were. *)
Definition touchy : meaning :=
  Meaning (fun v => Panics (PanicUser "clone")) (fun a b => if name_eq a b then Done true else Panics (PanicUser "eq"))
    (m_pcmp item_meaning) (m_cmp item_meaning) (m_debug item_meaning) (m_display item_meaning).

Definition touchy_prog : kprog :=
  KDo (KNew v_text) (fun _ => KDo (KFrom 0) (fun r =>
    match r with KSawPanic _ => KStop | _ => KDo (KFromPayload "i32" [le_bytes 4 42]) (fun r =>
      match r with KSawPanic _ => KStop | _ => kgo [KClone 0; KEq 0 1; KEq 1 1; KView 0; KIntoInner 1; KDropVal 1] end) end)).

Example C35_panic_example : let E := bump_env dbg60 in let I := pure_impls touchy in
  macro_setup E item item_x /\ implements harmless item I (fun _ => touchy) /\ kfollows (bump_env dbg60) item (fun _ => touchy) touchy_prog ka0 /\
  fst (krun E item_x I touchy_prog [] st0)
    = [KNothing; KNothing; KNothing; KSawPanic (PanicUser "clone"); KSawPanic (PanicUser "eq"); KSawBool true;
       KSawValues [v_text]; KSawValues [v_integer]; KNothing].
Proof.
  split; [apply item_setup|]. split; [apply pure_implements; intros v c _ Hc; discriminate|]. split; [|vm_compute; auto].
  assert (V : evalue_ok item v_text) by (pose proof item_values_ok as H; rewrite Forall_forall in H; apply H; cbn; tauto).
  assert (W : evalue_ok item v_integer) by (pose proof item_values_ok as H; rewrite Forall_forall in H; apply H; cbn; tauto).
  intros t1. split; [exact V|]. intros f1. cbn. intros t2. split; [kcontract_ok|]. intros []; cbn; [exact Logic.I|].
  split; [split; [exact W|kcontract_ok]|]. intros []; cbn; [exact Logic.I|]. repeat (intros ?; split; [kcontract_ok|intros _; cbn]). exact Logic.I.
Qed.

(** A [Clone] that depends on the state: cloning a text takes a new buffer from the allocator, so each
    clone is another value. *)
Definition in_buffer (p : N) : evalue := EV "Text" [le_bytes 8 p ++ le_bytes 8 5 ++ le_bytes 8 5].
Definition buffered (E : env) (s : st) : meaning :=
  Meaning
    (fun v => if String.eqb (ev_variant v) "Text" then
                match alloc_fn E s 5 1 with Some p => Done (in_buffer p) | None => Panics (PanicUser "capacity") end
              else Done v)
    (m_eq item_meaning) (m_pcmp item_meaning) (m_cmp item_meaning) (m_debug item_meaning) (m_display item_meaning).
Definition buffer_impls (E : env) : impls :=
  let I := pure_impls item_meaning in
  Impls
    (fun v => if String.eqb (ev_variant v) "Text" then
                bind (alloc (alloc_fn E) 5 1) (fun p => match p with Some p => ret (in_buffer p) | None => raise (PanicUser "capacity") end)
              else ret v)
    (i_eq I) (i_pcmp I) (i_cmp I) (i_debug I) (i_display I).

Lemma zero_bytes n : forall p, forallb (fun b => match b with Byte 0 => true | _ => false end) (le_bytes n p) = true ->
  p < 256 ^ N.of_nat n -> p = 0.
Proof.
  induction n as [|n IH]; intros p H Hp; [cbn in Hp; lia|]. cbn [le_bytes forallb] in H. apply andb_true_iff in H as [H1 H2].
  assert (Z : p mod 256 = 0) by (destruct (p mod 256); [reflexivity|discriminate]).
  apply IH in H2; [|rewrite Nat2N.inj_succ, N.pow_succ_r' in Hp; apply N.div_lt_upper_bound; lia].
  pose proof (N.div_mod p 256). lia.
Qed.

Lemma buffer_ok E s p : env_ok E -> alloc_fn E s 5 1 = Some p -> evalue_ok item (in_buffer p).
Proof.
  intros He Hp. destruct (eo_alloc _ He s 5 1 p eq_refl (proj1 wf_u8) Hp) as (Z & _ & L & _).
  assert (L' : p < 256 ^ N.of_nat 8).
  { destruct (proj2 (eo_target _ He)) as [W|W]; rewrite W in L; change (256 ^ N.of_nat 8) with (2 ^ 64).
    - pose proof (N.pow_lt_mono_r 2 32 64 ltac:(lia) ltac:(lia)). lia.
    - lia. }
  exists (KTuple [ty_string]). split; [cbn; tauto|]. constructor; [|constructor]. split; [reflexivity|].
  cbn [ty_valid ty_string]. unfold str_valid. apply andb_true_iff. split.
  - unfold all_init. rewrite !forallb_app. cbn [le_bytes forallb]. repeat (rewrite andb_true_iff; split); try reflexivity;
      apply N.ltb_lt, N.mod_lt; lia.
  - apply negb_true_iff, not_true_iff_false. intros H. apply Z, (zero_bytes 8); [|exact L'].
    change (firstn 8 (le_bytes 8 p ++ le_bytes 8 5 ++ le_bytes 8 5)) with (le_bytes 8 p) in H. exact H.
Qed.

Lemma buffered_implements E : env_ok E -> implements keeps item (buffer_impls E) (buffered E).
Proof.
  intros He. assert (P : implements keeps item (pure_impls item_meaning) (fun _ => item_meaning)).
  { eapply implements_weak; [|apply pure_implements; item_clones]. intros s s' H. apply H. }
  constructor; intros s; [|apply (im_eq _ _ _ _ P s)|apply (im_pcmp _ _ _ _ P s)|apply (im_cmp _ _ _ _ P s)|apply (im_debug _ _ _ _ P s)
    |apply (im_display _ _ _ _ P s)].
  intros v V. cbn [buffer_impls buffered i_clone m_clone]. destruct (String.eqb (ev_variant v) "Text").
  - unfold computes, bind, alloc. destruct (alloc_fn E s 5 1) as [p|] eqn:Hp.
    + split; [|intros c Hc; injection Hc as <-; eapply buffer_ok; eassumption].
      eexists. split; [reflexivity|]. eapply (alloc_keeps E); [exact (eo_alloc _ He)| | |exact Hp|].
      * lia.
      * apply (proj1 wf_u8).
      * intros q Hq. unfold undef_range. destruct (N.leb_spec p q), (N.ltb_spec q (p + 5)); cbn; try reflexivity. lia.
    + split; [|discriminate]. eexists. split; [reflexivity|apply keeps_refl].
  - split; [|intros c Hc; injection Hc as <-; exact V]. eexists. split; [reflexivity|apply keeps_refl].
Qed.

(** Two clones of one text are different values, and are seen as such. *)
Definition clones_twice : kprog :=
  KDo (KNew v_text) (fun _ => KDo (KFrom 0) (fun r =>
    match r with KSawPanic _ => KStop | _ => KDo (KClone 0) (fun r =>
      match r with KSawPanic _ => KStop | _ => KDo (KClone 0) (fun r =>
        match r with KSawPanic _ => KStop | _ => kgo [KView 0; KView 1; KView 2; KEq 1 2] end) end) end)).

Lemma clones_twice_follows : kfollows (bump_env dbg60) item (buffered (bump_env dbg60)) clones_twice ka0.
Proof.
  assert (V : evalue_ok item v_text) by (pose proof item_values_ok as H; rewrite Forall_forall in H; apply H; cbn; tauto).
  intros t1. split; [exact V|]. intros f1. cbn. intros t2. split; [kcontract_ok|]. intros []; cbn; [exact Logic.I|].
  intros t3. generalize (bump t3 5 1). intros [q|]; cbn; (split; [intros id loc v c Hv; injection Hv as _ _ <-; cbn; kcontract_ok|]);
    [|intros _; exact Logic.I].
  intros []; cbn; [exact Logic.I|].
  intros t4. generalize (bump t4 5 1). intros [q'|]; cbn; (split; [intros id loc v c Hv; injection Hv as _ _ <-; cbn; kcontract_ok|]);
    [|intros _; exact Logic.I].
  intros []; cbn; [exact Logic.I|]. repeat (intros ?; split; [exact Logic.I|intros _; cbn]). exact Logic.I.
Qed.

Example C35_state_example : let E := bump_env dbg60 in let I := buffer_impls E in
  macro_setup E item item_x /\ implements keeps item I (buffered E) /\ kfollows E item (buffered E) clones_twice ka0 /\
  krun E item_x I clones_twice [] st0
    = (fst (karun item clones_twice (kmeanings E item_x I (buffered E) clones_twice st0) [] ka0), snd (krun E item_x I clones_twice [] st0)) /\
  fst (krun E item_x I clones_twice [] st0)
    = [KNothing; KNothing; KNothing; KNothing; KSawValues [v_text]; KSawValues [in_buffer 4120]; KSawValues [in_buffer 4152];
       KSawBool true].
Proof.
  split; [apply item_setup|]. split; [apply buffered_implements, bump_env_ok, example_targets_ok|].
  split; [apply clones_twice_follows|vm_compute; auto].
Qed.

Definition final (r : list kobs * kending) : option (nat * list (string * leafval)) :=
  match snd r with KFinished _ s => Some (List.length (blocks s), destroyed (events s)) | _ => None end.

(** Three blocks, none freed; one string destroyed: the one the program took out and dropped. *)
Example C36_C37_example : let E := bump_env dbg60 in let I := pure_impls item_meaning in
  macro_setup E item item_x /\ implements harmless item I (fun _ => item_meaning) /\
  (forall v k, In (v, k) (e_variants item) -> no_zst_drop item k) /\
  kfollows (bump_env dbg60) item (fun _ => item_meaning) kdemo_prog ka0 /\ e_copy item = false /\
  final (krun E item_x I (kgo kdemo) [] st0) = Some (3%nat, [("String"%string, a_string)]) /\
  kmade (snd (karun item (kgo kdemo) (fun _ => item_meaning) [] ka0)) = 3%nat /\
  final (krun E item_x I kdemo_prog [] st0) = Some (2%nat, [("String"%string, a_string)]).
Proof.
  split; [apply item_setup|]. split; [apply pure_implements; item_clones|]. split; [apply item_no_zst_drop|].
  split; [apply kdemo_follows|]. vm_compute. auto.
Qed.

(** Besides buffers for the clones, comparing makes a text and destroys it: two of the five blocks and
    the only destructor are the user's. *)
Definition busy_impls (E : env) : impls :=
  let I := buffer_impls E in
  Impls (i_clone I) (fun v w s => Ok (name_eq v w) (log (EvDrop "String" a_string) s)) (i_pcmp I) (i_cmp I) (i_debug I) (i_display I).

Lemma busy_implements E : env_ok E -> implements keeps item (busy_impls E) (buffered E).
Proof.
  intros He. destruct (buffered_implements E He) as [A B C D G H]. constructor; try assumption.
  intros s v w _ _. eexists. split; [reflexivity|]. apply (keeps_logged [EvDrop "String" a_string] s).
Qed.

Example C36_C37_accounting_example : let E := bump_env dbg60 in let I := busy_impls E in
  macro_setup E item item_x /\ implements keeps item I (buffered E) /\
  (forall v k, In (v, k) (e_variants item) -> no_zst_drop item k) /\
  kfollows E item (buffered E) clones_twice ka0 /\
  final (krun E item_x I clones_twice [] st0) = Some (5%nat, [("String"%string, a_string)]) /\
  let a := snd (karun item clones_twice (kmeanings E item_x I (buffered E) clones_twice st0) [] ka0) in
  let own := kprivate E item item_x I (buffered E) clones_twice [] st0 ka0 in
  kmade a = 3%nat /\ kdead a = [] /\ grown (fun t => List.length (blocks t)) own = 2%Z /\
  grown (fun t => times ("String"%string, a_string) (destroyed (events t))) own = 1%Z.
Proof.
  split; [apply item_setup|]. split; [apply busy_implements, bump_env_ok, example_targets_ok|].
  split; [apply item_no_zst_drop|]. split; [apply clones_twice_follows|vm_compute; auto].
Qed.

(** An enum deriving [Copy]: copies of a container are taken out and dropped one after the other. *)
Definition copying : edef := Edef "Container" "Point" 1 false true [("Origin", KUnit); ("At", KTuple [ty_u8])]%string.
Definition copying_x : expansion := match expand copying with Some x => x | None => item_x end.

Lemma copying_setup : macro_setup (bump_env dbg60) copying copying_x.
Proof.
  constructor; try reflexivity.
  - apply bump_env_ok, example_targets_ok.
  - constructor.
    + discriminate.
    + repeat constructor; cbn; intuition discriminate.
    + intros v ms H. cbn in H. intuition discriminate.
    + intros v tys H. cbn in H. intuition try discriminate.
      match goal with H : (_, KTuple _) = _ |- _ => injection H as <- <-; cbn; lia end.
    + cbn. constructor; [apply wf_u8|constructor].
    + exists 0. split; [lia|reflexivity].
    + cbn. repeat constructor.
    + reflexivity.
    + cbn. repeat constructor.
    + cbn. repeat constructor; cbn; intuition discriminate.
Qed.

Definition copies : kprog :=
  KDo (KNew (EV "At" [[Byte 7]])) (fun _ => KDo (KFrom 0) (fun r =>
    match r with KSawPanic _ => KStop | _ => kgo [KCopy 0; KIntoInner 0; KDropVal 0; KView 1; KIntoInner 1; KDropVal 1] end)).

(** A text is stored, looked at, and its container goes out of scope: nothing is destroyed. *)
Definition untouched_prog : kprog :=
  KDo (KNew v_text) (fun _ => KDo (KFrom 0) (fun r =>
    match r with KSawPanic _ => KStop | _ => kgo [KView 0; KDrop 0] end)).

Example C37_untouched_example : let E := bump_env dbg60 in let I := pure_impls item_meaning in
  macro_setup E item item_x /\ implements harmless item I (fun _ => item_meaning) /\
  (forall v k, In (v, k) (e_variants item) -> no_zst_drop item k) /\
  kfollows E item (fun _ => item_meaning) untouched_prog ka0 /\ keeps_values untouched_prog /\
  ~ In true (kshortages E item item_x I untouched_prog [] st0) /\
  fst (krun E item_x I untouched_prog [] st0) = [KNothing; KNothing; KSawValues [v_text]; KNothing] /\
  final (krun E item_x I untouched_prog [] st0) = Some (1%nat, []).
Proof.
  split; [apply item_setup|]. split; [apply pure_implements; item_clones|]. split; [apply item_no_zst_drop|].
  assert (V : evalue_ok item v_text) by (pose proof item_values_ok as H; rewrite Forall_forall in H; apply H; cbn; tauto).
  split; [|split; [|vm_compute; intuition discriminate]].
  - intros t1. split; [exact V|]. intros f1. cbn. intros t2. split; [kcontract_ok|]. intros []; cbn; [exact Logic.I|].
    repeat (intros ?; split; [exact Logic.I|intros _; cbn]). exact Logic.I.
  - cbn. split; [exact Logic.I|]. intros _. split; [exact Logic.I|]. intros []; cbn; tauto.
Qed.


Example C37_copy_example : let E := bump_env dbg60 in let I := pure_impls item_meaning in
  macro_setup E copying copying_x /\ implements harmless copying I (fun _ => item_meaning) /\
  (forall v k, In (v, k) (e_variants copying) -> no_zst_drop copying k) /\
  kfollows (bump_env dbg60) copying (fun _ => item_meaning) copies ka0 /\ e_copy copying = true /\
  fst (krun E copying_x I copies [] st0) =
    [KNothing; KNothing; KNothing; KSawValues [EV "At" [[Byte 7]]]; KNothing; KSawValues [EV "At" [[Byte 7]]];
     KSawValues [EV "At" [[Byte 7]]]; KNothing] /\
  final (krun E copying_x I copies [] st0) = Some (1%nat, []).
Proof.
  split; [apply copying_setup|]. split; [apply pure_implements; item_clones|]. split.
  { intros v k H. split; [reflexivity|]. cbn in H.
    repeat (destruct H as [H|H]; [injection H as <- <-; cbn; try exact Logic.I; discriminate|]). destruct H. }
  split; [|vm_compute; auto].
  split; [exists (KTuple [ty_u8]); split; [cbn; tauto|repeat constructor]|]. intros f1. cbn. split; [kcontract_ok|].
  intros []; cbn; [exact Logic.I|]. repeat (intros ?; split; [kcontract_ok|intros _; cbn]). exact Logic.I.
Qed.

(** A value changed in place is seen changed through every copy of its container. *)
Definition bump_byte (l : leafval) : leafval := map (fun b => match b with Byte n => Byte (n + 1) | _ => b end) l.
Definition changes : kprog :=
  KDo (KNew (EV "At" [[Byte 7]])) (fun _ => KDo (KFrom 0) (fun r =>
    match r with
    | KSawPanic _ => KStop
    | _ => kgo [KCopy 0; KModify 0 "At" bump_byte; KView 1; KAssign 1 "At" [Byte 100]; KTag 0; KView 0; KIntoInner 0; KModify 1 "At" bump_byte;
                KView 1; KDropVal 0]
    end)).

Example C35_change_example : let E := bump_env dbg60 in let I := pure_impls item_meaning in
  macro_setup E copying copying_x /\ implements harmless copying I (fun _ => item_meaning) /\
  kfollows (bump_env dbg60) copying (fun _ => item_meaning) changes ka0 /\
  fst (krun E copying_x I changes [] st0) =
    [KNothing; KNothing; KNothing; KNothing; KSawValues [EV "At" [[Byte 8]]]; KNothing; KSawTag 1; KSawValues [EV "At" [[Byte 100]]];
     KSawValues [EV "At" [[Byte 100]]]; KNothing; KSawValues [EV "At" [[Byte 101]]]; KNothing].
Proof.
  split; [apply copying_setup|]. split; [apply pure_implements; item_clones|]. split; [|vm_compute; auto].
  split; [exists (KTuple [ty_u8]); split; [cbn; tauto|repeat constructor]|]. intros f1. cbn. split; [kcontract_ok|].
  intros []; cbn; [exact Logic.I|].
  repeat (intros ?; split; [first [exact Logic.I|intros ? ? ? Hv; injection Hv as _ _ <-; split; [reflexivity|];
      exists (KTuple [ty_u8]); split; [cbn; tauto|repeat constructor]]|intros _; cbn]). exact Logic.I.
Qed.

(** Assigning to a stored string destroys the old one: that one and no other. *)
Definition assigns : kprog :=
  KDo (KNew v_text) (fun _ => KDo (KFrom 0) (fun r =>
    match r with KSawPanic _ => KStop | _ => kgo [KAssign 0 "Text" (List.rev a_string); KView 0] end)).

Example C37_assign_example : let E := bump_env dbg60 in let I := pure_impls item_meaning in
  macro_setup E item item_x /\ implements harmless item I (fun _ => item_meaning) /\
  kfollows E item (fun _ => item_meaning) assigns ka0 /\
  fst (krun E item_x I assigns [] st0) = [KNothing; KNothing; KNothing; KSawValues [EV "Text" [List.rev a_string]]] /\
  List.rev a_string <> a_string /\
  final (krun E item_x I assigns [] st0) = Some (1%nat, [("String"%string, a_string)]).
Proof.
  split; [apply item_setup|]. split; [apply pure_implements; item_clones|]. split; [|vm_compute; repeat split; discriminate].
  assert (V : evalue_ok item v_text) by (pose proof item_values_ok as H; rewrite Forall_forall in H; apply H; cbn; tauto).
  intros t1. split; [exact V|]. intros f1. cbn. intros t2. split; [kcontract_ok|]. intros []; cbn; [exact Logic.I|].
  split; [|intros _; cbn; split; [exact Logic.I|intros _; exact Logic.I]].
  intros ? ? ? Hv. injection Hv as _ _ <-. split; [reflexivity|]. eexists. split; [cbn; tauto|]. constructor; [|constructor].
  split; vm_compute; reflexivity.
Qed.

(** ** Instances: each theorem applied to a concrete case that meets its hypotheses *)

(** [kdemo_prog] and [clones_twice] in an empty heap. *)
Example C35_history_example : exists c s, krun (bump_env dbg60) item_x (pure_impls item_meaning) kdemo_prog [] st0
  = ([KNothing; KNothing; KNothing; KSawBool true; KSawValues [v_text]; KSawValues [v_text]; KNothing; KSawValues [v_text]], KFinished c s).
Proof.
  destruct C35_example as (S & M & F & _).
  destruct (C35_history _ _ _ _ _ _ st0 S M F) as (c & s & H). exists c, s. rewrite H. vm_compute fst. reflexivity.
Qed.

Example C35_no_failure_example : exists c s, krun (bump_env dbg60) item_x (busy_impls (bump_env dbg60)) clones_twice [] st0
  = (fst (karun item clones_twice (kmeanings (bump_env dbg60) item_x (busy_impls (bump_env dbg60)) (buffered (bump_env dbg60)) clones_twice st0) [] ka0), KFinished c s).
Proof.
  destruct C36_C37_accounting_example as (S & M & _ & F & _).
  apply (C35_no_failure _ _ _ _ _ _ st0 S M F). vm_compute. intuition discriminate.
Qed.

Example C36_blocks_example : exists c s, snd (krun (bump_env dbg60) item_x (pure_impls item_meaning) kdemo_prog [] st0) = KFinished c s /\
  List.length (blocks s) = 2%nat /\ keeps st0 s.
Proof.
  destruct C36_C37_example as (S & M & _ & F & _).
  destruct (C36_blocks _ _ _ _ _ _ st0 S M F) as (c & s & H). exists c, s.
  set (r := karun item kdemo_prog _ _ ka0) in H. assert (A : kmade (snd r) = 2%nat) by (vm_compute; reflexivity).
  destruct r as [seen a]. cbn [snd] in A. destruct H as (R & K & B). rewrite R, B, A. auto.
Qed.

Example C36_accounting_example : exists c s, snd (krun (bump_env dbg60) item_x (busy_impls (bump_env dbg60)) clones_twice [] st0) = KFinished c s /\
  List.length (blocks s) = 5%nat /\ keeps st0 s.
Proof.
  destruct C36_C37_accounting_example as (S & M & _ & F & _).
  destruct (C36_accounting _ _ _ _ _ _ st0 S M F) as (c & s & H). exists c, s.
  set (r := karun item clones_twice _ _ ka0) in H. assert (A : kmade (snd r) = 3%nat) by (vm_compute; reflexivity).
  set (g := grown _ _) in H. assert (G : g = 2%Z) by (vm_compute; reflexivity). rewrite G in H.
  destruct r as [seen a]. cbn [snd] in A. destruct H as (R & K & B). rewrite R. split; [reflexivity|]. split; [|exact K].
  rewrite A in B. change (blocks st0) with (@nil block) in B. cbn [List.length] in B. lia.
Qed.

Example C37_destroyed_example : exists c s, snd (krun (bump_env dbg60) item_x (pure_impls item_meaning) kdemo_prog [] st0) = KFinished c s /\
  destroyed (events s) = [("String"%string, a_string)].
Proof.
  destruct C36_C37_example as (S & M & Z & F & _).
  destruct (C37_destroyed _ _ _ _ _ _ st0 S M Z F) as (c & s & H). exists c, s.
  set (r := karun item kdemo_prog _ _ ka0) in H.
  assert (A : kdead_destructors item (kdead (snd r)) = [("String"%string, a_string)]) by (vm_compute; reflexivity).
  destruct r as [seen a]. cbn [snd] in A. destruct H as (R & B). rewrite R, B, A. auto.
Qed.

Example C37_accounting_example : exists c s, snd (krun (bump_env dbg60) item_x (busy_impls (bump_env dbg60)) clones_twice [] st0) = KFinished c s /\
  times ("String"%string, a_string) (destroyed (events s)) = 1%nat.
Proof.
  destruct C36_C37_accounting_example as (S & M & Z & F & _).
  destruct (C37_accounting _ _ _ _ _ _ st0 S M Z F) as (c & s & H). exists c, s.
  set (r := karun item clones_twice _ _ ka0) in H. assert (A : kdead (snd r) = []) by (vm_compute; reflexivity).
  destruct r as [seen a]. cbn [snd] in A. destruct H as (R & B). rewrite R. split; [reflexivity|].
  specialize (B ("String"%string, a_string)). rewrite A in B.
  set (g := grown _ _) in B. assert (G : g = 1%Z) by (vm_compute; reflexivity). rewrite G in B.
  change (times ("String"%string, a_string) (destroyed (events st0))) with 0%nat in B.
  change (times ("String"%string, a_string) (kdead_destructors item [])) with 0%nat in B. lia.
Qed.

Example C37_once_example : exists c s a, krun (bump_env dbg60) item_x (pure_impls item_meaning) kdemo_prog [] st0
    = ([KNothing; KNothing; KNothing; KSawBool true; KSawValues [v_text]; KSawValues [v_text]; KNothing; KSawValues [v_text]], KFinished c s) /\
  NoDup (klive_ids a ++ map fst (kdead a)) /\ klive_ids a = [0]%nat /\ map fst (kdead a) = [1]%nat /\
  Forall2 (kshows (bump_env dbg60) item_x s) c (kcells a).
Proof.
  destruct C36_C37_example as (S & M & Z & F & C & _).
  destruct (C37_once _ _ _ _ _ _ st0 S M Z F C) as (c & s & H). exists c, s. set (r := karun item kdemo_prog _ _ ka0) in H.
  assert (A1 : fst r = [KNothing; KNothing; KNothing; KSawBool true; KSawValues [v_text]; KSawValues [v_text]; KNothing; KSawValues [v_text]])
    by (vm_compute; reflexivity).
  assert (A2 : map fst (kdead (snd r)) = [1]%nat) by (vm_compute; reflexivity).
  assert (A3 : klive_ids (snd r) = [0]%nat) by (vm_compute; reflexivity).
  destruct r as [seen a]. cbn [fst snd] in A1, A2, A3. destruct H as (R & Sh & _ & N). exists a. rewrite R, A1. auto.
Qed.

Print Assumptions C35_history.
Print Assumptions C35_no_failure.
Print Assumptions C36_blocks.
Print Assumptions C36_accounting.
Print Assumptions C37_destroyed.
Print Assumptions C37_accounting.
Print Assumptions C37_once.
Print Assumptions C37_copy.
Print Assumptions C37_untouched.
