(** Property C59: several enums, the manual API and other code in one program. *)
From Coq Require Import Arith ZArith NArith String Bool List Lia.
From Verif Require Import Words Config Spec SpecMem ConfigFacts Pointer PointerFacts Fmt Mem MemFacts Box BoxFacts Bump
  Arms Macro SpecMacro MacroFacts Props_Pointer Props_Box Props_Macro Props_Layout Props_Clone Session SpecSession SessionFacts
  Props_Session Containers SpecContainers Props_Containers Multi SpecMulti.
Import ListNotations.
Local Open Scope N_scope.
Local Open Scope list_scope.

(** ** Memory outside given places *)

Definition clearb (r : N * N) (b : block) : bool := (fst r + snd r <=? b_base b) || (b_base b + b_size b <=? fst r).

Lemma clearb_iff r b : clearb r b = true <-> clear_of (Some r) (Some (b_base b, b_size b)).
Proof. destruct r as [p n]. unfold clearb. cbn. rewrite orb_true_iff, !N.leb_le. reflexivity. Qed.

(** The state with only the blocks apart from the places [l]. *)
Definition rest (l : list (N * N)) (s : st) : st :=
  St (bytes s) (filter (fun b => forallb (fun r => clearb r b) l) (blocks s)) [].

Lemma rest_in l s b : In b (blocks (rest l s)) <->
  In b (blocks s) /\ forall r, In r l -> clear_of (Some r) (Some (b_base b, b_size b)).
Proof.
  unfold rest. cbn [blocks]. rewrite filter_In, forallb_forall. split; intros [H1 H2]; (split; [exact H1|]); intros r Hr;
    apply clearb_iff, H2, Hr.
Qed.

Lemma rest_keeps l s : keeps (rest l s) s.
Proof. intros b Hb. apply rest_in in Hb as [Hb _]. split; [exact Hb|reflexivity]. Qed.

(** Nothing. *)
Definition none : st := St (fun _ => Undef) [] [].

(** ** Owners *)

Section Owners.
Variables (E : env) (def : edef).
Hypothesis Hd : def_ok def.

Definition kregs (c : list kcell) : list (N * N) := flat_map (kregion E def) c.

Lemma kregion_mem s w v : boxed E def s w v ->
  kregion E def (KBox w) = match kmem E def w v with Some r => [r] | None => [] end.
Proof.
  intros (i & k & Hi & Ht & _). cbn [kregion]. rewrite Ht, Nnat.Nat2N.id, Hi. unfold kmem.
  rewrite (assoc_in _ _ _ (do_names _ Hd) (nth_error_In _ _ Hi)). destruct (storage k) as [U|]; [|reflexivity].
  destruct (h_size U =? 0); reflexivity.
Qed.

(** Every place of an enum's variables belongs to a box. *)
Lemma kregs_box s0 s c a r : kinv E def s0 s c a -> In r (kregs c) ->
  exists j w id l v, nth_error c j = Some (KBox w) /\ nth_error (kcells a) j = Some (KABox id l v) /\ kmem E def w v = Some r.
Proof.
  intros H Hr. apply in_flat_map in Hr as (y & Hy & Hr). apply In_nth_error in Hy as [j Hj].
  pose proof (proj1 (Forall2_nth_iff _ _ _) (ki_rel _ _ _ _ _ _ H)) as [Len Rel].
  assert (L : (j < List.length (kcells a))%nat) by (rewrite <- Len; apply nth_error_Some; congruence).
  apply nth_error_Some in L. destruct (nth_error (kcells a) j) as [z|] eqn:Hz; [|contradiction].
  pose proof (Rel j y z Hj Hz) as R. destruct y as [w|v|]; cbn [kregion] in Hr; try contradiction.
  destruct z as [id l v|id v|]; cbn [krel] in R; try contradiction. destruct R as (B & _).
  exists j, w, id, l, v. split; [exact Hj|]. split; [exact Hz|].
  pose proof (kregion_mem s w v B) as K. cbn [kregion] in K. rewrite K in Hr.
  destruct (kmem E def w v); [|contradiction]. destruct Hr as [->|[]]. reflexivity.
Qed.

Lemma box_kregs s0 s c a j w id l v r : kinv E def s0 s c a -> nth_error c j = Some (KBox w) ->
  nth_error (kcells a) j = Some (KABox id l v) -> kmem E def w v = Some r -> In r (kregs c).
Proof.
  intros H Hj Hz Hm. pose proof (proj1 (Forall2_nth_iff _ _ _) (ki_rel _ _ _ _ _ _ H)) as [_ Rel].
  pose proof (Rel j _ _ Hj Hz) as (B & _). apply in_flat_map. exists (KBox w). split; [eapply nth_error_In, Hj|].
  rewrite (kregion_mem s w v B), Hm. left. reflexivity.
Qed.

Lemma kregs_home s0 s c a p n : kinv E def s0 s c a -> In (p, n) (kregs c) ->
  (exists al, In (Block p n al) (blocks s)) /\ forall b, In b (blocks s0) -> clear_of (Some (p, n)) (Some (b_base b, b_size b)).
Proof.
  intros H Hr. destruct (kregs_box s0 s c a _ H Hr) as (j & w & id & l & v & Hj & Hz & Hm).
  pose proof (proj1 (Forall2_nth_iff _ _ _) (ki_rel _ _ _ _ _ _ H)) as [_ Rel].
  pose proof (Rel j _ _ Hj Hz) as (_ & _ & Hh & _). rewrite Hm in Hh. exact Hh.
Qed.

(** What is protected can be chosen anew: anything apart from the enum's own boxes. *)
Lemma kinv_protect s0 t s c a : kinv E def s0 s c a -> keeps t s ->
  (forall r b, In r (kregs c) -> In b (blocks t) -> clear_of (Some r) (Some (b_base b, b_size b))) -> kinv E def t s c a.
Proof.
  intros H K C. constructor; [|exact (ki_pair _ _ _ _ _ _ H)|exact K].
  pose proof (proj1 (Forall2_nth_iff _ _ _) (ki_rel _ _ _ _ _ _ H)) as [Len Rel].
  apply Forall2_nth_iff. split; [exact Len|]. intros j y z Hj Hz. pose proof (Rel j y z Hj Hz) as R.
  destruct y as [w|v|], z as [id l v'|id v'|]; cbn [krel] in R |- *; try exact R.
  destruct R as (B & V & Hh & Hl). split; [exact B|]. split; [exact V|]. split; [|exact Hl].
  destruct (kmem E def w v') as [[p n]|] eqn:Hm; [|exact Logic.I]. destruct Hh as [Hb _]. split; [exact Hb|].
  intros b Hb'. apply (C (p, n) b); [|exact Hb']. eapply box_kregs; eassumption.
Qed.

Lemma boxed_moved s s' w v : boxed E def s w v ->
  (forall p n, kmem E def w v = Some (p, n) ->
     (exists al, In (Block p n al) (blocks s')) /\ forall q, p <= q < p + n -> bytes s' q = bytes s q) ->
  boxed E def s' w v.
Proof.
  intros (i & k & Hi & Ht & B) Hm. exists i, k. split; [exact Hi|]. split; [exact Ht|].
  pose proof (nth_error_In _ _ Hi) as Hin. unfold kmem in Hm. rewrite (assoc_in _ _ _ (do_names _ Hd) Hin) in Hm.
  destruct (storage k) as [U|] eqn:Es; [|exact B].
  destruct (storage_legal k U (kind_types_wf _ _ _ Hd Hin) Es) as [Hl _].
  eapply (box_holds_addr E); [exact Hl|reflexivity|]. apply box_holds_inv in B.
  apply read_at_inv in B as (_ & (A1 & A2 & A3) & A4).
  assert (Hb : forall q, tb_as_ptr E w <= q < tb_as_ptr E w + h_size U -> bytes s' q = bytes s q).
  { intros q Hq. destruct (N.eqb_spec (h_size U) 0); [lia|]. destruct (Hm _ _ eq_refl) as [_ Hb]. auto. }
  rewrite read_at_eq.
  - rewrite (read_fields_ext _ _ (bytes s)), A4; [reflexivity|]. intros f q Hf Hq. apply Hb.
    pose proof (ll_inside U Hl) as Hin'. rewrite Forall_forall in Hin'. specialize (Hin' f Hf). unfold in_field in Hq.
    unfold tb_as_ptr in *. lia.
  - split; [exact A1|]. split; [exact A2|]. unfold accessible. apply orb_true_iff.
    destruct (N.eqb_spec (h_size U) 0) as [Z|Z]; [left; reflexivity|right]. destruct (Hm _ _ eq_refl) as [[al Hal] _].
    apply existsb_exists. eexists. split; [exact Hal|]. unfold block_contains, tb_as_ptr. cbn [b_base b_size].
    rewrite !N.leb_refl. reflexivity.
Qed.

(** Code that spares the boxes. *)
Lemma kinv_spared s0 s s' c a : kinv E def s0 s c a -> spares (kregs c) s s' -> kinv E def none s' c a.
Proof.
  intros H Sp. assert (Hn : kinv E def none s c a).
  { apply (kinv_protect s0); [exact H|intros b []|intros r b _ []]. }
  pose proof (proj1 (Forall2_nth_iff _ _ _) (ki_rel _ _ _ _ _ _ Hn)) as [Len Rel].
  constructor; [|exact (ki_pair _ _ _ _ _ _ Hn)|intros b []].
  apply Forall2_nth_iff. split; [exact Len|]. intros j y z Hj Hz. pose proof (Rel j y z Hj Hz) as R.
  destruct y as [w|v|], z as [id l v'|id v'|]; cbn [krel] in R |- *; try exact R.
  destruct R as (B & V & Hh & Hl).
  assert (Hm : forall p n, kmem E def w v' = Some (p, n) ->
     (exists al, In (Block p n al) (blocks s')) /\ forall q, p <= q < p + n -> bytes s' q = bytes s q).
  { intros p n Hm. rewrite Hm in Hh. destruct Hh as [[al Hal] _].
    destruct (Sp p n al) as [S1 S2]; [eapply box_kregs; eassumption|exact Hal|]. eauto. }
  split; [eapply boxed_moved; [exact B|exact Hm]|]. split; [exact V|]. split; [|exact Hl].
  destruct (kmem E def w v') as [[p n]|]; [|exact Logic.I]. destruct (Hm p n eq_refl) as [Hb _]. split; [exact Hb|intros b []].
Qed.

End Owners.

Section Boxes.
Variable E : env.

Definition bregs (c : list cell) : list (N * N) := flat_map (region E) c.

Lemma region_place y : region E y = match SessionFacts.place E y with Some r => [r] | None => [] end.
Proof. destruct y as [U w|U p|U p|U v|]; cbn; try reflexivity; destruct (h_size U =? 0); reflexivity. Qed.

Lemma bregs_in c r : In r (bregs c) <-> exists i y, nth_error c i = Some y /\ SessionFacts.place E y = Some r.
Proof.
  unfold bregs. rewrite in_flat_map. split.
  - intros (y & Hy & Hr). apply In_nth_error in Hy as [i Hi]. exists i, y. split; [exact Hi|]. rewrite region_place in Hr.
    destruct (SessionFacts.place E y); [destruct Hr as [->|[]]; reflexivity|contradiction].
  - intros (i & y & Hi & Hp). exists y. split; [eapply nth_error_In, Hi|]. rewrite region_place, Hp. left. reflexivity.
Qed.

Lemma bregs_home s0 s c a p n : inv E s0 s c a -> In (p, n) (bregs c) ->
  (exists al, In (Block p n al) (blocks s)) /\ forall b, In b (blocks s0) -> clear_of (Some (p, n)) (Some (b_base b, b_size b)).
Proof.
  intros I Hr. apply bregs_in in Hr as (i & y & Hi & Hp). split.
  - pose proof (nth_some_lt _ _ _ Hi) as L. rewrite (iv_len _ _ _ _ _ I) in L. apply nth_error_Some in L.
    destruct (nth_error (cells a) i) as [z|] eqn:Hz; [|contradiction]. pose proof (iv_rel _ _ _ _ _ I i y z Hi Hz) as R.
    destruct y, z; cbn [SessionFacts.place rel] in *; try contradiction; try discriminate;
      destruct (N.eqb_spec (h_size U) 0); try discriminate; injection Hp as <- <-;
      [destruct R as (_ & _ & R)|destruct R as (_ & R)|destruct R as (_ & R)];
      eexists; apply (hm_block _ _ _ _ _ R); assumption.
  - intros b Hb. rewrite <- Hp. eapply (iv_home _ _ _ _ _ I); eassumption.
Qed.

Lemma inv_protect s0 t s c a : inv E s0 s c a -> keeps t s ->
  (forall r b, In r (bregs c) -> In b (blocks t) -> clear_of (Some r) (Some (b_base b, b_size b))) -> inv E t s c a.
Proof.
  intros [I1 I2 I3 I4 I5] K C. constructor; try assumption. intros i y b Hi Hb.
  destruct (SessionFacts.place E y) as [r|] eqn:Hp; [|exact Logic.I]. apply C; [|exact Hb]. apply bregs_in. eauto.
Qed.

Lemma inv_spared s0 s s' c a : inv E s0 s c a -> spares (bregs c) s s' -> inv E none s' c a.
Proof.
  intros I Sp. destruct I as [I1 I2 I3 I4 I5]. constructor; try assumption.
  - intros i y z Hi Hz. pose proof (I2 i y z Hi Hz) as R.
    assert (G : forall p n, SessionFacts.place E y = Some (p, n) -> In (p, n) (bregs c)) by (intros; apply bregs_in; eauto).
    eapply rel_keep; [exact R| |].
    + intros b Hb Hp. destruct b as [p n al]. apply (Sp p n al (G _ _ Hp) Hb).
    + intros p n Hp q Hq. destruct (bregs_home s0 s c a p n (Build_inv _ _ _ _ _ I1 I2 I3 I4 I5) (G _ _ Hp)) as [[al Hal] _].
      exact (proj2 (Sp p n al (G _ _ Hp) Hal) q Hq).
  - intros i y b _ [].
  - intros b [].
Qed.

End Boxes.

Lemma combine_in {A B} (x : A) (y : B) : forall i l m, nth_error l i = Some x -> nth_error m i = Some y -> In (x, y) (combine l m).
Proof.
  induction i as [|i IH]; intros [|x0 l] [|y0 m] Hx Hy; cbn in *; try discriminate; [left; congruence|right; eauto].
Qed.

(** ** The whole program *)

Section Whole.
Variables (E : env) (L : list inst) (F : nat -> st -> meaning).
Hypothesis HE : env_ok E.
Hypothesis HL : forall i n, nth_error L i = Some n ->
  macro_setup E (in_def n) (in_x n) /\ implements keeps (in_def n) (in_impls n) (F i).

(** The places of one owner: enum [i], or the manual API. *)
Definition owned (c : mvars) (o : option nat) : list (N * N) :=
  match o with
  | Some i => match nth_error L i, nth_error (mv_enums c) i with Some n, Some l => kregs E (in_def n) l | _, _ => [] end
  | None => bregs E (mv_boxes c)
  end.

Record minv (s : st) (c : mvars) (a : mastate) : Prop := {
  mi_len : List.length (mv_enums c) = List.length (ma_enums a);
  mi_enum : forall i n l b, nth_error L i = Some n -> nth_error (mv_enums c) i = Some l -> nth_error (ma_enums a) i = Some b ->
    kinv E (in_def n) none s l b;
  mi_box : inv E none s (mv_boxes c) (ma_boxes a);
  mi_apart : forall o1 o2 r1 r2, o1 <> o2 -> In r1 (owned c o1) -> In r2 (owned c o2) -> clear_of (Some r1) (Some r2)
}.

Lemma owned_regions c o r : In r (owned c o) -> In r (regions E L c).
Proof.
  unfold regions. intros H. apply in_or_app. destruct o as [i|]; [left|right; exact H]. cbn [owned] in H.
  destruct (nth_error L i) as [n|] eqn:Hn; [|contradiction]. destruct (nth_error (mv_enums c) i) as [l|] eqn:Hl; [|contradiction].
  apply in_flat_map. exists (n, l). split; [|exact H]. eapply combine_in; eassumption.
Qed.

(** A place of an owner is a block. *)
Lemma owned_block s c a o p n : minv s c a -> In (p, n) (owned c o) -> exists al, In (Block p n al) (blocks s).
Proof.
  intros M H. destruct o as [i|]; cbn [owned] in H.
  - destruct (nth_error L i) as [m|] eqn:Hn; [|contradiction]. destruct (nth_error (mv_enums c) i) as [l|] eqn:Hl; [|contradiction].
    pose proof (nth_some_lt _ _ _ Hl) as Lt. rewrite (mi_len _ _ _ M) in Lt. apply nth_error_Some in Lt.
    destruct (nth_error (ma_enums a) i) as [b|] eqn:Hb; [|contradiction].
    eapply (kregs_home E (in_def m)); [apply (ms_def _ _ _ (proj1 (HL i m Hn)))|exact (mi_enum _ _ _ M i m l b Hn Hl Hb)|exact H].
  - eapply bregs_home; [exact (mi_box _ _ _ M)|exact H].
Qed.

(** The other owners' places are spared by whatever keeps what is apart from [o]'s. *)
Lemma others_spared s s' c a o o' : minv s c a -> o <> o' -> keeps (rest (owned c o) s) s' -> spares (owned c o') s s'.
Proof.
  intros M N K p n al Hr Hb.
  assert (I : In (Block p n al) (blocks (rest (owned c o) s))).
  { apply rest_in. split; [exact Hb|]. intros r Hr'. cbn [b_base b_size]. eapply (mi_apart _ _ _ M); eassumption. }
  apply (K _ I).
Qed.

(** The others' places are apart from anything apart from the rest. *)
Lemma others_apart s c a o o' r p n : minv s c a -> o <> o' ->
  (forall b, In b (blocks (rest (owned c o) s)) -> clear_of (Some r) (Some (b_base b, b_size b))) ->
  In (p, n) (owned c o') -> clear_of (Some r) (Some (p, n)).
Proof.
  intros M N C H. destruct (owned_block s c a o' p n M H) as [al Hal]. apply (C (Block p n al)). apply rest_in.
  split; [exact Hal|]. intros r' Hr'. cbn [b_base b_size]. eapply (mi_apart _ _ _ M); eassumption.
Qed.

Lemma owned_enum i l' c o n l : nth_error L i = Some n -> nth_error (mv_enums c) i = Some l ->
  owned (set_enum i l' c) o = match o with
                              | Some j => if Nat.eqb j i then kregs E (in_def n) l' else owned c o
                              | None => owned c o
                              end.
Proof.
  intros Hn Hl. destruct o as [j|]; [|reflexivity]. cbn [owned set_enum mv_enums]. destruct (Nat.eqb_spec j i) as [->|N].
  - rewrite Hn, put_same by (eapply nth_some_lt, Hl). reflexivity.
  - rewrite put_other by auto. reflexivity.
Qed.

(** ** One call *)

Definition maccounts (l : list (st * st)) (s : st) (a : mastate) (s' : st) (a' : mastate) : Prop :=
  (Z.of_nat (List.length (blocks s')) + Z.of_nat (freed (ma_boxes a')) + Z.of_nat (mmade a) + Z.of_nat (made (ma_boxes a)) =
   Z.of_nat (List.length (blocks s)) + Z.of_nat (freed (ma_boxes a)) + Z.of_nat (mmade a') + Z.of_nat (made (ma_boxes a'))
     + grown (fun t => List.length (blocks t)) l)%Z /\
  ((forall n v k, In n L -> In (v, k) (e_variants (in_def n)) -> no_zst_drop (in_def n) k) ->
   forall d, (Z.of_nat (times d (destroyed (events s'))) + Z.of_nat (times d (mdestructors L a)) =
              Z.of_nat (times d (destroyed (events s))) + Z.of_nat (times d (mdestructors L a'))
              + grown (fun t => times d (destroyed (events t))) l)%Z).

Lemma mmade_put i b b' l : nth_error l i = Some b -> (list_sum (map kmade (put i b' l)) + kmade b = list_sum (map kmade l) + kmade b')%nat.
Proof.
  unfold list_sum. revert i. induction l as [|y l IH]; intros [|i] H; cbn [nth_error put map fold_right] in *; try discriminate.
  - injection H as ->. lia.
  - specialize (IH i H). lia.
Qed.

Lemma mdestructors_put d i n b b' q : forall (l : list kastate) (M : list inst), nth_error M i = Some n -> nth_error l i = Some b ->
  kdead b' = kdead b ++ q ->
  times d (flat_map (fun y => kdead_destructors (in_def (fst y)) (kdead (snd y))) (combine M (put i b' l))) =
  (times d (flat_map (fun y => kdead_destructors (in_def (fst y)) (kdead (snd y))) (combine M l))
   + times d (kdead_destructors (in_def n) q))%nat.
Proof.
  induction i as [|i IH]; intros [|y l] [|m M] Hn Hb Hq; cbn [nth_error] in *; try discriminate.
  - injection Hn as ->. injection Hb as ->. cbn [put combine flat_map fst snd]. rewrite Hq, kdead_destructors_app, !times_app. lia.
  - cbn [put combine flat_map fst snd]. rewrite !times_app, (IH l M Hn Hb Hq). lia.
Qed.

Lemma menum_step s c a i o n b : minv s c a -> nth_error L i = Some n -> nth_error (ma_enums a) i = Some b ->
  kcontract E (in_def n) (F i s) b o -> kastep (in_def n) (F i s) false o b <> None ->
  exists l m r b' l' s', nth_error (mv_enums c) i = Some l /\ menum E L i o c = Some (m, l) /\
    kastep (in_def n) (F i s) (kstarved E (in_def n) (in_x n) (in_impls n) o l s) o b = Some (r, b') /\
    kdoes o l m s r l' s' /\
    minv s' (set_enum i l' c) (MAState (put i b' (ma_enums a)) (ma_boxes a)) /\
    maccounts [(s, kcalled (in_impls n) o b s)] s a s' (MAState (put i b' (ma_enums a)) (ma_boxes a)).
Proof.
  intros M Hn Hb Hc Hk. destruct (HL i n Hn) as [Hs HI]. pose proof (ms_def _ _ _ Hs) as Hd.
  pose proof (nth_some_lt _ _ _ Hb) as Lt. rewrite <- (mi_len _ _ _ M) in Lt. apply nth_error_Some in Lt.
  destruct (nth_error (mv_enums c) i) as [l|] eqn:Hl; [|contradiction]. clear Lt.
  pose proof (mi_enum _ _ _ M i n l b Hn Hl Hb) as K.
  assert (Ow : owned c (Some i) = kregs E (in_def n) l) by (cbn [owned]; rewrite Hn, Hl; reflexivity).
  assert (K' : kinv E (in_def n) (rest (owned c (Some i)) s) s l b).
  { apply (kinv_protect E (in_def n) Hd none); [exact K|apply rest_keeps|]. intros r y Hr Hy. apply rest_in in Hy as [_ Hy].
    apply Hy. rewrite Ow. exact Hr. }
  destruct (kstep_sim E (in_def n) (in_x n) (in_impls n) (F i) keeps Hs HI (fun _ _ H => H) _ s l b o K' Hc Hk)
    as (fail & m & r & b' & l' & s' & H1 & H2 & H3 & H4 & [H5 H6] & ->).
  exists l, m, r, b', l', s'. split; [reflexivity|]. split; [unfold menum; rewrite Hn, Hl, H2; reflexivity|].
  split; [exact H1|]. split; [exact H3|].
  assert (Sp : forall o', Some i <> o' -> spares (owned c o') s s').
  { intros o' No. eapply others_spared; [exact M|exact No|]. exact (ki_base _ _ _ _ _ _ H4). }
  split.
  - constructor.
    + cbn [set_enum mv_enums ma_enums]. rewrite !put_length. apply (mi_len _ _ _ M).
    + intros j n' l2 b2 Hn' Hl2 Hb2. cbn [set_enum mv_enums ma_enums] in Hl2, Hb2.
      destruct (Nat.eq_dec j i) as [->|N].
      * rewrite put_same in Hl2 by (eapply nth_some_lt, Hl). rewrite put_same in Hb2 by (eapply nth_some_lt, Hb).
        injection Hl2 as <-. injection Hb2 as <-. rewrite Hn in Hn'. injection Hn' as <-.
        apply (kinv_protect E (in_def n) Hd (rest (owned c (Some i)) s)); [exact H4|intros y []|intros ? ? _ []].
      * rewrite put_other in Hl2 by auto. rewrite put_other in Hb2 by auto. destruct (HL j n' Hn') as [Hs' _].
        apply (kinv_spared E (in_def n') (ms_def _ _ _ Hs') none s); [exact (mi_enum _ _ _ M j n' l2 b2 Hn' Hl2 Hb2)|].
        assert (No : Some i <> Some j) by congruence. specialize (Sp (Some j) No). cbn [owned] in Sp. rewrite Hn', Hl2 in Sp. exact Sp.
    + cbn [set_enum mv_boxes ma_boxes]. apply (inv_spared E none s); [exact (mi_box _ _ _ M)|].
      apply (Sp None). discriminate.
    + intros o1 o2 r1 r2 N R1 R2. rewrite (owned_enum i l' c o1 n l Hn Hl) in R1. rewrite (owned_enum i l' c o2 n l Hn Hl) in R2.
      assert (New : forall o' r0 r', Some i <> o' -> In r0 (kregs E (in_def n) l') -> In r' (owned c o') -> clear_of (Some r0) (Some r')).
      { intros o' [p0 n0] [p q] No R0 R'. eapply others_apart; [exact M|exact No| |exact R'].
        apply (kregs_home E (in_def n) Hd _ s' l' b'); assumption. }
      assert (Cases : forall o', (o' = Some i /\ (match o' with Some j => if Nat.eqb j i then kregs E (in_def n) l' else owned c o' | None => owned c o' end) = kregs E (in_def n) l')
                       \/ (Some i <> o' /\ (match o' with Some j => if Nat.eqb j i then kregs E (in_def n) l' else owned c o' | None => owned c o' end) = owned c o')).
      { intros [j|]; [|right; split; [discriminate|reflexivity]]. destruct (Nat.eqb_spec j i) as [->|Nj]; [left; auto|right].
        split; [congruence|reflexivity]. }
      destruct (Cases o1) as [[E1 C1]|[E1 C1]], (Cases o2) as [[E2 C2]|[E2 C2]]; rewrite C1 in R1; rewrite C2 in R2.
      * congruence.
      * exact (New o2 r1 r2 E2 R1 R2).
      * apply clear_sym. exact (New o1 r2 r1 E1 R2 R1).
      * exact (mi_apart _ _ _ M o1 o2 r1 r2 N R1 R2).
  - destruct H6 as [B1 T1]. split.
    + cbn [ma_boxes ma_enums]. rewrite grown_cons. cbn [grown fold_right]. unfold mmade. cbn [ma_enums].
      pose proof (mmade_put i b b' _ Hb). lia.
    + intros Hz d. destruct (T1 (fun v k Hv => Hz n v k (nth_error_In _ _ Hn) Hv)) as (q & D1 & D2).
      rewrite grown_cons, D2, times_app. cbn [grown fold_right]. unfold mdestructors. cbn [ma_enums ma_boxes].
      rewrite !times_app, (mdestructors_put d i n b b' q _ _ Hn Hb D1). lia.
Qed.

Lemma mbox_step s c a o : minv s c a -> contract E (ma_boxes a) o -> astep false o (ma_boxes a) <> None ->
  exists m r b' l' s', step E o (mv_boxes c) = Some m /\ astep (starved E o s) o (ma_boxes a) = Some (r, b') /\
    does o (mv_boxes c) m s r l' s' /\ minv s' (set_boxes l' c) (MAState (ma_enums a) b') /\
    maccounts [] s a s' (MAState (ma_enums a) b').
Proof.
  intros M Hc Hk. pose proof (mi_box _ _ _ M) as K.
  assert (K' : inv E (rest (owned c None) s) s (mv_boxes c) (ma_boxes a)).
  { apply (inv_protect E none); [exact K|apply rest_keeps|]. intros r y Hr Hy. apply rest_in in Hy as [_ Hy]. apply Hy, Hr. }
  destruct (step_sim E HE _ s (mv_boxes c) (ma_boxes a) o K' Hc Hk) as (fail & m & r & b' & l' & s' & H1 & H2 & H3 & H4 & H5 & ->).
  exists m, r, b', l', s'. split; [exact H2|]. split; [exact H1|]. split; [exact H3|].
  assert (Sp : forall i, spares (owned c (Some i)) s s').
  { intros i. eapply (others_spared s s' c a None); [exact M|discriminate|]. exact (iv_base _ _ _ _ _ H4). }
  split.
  - constructor.
    + apply (mi_len _ _ _ M).
    + intros j n l2 b2 Hn Hl2 Hb2. cbn [set_boxes mv_enums ma_enums] in Hl2, Hb2. destruct (HL j n Hn) as [Hs' _].
      apply (kinv_spared E (in_def n) (ms_def _ _ _ Hs') none s); [exact (mi_enum _ _ _ M j n l2 b2 Hn Hl2 Hb2)|].
      specialize (Sp j). cbn [owned] in Sp. rewrite Hn, Hl2 in Sp. exact Sp.
    + apply (inv_protect E (rest (owned c None) s)); [exact H4|intros y []|intros ? ? _ []].
    + assert (New : forall i r0 r', In r0 (bregs E l') -> In r' (owned c (Some i)) -> clear_of (Some r0) (Some r')).
      { intros i [p0 n0] [p q] R0 R'. eapply (others_apart s c a None (Some i)); [exact M|discriminate| |exact R'].
        apply (bregs_home E _ s' l' b'); assumption. }
      intros [i|] [j|] r1 r2 N R1 R2.
      * eapply (mi_apart _ _ _ M); eassumption.
      * apply clear_sym. eapply New; eassumption.
      * eapply New; eassumption.
      * contradiction.
  - destruct H5 as [(q & D1 & D2) B1]. split.
    + cbn [ma_boxes grown fold_right]. unfold mmade. cbn [ma_enums]. lia.
    + intros _ d. unfold mdestructors. cbn [ma_enums ma_boxes grown fold_right]. rewrite D1, D2, dead_destructors_app, !times_app. lia.
Qed.

Lemma maccounts_app l1 l2 s a s1 a1 s2 a2 : maccounts l1 s a s1 a1 -> maccounts l2 s1 a1 s2 a2 -> maccounts (l1 ++ l2) s a s2 a2.
Proof.
  assert (G : forall f l m, grown f (l ++ m) = (grown f l + grown f m)%Z).
  { intros f l m. induction l as [|[u t] l IH]; [reflexivity|]. cbn [app]. rewrite !grown_cons, IH. lia. }
  intros [B1 D1] [B2 D2]. split; [rewrite G; lia|]. intros Hz d. specialize (D1 Hz d). specialize (D2 Hz d). rewrite G. lia.
Qed.

Lemma mrun_sim p : forall c s a, minv s c a -> mfollows E L F p a -> mpolite E L p c s ->
  exists c' s', let r := marun L F p (mtrace E L p c s) a in
    mrun E L p c s = (fst r, MFinished c' s') /\ minv s' c' (snd r) /\ maccounts (mprivate E L F p c s a) s a s' (snd r).
Proof.
  induction p as [|i o k IH|o k IH|f p IH]; intros c s a M Hf Hp; cbn [mfollows mpolite] in Hf, Hp.
  - exists c, s. cbn [marun mrun mtrace mprivate fst snd]. split; [reflexivity|]. split; [exact M|].
    split; [cbn; lia|]. intros _ d. cbn. lia.
  - destruct (nth_error L i) as [n|] eqn:Hn; [|contradiction]. destruct (nth_error (ma_enums a) i) as [b|] eqn:Hb; [|contradiction].
    destruct (Hf s) as [Hc Hf'].
    destruct (menum_step s c a i o n b M Hn Hb Hc) as (l & m & r & b' & l' & s' & H1 & H2 & H3 & H4 & H5 & H6).
    { specialize (Hf' false). destruct (kastep (in_def n) (F i s) false o b); [discriminate|contradiction]. }
    specialize (Hf' (kstarved E (in_def n) (in_x n) (in_impls n) o l s)). rewrite H3 in Hf'. rewrite H2 in Hp.
    assert (Hp' : mpolite E L (k r) (set_enum i l' c) s') by (destruct H4 as [A|(x & -> & A & ->)]; rewrite A in Hp; exact Hp).
    destruct (IH r _ s' _ H5 Hf' Hp') as (c2 & s2 & R1 & R2 & R3).
    exists c2, s2. cbn [marun mrun mtrace mprivate]. rewrite Hn, Hb, H2, H3.
    assert (G : match m s with
                | Ok (r, l') s' => mtrace E L (k r) (set_enum i l' c) s'
                | Panicked x s' => mtrace E L (k (KSawPanic x)) (set_enum i (kafter_panic o l) c) s'
                | UB _ => [] end = mtrace E L (k r) (set_enum i l' c) s')
      by (destruct H4 as [->|(x & -> & -> & ->)]; reflexivity).
    assert (G2 : match m s with
                | Ok (_, l') s' => mprivate E L F (k r) (set_enum i l' c) s' (MAState (put i b' (ma_enums a)) (ma_boxes a))
                | Panicked _ s' => mprivate E L F (k r) (set_enum i (kafter_panic o l) c) s' (MAState (put i b' (ma_enums a)) (ma_boxes a))
                | UB _ => [] end = mprivate E L F (k r) (set_enum i l' c) s' (MAState (put i b' (ma_enums a)) (ma_boxes a)))
      by (destruct H4 as [->|(x & -> & -> & ->)]; reflexivity).
    rewrite G, G2. destruct (marun L F (k r) _ _) as [q e]. cbn [fst snd] in *.
    split; [destruct H4 as [->|(x & -> & -> & ->)]; rewrite R1; reflexivity|]. split; [exact R2|].
    exact (maccounts_app [_] _ _ _ _ _ _ _ H6 R3).
  - destruct Hf as [Hc Hf'].
    destruct (mbox_step s c a o M Hc) as (m & r & b' & l' & s' & H2 & H3 & H4 & H5 & H6).
    { specialize (Hf' false). destruct (astep false o (ma_boxes a)); [discriminate|contradiction]. }
    specialize (Hf' (starved E o s)). rewrite H3 in Hf'. rewrite H2 in Hp.
    assert (Hp' : mpolite E L (k r) (set_boxes l' c) s') by (destruct H4 as [A|(x & -> & A & ->)]; rewrite A in Hp; exact Hp).
    destruct (IH r _ s' _ H5 Hf' Hp') as (c2 & s2 & R1 & R2 & R3).
    exists c2, s2. cbn [marun mrun mtrace mprivate]. rewrite H2, H3.
    assert (G : match m s with
                | Ok (r, l') s' => mtrace E L (k r) (set_boxes l' c) s'
                | Panicked x s' => mtrace E L (k (SawPanic x)) (set_boxes (after_panic o (mv_boxes c)) c) s'
                | UB _ => [] end = mtrace E L (k r) (set_boxes l' c) s')
      by (destruct H4 as [->|(x & -> & -> & ->)]; reflexivity).
    assert (G2 : match m s with
                | Ok (_, l') s' => mprivate E L F (k r) (set_boxes l' c) s' (MAState (ma_enums a) b')
                | Panicked _ s' => mprivate E L F (k r) (set_boxes (after_panic o (mv_boxes c)) c) s' (MAState (ma_enums a) b')
                | UB _ => [] end = mprivate E L F (k r) (set_boxes l' c) s' (MAState (ma_enums a) b'))
      by (destruct H4 as [->|(x & -> & -> & ->)]; reflexivity).
    rewrite G, G2. destruct (marun L F (k r) _ _) as [q e]. cbn [fst snd] in *.
    split; [destruct H4 as [->|(x & -> & -> & ->)]; rewrite R1; reflexivity|]. split; [exact R2|].
    exact (maccounts_app [] _ _ _ _ _ _ _ H6 R3).
  - destruct Hp as [Sp Hp]. cbn [marun mrun mtrace mprivate].
    assert (M' : minv (f s) c a).
    { constructor.
      - apply (mi_len _ _ _ M).
      - intros j n l2 b2 Hn Hl2 Hb2. destruct (HL j n Hn) as [Hs' _].
        apply (kinv_spared E (in_def n) (ms_def _ _ _ Hs') none s); [exact (mi_enum _ _ _ M j n l2 b2 Hn Hl2 Hb2)|].
        intros p0 n0 al Hr. apply Sp. apply (owned_regions c (Some j)). cbn [owned]. rewrite Hn, Hl2. exact Hr.
      - apply (inv_spared E none s); [exact (mi_box _ _ _ M)|]. intros p0 n0 al Hr. apply Sp, (owned_regions c None), Hr.
      - exact (mi_apart _ _ _ M). }
    destruct (IH c (f s) a M' Hf Hp) as (c2 & s2 & R1 & R2 & R3). exists c2, s2. split; [exact R1|]. split; [exact R2|].
    refine (maccounts_app [(s, f s)] _ _ _ (f s) a _ _ _ R3).
    split; [rewrite grown_cons; cbn [grown fold_right]; lia|]. intros _ d. rewrite grown_cons. cbn [grown fold_right]. lia.
Qed.

Lemma minv0 s : minv s (mv0 L) (ma0 L).
Proof.
  constructor.
  - cbn. rewrite !map_length. reflexivity.
  - intros i n l b Hn Hl Hb. cbn in Hl, Hb. rewrite nth_error_map, Hn in Hl, Hb. injection Hl as <-. injection Hb as <-.
    apply (kinv_protect E (in_def n) (ms_def _ _ _ (proj1 (HL i n Hn))) s); [apply kinv0|intros y []|intros ? ? _ []].
  - constructor; [reflexivity| | | |intros b []]; intros i; [intros x y H|intros j x y _ H|intros x b H]; destruct i; discriminate.
  - assert (G : forall o, owned (mv0 L) o = []).
    { intros [i|]; [|reflexivity]. cbn [owned mv0 mv_enums]. destruct (nth_error L i) as [n|] eqn:Hn; [|reflexivity].
      rewrite nth_error_map, Hn. reflexivity. }
    intros o1 o2 r1 r2 _ R1. rewrite G in R1. destruct R1.
Qed.

End Whole.

(** ** C59 Several enums, the manual API and other code in one program *)

(** What the program sees is what it sees with plain values in place of every box, with an
    out-of-memory panic exactly at the calls for whose block there is no memory. *)
Theorem C59_history : forall E L F p s, env_ok E ->
  (forall i n, nth_error L i = Some n -> macro_setup E (in_def n) (in_x n) /\ implements keeps (in_def n) (in_impls n) (F i)) ->
  mfollows E L F p (ma0 L) -> mpolite E L p (mv0 L) s ->
  exists c s', mrun E L p (mv0 L) s = (fst (marun L F p (mtrace E L p (mv0 L) s) (ma0 L)), MFinished c s').
Proof.
  intros E L F p s HE HL Hf Hp. destruct (mrun_sim E L F HE HL p _ s _ (minv0 E L F HL s) Hf Hp) as (c & s' & R & _). eauto.
Qed.

(** Blocks and destructors add up: the crate's share is that of the run on plain values, the rest is
    the doing of the user's impls and of other code. *)
Theorem C59_accounting : forall E L F p s, env_ok E ->
  (forall i n, nth_error L i = Some n -> macro_setup E (in_def n) (in_x n) /\ implements keeps (in_def n) (in_impls n) (F i)) ->
  mfollows E L F p (ma0 L) -> mpolite E L p (mv0 L) s ->
  exists c s', let (seen, a) := marun L F p (mtrace E L p (mv0 L) s) (ma0 L) in
    mrun E L p (mv0 L) s = (seen, MFinished c s') /\
    (Z.of_nat (List.length (blocks s')) + Z.of_nat (freed (ma_boxes a)) =
     Z.of_nat (List.length (blocks s)) + Z.of_nat (mmade a) + Z.of_nat (made (ma_boxes a))
       + grown (fun t => List.length (blocks t)) (mprivate E L F p (mv0 L) s (ma0 L)))%Z /\
    ((forall n v k, In n L -> In (v, k) (e_variants (in_def n)) -> no_zst_drop (in_def n) k) ->
     forall d, (Z.of_nat (times d (destroyed (events s'))) =
                Z.of_nat (times d (destroyed (events s))) + Z.of_nat (times d (mdestructors L a))
                + grown (fun t => times d (destroyed (events t))) (mprivate E L F p (mv0 L) s (ma0 L)))%Z).
Proof.
  intros E L F p s HE HL Hf Hp. destruct (mrun_sim E L F HE HL p _ s _ (minv0 E L F HL s) Hf Hp) as (c & s' & R & _ & B & D).
  exists c, s'. destruct (marun L F p _ (ma0 L)) as [seen a]. cbn [fst snd] in *. split; [exact R|].
  assert (Z1 : mmade (ma0 L) = 0%nat) by (unfold mmade, ma0, list_sum; cbn [ma_enums]; clear; induction L; cbn; auto).
  assert (Z2 : mdestructors L (ma0 L) = []).
  { unfold mdestructors, ma0. cbn [ma_enums ma_boxes]. cbn [a0 dead dead_destructors flat_map]. rewrite app_nil_r.
    clear. generalize L at 1 as L1. intros L1. revert L1. induction L as [|n L' IH]; intros [|m L1]; cbn; auto. }
  rewrite Z1 in B. rewrite Z2 in D. cbn [ma0 ma_boxes a0 freed made] in B. split; [lia|]. intros Hz d. specialize (D Hz d). cbn in D. lia.
Qed.

(** ** An example *)

(** Whether other code spares the boxes can be computed. *)
Definition sparesb (l : list (N * N)) (s s' : st) : bool :=
  forallb (fun r => forallb (fun b =>
      negb ((b_base b =? fst r) && (b_size b =? snd r)) ||
      (existsb (fun b' => (b_base b' =? b_base b) && (b_size b' =? b_size b) && (b_align b' =? b_align b)) (blocks s') &&
       forallb (fun k => match bytes s' (fst r + N.of_nat k), bytes s (fst r + N.of_nat k) with
                         | Byte x, Byte y => x =? y | Undef, Undef => true | _, _ => false end) (seq 0 (N.to_nat (snd r)))))
    (blocks s)) l.

Lemma sparesb_ok l s s' : sparesb l s s' = true -> spares l s s'.
Proof.
  unfold sparesb. rewrite forallb_forall. intros H p n al Hr Hb. specialize (H _ Hr). rewrite forallb_forall in H.
  specialize (H _ Hb). cbn [fst snd b_base b_size b_align] in H. rewrite !N.eqb_refl in H. cbn [negb andb orb] in H.
  apply andb_true_iff in H as [H1 H2]. split.
  - apply existsb_exists in H1 as ([p' n' al'] & Hb' & H1). cbn [b_base b_size b_align] in H1.
    apply andb_true_iff in H1 as [H1 H3]. apply andb_true_iff in H1 as [H1 H4]. apply N.eqb_eq in H1, H3, H4. subst. exact Hb'.
  - intros q Hq. rewrite forallb_forall in H2. specialize (H2 (N.to_nat (q - p))).
    replace (p + N.of_nat (N.to_nat (q - p))) with q in H2 by lia.
    assert (L : In (N.to_nat (q - p)) (seq 0 (N.to_nat n))) by (apply in_seq; lia). specialize (H2 L).
    destruct (bytes s' q), (bytes s q); try discriminate; try reflexivity. apply N.eqb_eq in H2. congruence.
Qed.

Fixpoint politeb (E : env) (L : list inst) (p : mprog) (c : mvars) (s : st) : bool :=
  match p with
  | MStop => true
  | MEnum i o k =>
      match menum E L i o c with
      | Some (m, l) =>
          match m s with
          | Ok (r, l') s' => politeb E L (k r) (set_enum i l' c) s'
          | Panicked x s' => politeb E L (k (KSawPanic x)) (set_enum i (kafter_panic o l) c) s'
          | UB _ => true
          end
      | None => true
      end
  | MBox o k =>
      match step E o (mv_boxes c) with
      | Some m =>
          match m s with
          | Ok (r, l') s' => politeb E L (k r) (set_boxes l' c) s'
          | Panicked x s' => politeb E L (k (SawPanic x)) (set_boxes (after_panic o (mv_boxes c)) c) s'
          | UB _ => true
          end
      | None => true
      end
  | MOther f p => sparesb (regions E L c) s (f s) && politeb E L p c (f s)
  end.

Lemma politeb_ok E L p : forall c s, politeb E L p c s = true -> mpolite E L p c s.
Proof.
  induction p as [|i o k IH|o k IH|f p IH]; intros c s; cbn [politeb mpolite].
  - auto.
  - destruct (menum E L i o c) as [[m l]|]; [|auto]. destruct (m s) as [[r l'] s'|x s'|u]; auto.
  - destruct (step E o (mv_boxes c)) as [m|]; [|auto]. destruct (m s) as [[r l'] s'|x s'|u]; auto.
  - intros H. apply andb_true_iff in H as [H1 H2]. split; [apply sparesb_ok, H1|auto].
Qed.

(** A text and a number in boxes of two enums, one made by hand besides them. Meanwhile other code takes
    a buffer of 40 bytes, writes to it and gives it back; cloning the text takes a buffer too. *)
Definition grab (s : st) : st :=
  match bump s 40 8 with
  | Some p => St (fun q => if (p <=? q) && (q <? p + 40) then Byte 9 else bytes s q) (Block p 40 8 :: blocks s) (events s)
  | None => s
  end.
Definition release (s : st) : st := St (bytes s) (filter (fun b => negb (b_size b =? 40)) (blocks s)) (events s).
(** Code that frees memory that is not its own. *)
Definition wreck (s : st) : st := St (bytes s) [] (events s).

Definition both (E : env) : list inst :=
  [Inst item item_x (busy_impls E); Inst copying copying_x (pure_impls item_meaning)].
Definition both_mean (E : env) (i : nat) : st -> meaning := match i with O => buffered E | _ => fun _ => item_meaning end.

Definition v_at : evalue := EV "At" [[Byte 7]].

Definition beside (f : st -> st) : mprog :=
  MEnum 0 (KNew v_text) (fun _ => MOther grab (MEnum 0 (KFrom 0) (fun r =>
  match r with KSawPanic _ => MStop | _ =>
  MBox (NewBox false U_u32 v_u32 3) (fun r => match r with SawPanic _ => MStop | _ =>
  MEnum 1 (KNew v_at) (fun _ => MEnum 1 (KFrom 0) (fun r => match r with KSawPanic _ => MStop | _ =>
  MEnum 0 (KClone 0) (fun r => match r with KSawPanic _ => MStop | _ =>
  MOther f (MEnum 1 (KCopy 0) (fun _ => MEnum 0 (KEq 0 1) (fun _ => MBox (IntoInner 0) (fun _ => MBox (DropValue 0) (fun _ =>
  MEnum 1 (KView 1) (fun _ => MEnum 0 (KIntoInner 0) (fun _ => MEnum 0 (KDropVal 0) (fun _ => MEnum 0 (KView 1) (fun _ => MStop))))))))) end) end)) end) end))).

Lemma beside_follows f : mfollows (bump_env dbg60) (both (bump_env dbg60)) (both_mean (bump_env dbg60)) (beside f) (ma0 (both (bump_env dbg60))).
Proof.
  assert (V : evalue_ok item v_text) by (pose proof item_values_ok as H; rewrite Forall_forall in H; apply H; cbn; tauto).
  destruct example_values_ok as (L1 & V1 & L2 & V2 & L3 & V3).
  assert (M : forall d, d <= 15 -> d <= max_discriminant (cfg (tgt (bump_env dbg60)))).
  { intros d H. vm_compute max_discriminant. exact H. }
  intros t1. split; [exact V|]. intros f1. cbn. intros t2. split; [kcontract_ok|]. intros []; cbn; [exact Logic.I|].
  split; [split; [exact L1|]; split; [exact V1|]; apply M; discriminate|]. intros []; cbn; [exact Logic.I|].
  split; [exists (KTuple [ty_u8]); split; [cbn; tauto|repeat constructor]|]. intros f3. cbn. split; [kcontract_ok|].
  intros []; cbn; [exact Logic.I|].
  intros t3. generalize (bump t3 5 1). intros [q|]; cbn; (split; [intros id loc v c Hv; injection Hv as _ _ <-; cbn; kcontract_ok|]);
    [|intros _; exact Logic.I].
  intros []; cbn; [exact Logic.I|].
  repeat (intros; split; [exact Logic.I|intros _; cbn]). intros; exact Logic.I.
Qed.

Definition mfinal (r : list mseen * mending) : option (nat * list (string * leafval)) :=
  match snd r with MFinished _ s => Some (List.length (blocks s), destroyed (events s)) | _ => None end.

Lemma both_ok : let E := bump_env dbg60 in forall i n, nth_error (both E) i = Some n ->
  macro_setup E (in_def n) (in_x n) /\ implements keeps (in_def n) (in_impls n) (both_mean E i).
Proof.
  intros E [|[|i]] n H; [| |destruct i; discriminate]; injection H as <-; cbn [in_def in_x in_impls both_mean].
  - split; [apply item_setup|]. apply busy_implements, bump_env_ok, example_targets_ok.
  - split; [apply copying_setup|]. eapply implements_weak; [|apply pure_implements; item_clones]. intros s s' H. apply H.
Qed.

(** Every value is seen as it was stored, by its own part of the program; when no part gets memory the
    first to need it notices. Had the other code freed what is not its own, the run would be undefined. *)
Example C59_example : let E := bump_env dbg60 in let L := both E in
  env_ok E /\
  (forall i n, nth_error L i = Some n ->
     macro_setup E (in_def n) (in_x n) /\ implements keeps (in_def n) (in_impls n) (both_mean E i)) /\
  mfollows E L (both_mean E) (beside release) (ma0 L) /\ mpolite E L (beside release) (mv0 L) st0 /\
  fst (mrun E L (beside release) (mv0 L) st0) =
    [MSawEnum KNothing; MSawEnum KNothing; MSawBox SawNothing; MSawEnum KNothing; MSawEnum KNothing; MSawEnum KNothing;
     MSawEnum KNothing; MSawEnum (KSawBool true); MSawBox (SawValue v_u32); MSawBox SawNothing; MSawEnum (KSawValues [v_at]);
     MSawEnum (KSawValues [v_text]); MSawEnum KNothing; MSawEnum (KSawValues [in_buffer 4165])] /\
  (let e := Env dbg60 no_memory reprC in
   fst (mrun e (both e) (beside release) (mv0 (both e)) st0) = [MSawEnum KNothing; MSawEnum (KSawPanic PanicNullAlloc)]) /\
  snd (mrun E L (beside wreck) (mv0 L) st0) = MUndefined UbOutOfBlock.
Proof.
  split; [apply bump_env_ok, example_targets_ok|]. split; [apply both_ok|]. split; [apply beside_follows|].
  split; [apply politeb_ok; vm_compute; reflexivity|]. vm_compute. auto.
Qed.

(** Five blocks are left: four of boxes, and the buffer of the clone. Of the two texts destroyed one was
    the program's, the other one made for a comparison. *)
Example C59_accounting_example : let E := bump_env dbg60 in let L := both E in
  env_ok E /\
  (forall i n, nth_error L i = Some n ->
     macro_setup E (in_def n) (in_x n) /\ implements keeps (in_def n) (in_impls n) (both_mean E i)) /\
  mfollows E L (both_mean E) (beside release) (ma0 L) /\ mpolite E L (beside release) (mv0 L) st0 /\
  (forall n v k, In n L -> In (v, k) (e_variants (in_def n)) -> no_zst_drop (in_def n) k) /\
  mfinal (mrun E L (beside release) (mv0 L) st0) = Some (5%nat, [("String"%string, a_string); ("String"%string, a_string)]) /\
  let a := snd (marun L (both_mean E) (beside release) (mtrace E L (beside release) (mv0 L) st0) (ma0 L)) in
  let own := mprivate E L (both_mean E) (beside release) (mv0 L) st0 (ma0 L) in
  mmade a = 3%nat /\ made (ma_boxes a) = 1%nat /\ freed (ma_boxes a) = 0%nat /\
  mdestructors L a = [("String"%string, a_string)] /\ grown (fun t => List.length (blocks t)) own = 1%Z /\
  grown (fun t => times ("String"%string, a_string) (destroyed (events t))) own = 1%Z.
Proof.
  split; [apply bump_env_ok, example_targets_ok|]. split; [apply both_ok|]. split; [apply beside_follows|].
  split; [apply politeb_ok; vm_compute; reflexivity|]. split; [|vm_compute; intuition].
  intros n v k [<-|[<-|[]]]; cbn [in_def]; [apply item_no_zst_drop|]. intros H. split; [reflexivity|]. cbn in H.
  repeat (destruct H as [H|H]; [injection H as <- <-; cbn; try exact Logic.I; discriminate|]). destruct H.
Qed.

(** ** Instances: each theorem applied to a concrete case that meets its hypotheses *)

Example C59_history_example : exists c s,
  mrun (bump_env dbg60) (both (bump_env dbg60)) (beside release) (mv0 (both (bump_env dbg60))) st0 =
  ([MSawEnum KNothing; MSawEnum KNothing; MSawBox SawNothing; MSawEnum KNothing; MSawEnum KNothing; MSawEnum KNothing;
    MSawEnum KNothing; MSawEnum (KSawBool true); MSawBox (SawValue v_u32); MSawBox SawNothing; MSawEnum (KSawValues [v_at]);
    MSawEnum (KSawValues [v_text]); MSawEnum KNothing; MSawEnum (KSawValues [in_buffer 4165])], MFinished c s).
Proof.
  destruct C59_example as (HE & HL & F & P & _).
  destruct (C59_history _ _ _ _ st0 HE HL F P) as (c & s & H). exists c, s. rewrite H. vm_compute fst. reflexivity.
Qed.

Print Assumptions C59_history.
Print Assumptions C59_accounting.
