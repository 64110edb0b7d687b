(** Code of the container calls between the moves of other threads (for property C64). *)
From Coq Require Import Arith ZArith NArith String Bool List Lia.
From Verif Require Import Words Config Spec ConfigFacts Pointer PointerFacts Fmt Mem SpecMem MemFacts Box BoxFacts
  Arms Macro SpecMacro MacroFacts Props_Pointer Props_Box Props_Macro Props_Layout Props_Clone Session SpecSession SessionFacts
  Threads SpecThreads ThreadsFacts Containers SpecContainers KThreads SpecKThreads KThreadsFacts.
From Verif Require Props_Containers.
Import ListNotations.
Local Open Scope N_scope.
Local Open Scope list_scope.

(** What the accesses of a call add up to. *)
Record keff : Type := KEff { k_out : bool; k_died : list (string * leafval); k_got : nat; k_usr : st * st }.

Definition keffect {X : Type} (a : kact X) (s s' : st) : X -> keff -> keff :=
  match a in kact X return X -> keff -> keff with
  | Plain _ a => fun r e => let f := effect a r (Eff (k_out e) (k_died e) (k_got e) 0) in KEff (e_out f) (e_died f) (e_got f) (k_usr e)
  | User _ _ => fun _ e => KEff (k_out e) (k_died e) (k_got e) (s, s')
  | Note evs => fun _ e => KEff (k_out e) (k_died e ++ destroyed evs) (k_got e) (k_usr e)
  end.

Lemma keffect_out {X} (a : kact X) s s' r e : k_out (keffect a s s' r e) = k_out e || kout_of_memory a r.
Proof. destruct a; cbn; [apply effect_out|rewrite orb_false_r; reflexivity..]. Qed.

Lemma keffect_usr {X} (a : kact X) s s' r e : k_usr (keffect a s s' r e) = knote_user a s s' (k_usr e).
Proof. destruct a; reflexivity. Qed.

Section Wp.
Variables (E : env) (def : edef) (x : expansion) (I : impls) (F : st -> meaning).
Hypothesis Hs : macro_setup E def x.
Hypothesis HI : implements keeps def I F.
Let HE : env_ok E := ms_env _ _ _ Hs.
Let Hd : def_ok def := ms_def _ _ _ Hs.
Let Hx : expand def = Some x := ms_expand _ _ _ Hs.
Let H8 := setup_u8 _ _ _ Hs.

(** Storing destroys nothing. *)
Definition nz : Prop := forall v k, In (v, k) (e_variants def) -> no_zst_drop def k.

Lemma nz_drop : nz -> e_drop def = false.
Proof.
  intros H. destruct (e_variants def) as [|[v k] l] eqn:Ev; [destruct (do_some _ Hd Ev)|].
  unfold nz in H. rewrite Ev in H. apply (H v k). left. reflexivity.
Qed.

(** [D]: blocks nobody changes any more. *)
Variable D : list block.

Definition rely (B : option block) (s s' : st) : Prop := (forall b, In b D -> same_on (Some b) s s') /\ same_on B s s'.

Lemma rely_trans B s1 s2 s3 : rely B s1 s2 -> rely B s2 s3 -> rely B s1 s3.
Proof. intros [A1 A2] [B1 B2]. split; [intros b Hb|]; eauto using same_on_trans. Qed.

Definition kpermitted {X : Type} (a : kact X) (e : keff) (B : option block) : Prop :=
  match a with
  | Plain _ a =>
      match touches a with
      | None => True
      | Some (TRead p n) => (exists b, In b D /\ inside p n (Some b)) \/ inside p n B
      | Some (TWrite p n) => inside p n B
      end /\ match a with AFree _ _ _ => False | _ => True end
  | User _ _ => fst (k_usr e) = snd (k_usr e)
  | Note _ => True
  end.

Fixpoint kwp {A} (m : kcode A) (e : keff) (B : option block) (s : st)
    (Q : keff -> A -> option block -> st -> Prop) (P : keff -> panic -> option block -> st -> Prop) : Prop :=
  match m with
  | KRet a => Q e a B s
  | KRaise q => P e q B s
  | KUndef _ => False
  | KStep X a k => kpermitted a e B /\ forall s', rely B s s' ->
      exists r s'' B', run_kact E a s' = Ok r s'' /\ guarantee B B' s' s'' /\ kwp (k r) (keffect a s' s'' r e) B' s'' Q P
  end.

(** Destructors are only counted where storing destroys nothing. *)
Definition esim (e e' : keff) : Prop :=
  k_out e = k_out e' /\ k_got e = k_got e' /\ k_usr e = k_usr e' /\ (nz -> k_died e = k_died e').

Lemma esim_refl e : esim e e.
Proof. repeat split. Qed.

Lemma esim_effect {X} (a : kact X) s s' r e e' : esim e e' -> esim (keffect a s s' r e) (keffect a s s' r e').
Proof.
  intros (H1 & H2 & H3 & H4). destruct a as [X a| |]; cbn [keffect].
  - destruct a; cbn [effect]; try destruct r; unfold esim; cbn; repeat split; try congruence; intros Z; rewrite ?H4 by exact Z; reflexivity.
  - unfold esim; cbn; auto.
  - unfold esim; cbn; repeat split; try congruence. intros Z. rewrite H4 by exact Z. reflexivity.
Qed.

Record closed {A} (Q : keff -> A -> option block -> st -> Prop) : Prop := {
  cl_sim : forall e e' a B s, Q e a B s -> esim e e' -> Q e' a B s;
  cl_rely : forall e a B s s', Q e a B s -> rely B s s' -> Q e a B s'
}.

Lemma kwp_sim {A} (m : kcode A) Q P : closed Q -> closed P -> forall e e' B s, kwp m e B s Q P -> esim e e' -> kwp m e' B s Q P.
Proof.
  intros HQ HP. induction m as [a|q|u|X a k IH]; intros e e' B s H S; cbn [kwp] in *.
  - eapply (cl_sim _ HQ); eassumption.
  - eapply (cl_sim _ HP); eassumption.
  - exact H.
  - destruct H as [H1 H2]. split.
    + destruct a; cbn [kpermitted] in *; [exact H1| |exact H1]. destruct S as (_ & _ & <- & _). exact H1.
    + intros s' R. destruct (H2 s' R) as (r & s'' & B' & G1 & G2 & G3). exists r, s'', B'. split; [exact G1|]. split; [exact G2|].
      eapply IH; [exact G3|]. apply esim_effect, S.
Qed.

Lemma kwp_rely {A} (m : kcode A) Q P e B s s' : closed Q -> closed P -> kwp m e B s Q P -> rely B s s' -> kwp m e B s' Q P.
Proof.
  intros HQ HP. destruct m as [a|q|u|X a k]; cbn [kwp]; [apply (cl_rely _ HQ)|apply (cl_rely _ HP)|tauto|].
  intros [H1 H2] R. split; [exact H1|]. intros s1 R1. apply H2. eapply rely_trans; eassumption.
Qed.

Lemma kwp_is_closed {A B} (f : A -> kcode B) Q P : closed Q -> closed P -> closed (fun e a B s => kwp (f a) e B s Q P).
Proof. intros HQ HP. constructor; intros; [eapply kwp_sim|eapply kwp_rely]; eassumption. Qed.

Lemma kwp_bind {A C} (m : kcode A) (f : A -> kcode C) Q P : forall e B s,
  kwp m e B s (fun e a B s => kwp (f a) e B s Q P) P -> kwp (kc_bind m f) e B s Q P.
Proof.
  induction m as [a|q|u|X a k IH]; intros e B s H; cbn [kwp kc_bind] in *; try exact H.
  destruct H as [H1 H2]. split; [exact H1|]. intros s' R. destruct (H2 s' R) as (r & s'' & B' & G1 & G2 & G3).
  exists r, s'', B'. eauto.
Qed.

Lemma kwp_mono {A} (m : kcode A) (Q Q' : keff -> A -> option block -> st -> Prop) (P P' : keff -> panic -> option block -> st -> Prop) :
  (forall e a B s, Q e a B s -> Q' e a B s) -> (forall e a B s, P e a B s -> P' e a B s) ->
  forall e B s, kwp m e B s Q P -> kwp m e B s Q' P'.
Proof.
  intros HQ HP. induction m as [a|q|u|X a k IH]; intros e B s H; cbn [kwp] in *; auto.
  destruct H as [H1 H2]. split; [exact H1|]. intros s' R. destruct (H2 s' R) as (r & s'' & B' & G1 & G2 & G3).
  exists r, s'', B'. eauto.
Qed.

Lemma kwp_note {A} evs (k : unit -> kcode A) e B s Q P : sized B ->
  (forall s', rely B s s' -> kwp (k tt) (KEff (k_out e) (k_died e ++ destroyed evs) (k_got e) (k_usr e)) B s' Q P) ->
  kwp (KStep unit (Note evs) k) e B s Q P.
Proof.
  intros Z K. cbn [kwp]. split; [exact Logic.I|]. intros s' [R1 R2]. exists tt. eexists. exists B. split; [reflexivity|].
  split; [apply guarantee_still; [exact Z|exact (same_on_live _ _ _ R2)]|]. apply K. split; [exact R1|]. destruct B; exact R2.
Qed.

Lemma kwp_finally {A} ev (m : kcode A) Q P : ~ nz -> closed Q -> closed P -> forall e B s, sized B ->
  kwp m e B s Q P -> kwp (kc_finally ev m) e B s Q P.
Proof.
  intros N HQ HP. assert (S : forall e evs, esim e (KEff (k_out e) (k_died e ++ destroyed evs) (k_got e) (k_usr e))).
  { intros e evs. repeat split. intros Z. destruct (N Z). }
  induction m as [a|q|u|X a k IH]; intros e B s Z H; cbn [kc_finally].
  - apply kwp_note; [exact Z|]. intros s' R. cbn [kwp] in *. eapply (cl_sim _ HQ); [|apply S]. eapply (cl_rely _ HQ); eassumption.
  - apply kwp_note; [exact Z|]. intros s' R. cbn [kwp] in *. eapply (cl_sim _ HP); [|apply S]. eapply (cl_rely _ HP); eassumption.
  - exact H.
  - cbn [kwp] in *. destruct H as [H1 H2]. split; [exact H1|]. intros s' R. destruct (H2 s' R) as (r & s'' & B' & G1 & G2 & G3).
    exists r, s'', B'. split; [exact G1|]. split; [exact G2|]. apply IH; [apply G2|exact G3].
Qed.

Lemma kwp_exit {A} b ev (m : kcode A) e B s Q P : (b = true -> e_drop def = true) -> closed Q -> closed P -> sized B ->
  kwp m e B s Q P -> kwp (kc_exit b ev m) e B s Q P.
Proof.
  intros Hb HQ HP Z H. destruct b; [|exact H]. cbn [kc_exit]. apply kwp_finally; try assumption.
  intros N. apply nz_drop in N. specialize (Hb eq_refl). congruence.
Qed.

Lemma kwp_user {A} (m : M A) r e B s (Q : keff -> A -> option block -> st -> Prop) (P : keff -> panic -> option block -> st -> Prop) : sized B -> fst (k_usr e) = snd (k_usr e) ->
  (forall s', computes keeps s' m (r s')) ->
  (forall s' s'', keeps s' s'' ->
     match r s' with
     | Done a => Q (KEff (k_out e) (k_died e) (k_got e) (s', s'')) a B s''
     | Panics q => P (KEff (k_out e) (k_died e) (k_got e) (s', s'')) q B s''
     end) ->
  kwp (kc_user m) e B s Q P.
Proof.
  intros Z U C K. unfold kc_user. cbn [kwp]. split; [exact U|]. intros s' [R1 R2]. destruct (C s') as (s'' & C1 & C2).
  specialize (K s' s'' C2).
  assert (G : guarantee B B s' s'').
  { split; [intros c Hc _; exact (C2 c Hc)|]. split; [exact Z|]. split; [|auto]. apply same_on_live in R2.
    destruct B as [b|]; [apply (C2 b R2)|exact Logic.I]. }
  cbn [run_kact]. rewrite C1. destruct (r s') as [a|q]; cbn [ends]; do 2 eexists; exists B; (split; [reflexivity|]);
    (split; [exact G|]); cbn [kwp keffect]; exact K.
Qed.

(** ** Boxes *)

Definition kboxed (s : st) (w : tagged_ptr) (v : evalue) : Prop :=
  exists i k, nth_error (e_variants def) i = Some (ev_variant v, k) /\ tb_discriminant E w = N.of_nat i /\
    match storage k with Some U => home E s U (tb_as_ptr E w) (ev_fields v) | None => ev_fields v = [] end.

Definition kclaim (w : tagged_ptr) (v : evalue) : option block :=
  match assoc (ev_variant v) (e_variants def) with
  | Some k => match storage k with Some U => claim_at U (tb_as_ptr E w) | None => None end
  | None => None
  end.

Definition within (B b : option block) : Prop := match b with None => True | Some b => In b D \/ B = Some b end.

Lemma kclaim_nth w v i k : nth_error (e_variants def) i = Some (ev_variant v, k) ->
  kclaim w v = match storage k with Some U => claim_at U (tb_as_ptr E w) | None => None end.
Proof. intros H. unfold kclaim. rewrite (assoc_in _ _ _ (do_names _ Hd) (nth_error_In _ _ H)). reflexivity. Qed.

Lemma kboxed_same s s' w v : kboxed s w v -> same_on (kclaim w v) s s' -> kboxed s' w v.
Proof.
  intros (i & k & H1 & H2 & H3) S. exists i, k. split; [exact H1|]. split; [exact H2|]. rewrite (kclaim_nth _ _ _ _ H1) in S.
  destruct (storage k); [|exact H3]. eapply home_same; eassumption.
Qed.

Lemma within_same B b s s' : within B b -> rely B s s' -> same_on b s s'.
Proof. destruct b as [b|]; [|intros; exact Logic.I]. intros [H| ->] [R1 R2]; auto. Qed.

Lemma kboxed_rely B s s' w v : kboxed s w v -> within B (kclaim w v) -> rely B s s' -> kboxed s' w v.
Proof. intros H W R. eapply kboxed_same; [exact H|]. eapply within_same; eassumption. Qed.

(** ** Reading *)

Lemma kwp_read {A} U p vs (k : hval -> kcode A) e s Q P :
  (forall s', rely None s s' -> read_at U p s' = Ok vs s') ->
  (h_size U <> 0 -> exists b, In b D /\ inside p (h_size U) (Some b)) ->
  (forall s', rely None s s' -> kwp (k vs) e None s' Q P) ->
  kwp (KStep hval (Plain hval (ARead U p)) k) e None s Q P.
Proof.
  intros R1 R2 K. cbn [kwp]. split.
  - cbn [kpermitted touches]. split; [|exact Logic.I]. destruct (N.eqb_spec (h_size U) 0); [exact Logic.I|]. left. auto.
  - intros s' R. exists vs, s', None. cbn [run_kact run_act]. split; [apply R1, R|]. split; [apply guarantee_refl; exact Logic.I|].
    cbn [keffect effect e_out e_died e_got]. destruct e. apply K, R.
Qed.

Lemma pick_nth (g : string -> vkind -> option read_arm) arms d :
  (forall v k a, g v k = Some a -> ra_tag a = tag_of v /\ ra_variant a = v) ->
  gen_all g (e_variants def) = Some arms -> d < 256 -> pick x d arms = Some (nth_error arms (N.to_nat d)).
Proof.
  intros Hg Ha Hd256. destruct (gen_all_nth _ _ _ Ha) as [Hlen Hnth].
  assert (Gen : forall j l, (forall i a, nth_error l i = Some a ->
                  eval_tag x (ra_tag a) = Some (N.of_nat (j + i) mod 256)) -> N.of_nat j <= d ->
     pick x d l = Some (nth_error l (N.to_nat d - j))).
  { intros j l. revert j. induction l as [|a l IH]; intros j Hl Hj.
    - cbn [pick]. destruct (N.to_nat d - j)%nat; reflexivity.
    - cbn [pick]. rewrite (Hl 0%nat a eq_refl). rewrite Nat.add_0_r. rewrite N.mod_small by lia.
      destruct (N.eqb_spec d (N.of_nat j)) as [->|Hne].
      + rewrite Nnat.Nat2N.id, Nat.sub_diag. reflexivity.
      + replace (N.to_nat d - j)%nat with (S (N.to_nat d - S j)) by lia. cbn [nth_error]. apply IH; [|lia].
        intros i b Hb. rewrite (Hl (S i) b Hb). do 2 f_equal. lia. }
  rewrite (Gen 0%nat arms); [rewrite Nat.sub_0_r; reflexivity| |lia].
  intros i a Hi. specialize (Hnth i). destruct (nth_error (e_variants def) i) as [[v k]|] eqn:Ev.
  - destruct Hnth as (b & Hb & Hb'). assert (b = a) by congruence. subst b.
    destruct (Hg _ _ _ Hb) as [-> _]. apply (eval_tag_nth def x Hd Hx i v k Ev).
  - congruence.
Qed.

(** The arm for the box's tag. *)
Lemma pick_box (g : string -> vkind -> option read_arm) arms w i v k :
  (forall v k a, g v k = Some a -> ra_tag a = tag_of v /\ ra_variant a = v) ->
  gen_all g (e_variants def) = Some arms -> nth_error (e_variants def) i = Some (v, k) -> tb_discriminant E w = N.of_nat i ->
  exists a, g v k = Some a /\ pick x (tb_discriminant E w) arms = Some (Some a) /\ ra_variant a = v.
Proof.
  intros Hg Ha Hi Ht. rewrite (pick_nth g arms _ Hg Ha) by (apply disc_u8, H8).
  destruct (gen_all_nth _ _ _ Ha) as [_ Hn]. specialize (Hn (N.to_nat (tb_discriminant E w))).
  rewrite Ht, Nnat.Nat2N.id, Hi in Hn. destruct Hn as (a & Ga & Hn). exists a. rewrite Ht, Nnat.Nat2N.id, Hn.
  split; [exact Ga|]. split; [reflexivity|]. apply (Hg _ _ _ Ga).
Qed.

Definition builds (k : vkind) (v : string) (b : build) (st : option hty) : Prop :=
  reads E b = st /\ forall got, List.length got = List.length (kind_types k) -> st <> None -> assemble x v b got = Some (EV v got).

Lemma builds_struct v ms : In (v, KStruct ms) (e_variants def) -> forall got, List.length got = List.length (map snd ms) ->
  assemble x v (BStruct ms (map fst ms) (map fst ms)) got = Some (EV v got).
Proof.
  intros Hin got L. unfold assemble. rewrite map_length in L.
  assert (K : lookup_all (map fst ms) (combine (map fst ms) got) = Some got)
    by (apply lookup_all_same; [exact (do_members _ Hd v ms Hin)|rewrite map_length; exact L]).
  rewrite K, K, (enum_members_struct def x Hd Hx v ms Hin), K. reflexivity.
Qed.

Lemma ref_builds v k a : gen_ref v k = Some a -> In (v, k) (e_variants def) -> builds k v (ra_build a) (storage k).
Proof.
  intros Ga Hin. destruct k as [|[|t [|t2 tys]]|ms]; cbn [gen_ref kind_types] in *;
    try (injection Ga as <-; cbn [ra_build]; split; [reflexivity|]; intros got L N; try (destruct N; reflexivity); try reflexivity).
  - destruct (expand_tuple _) as [idx|] eqn:Ex; [|discriminate Ga]. injection Ga as <-. cbn [ra_build].
    apply expand_tuple_seq in Ex. split; [reflexivity|]. intros got L _. unfold assemble. cbn [project_seq].
    rewrite Ex. repeat (rewrite project_all by exact L). reflexivity.
  - apply builds_struct; assumption.
Qed.

Lemma inner_builds v k a : gen_inner v k = Some a -> In (v, k) (e_variants def) -> builds k v (ra_build a) (storage k).
Proof.
  intros Ga Hin. destruct k as [|[|t [|t2 tys]]|ms]; cbn [gen_inner kind_types] in *;
    try (injection Ga as <-; cbn [ra_build]; split; [reflexivity|]; intros got L N; try (destruct N; reflexivity); try reflexivity).
  - destruct (expand_tuple _) as [idx|] eqn:Ex; [|discriminate Ga]. injection Ga as <-. cbn [ra_build].
    apply expand_tuple_seq in Ex. split; [reflexivity|]. intros got L _. unfold assemble. cbn [project_seq].
    rewrite Ex. repeat (rewrite project_all by exact L). reflexivity.
  - apply builds_struct; assumption.
Qed.

Lemma from_builds v k a : gen_from v k = Some a -> In (v, k) (e_variants def) -> builds k v (ra_build a) (from_storage E k).
Proof.
  intros Ga Hin. destruct k as [|[|t [|t2 tys]]|ms]; cbn [gen_from kind_types] in *;
    try (injection Ga as <-; cbn [ra_build]; split; [reflexivity|]; intros got L N; try (destruct N; reflexivity); try reflexivity).
  - destruct (expand_tuple _) as [idx|] eqn:Ex; [|discriminate Ga]. injection Ga as <-. cbn [ra_build].
    apply expand_tuple_seq in Ex. split; [reflexivity|]. intros got L _. unfold assemble.
    rewrite Ex. repeat (rewrite project_all by exact L). reflexivity.
  - apply builds_struct; assumption.
Qed.

(** Reading the value of a box, at the type it was stored at or one that reads the same. *)
Lemma kwp_build i k v b st' w e s (Q : keff -> evalue -> option block -> st -> Prop) (P : keff -> panic -> option block -> st -> Prop) : nth_error (e_variants def) i = Some (ev_variant v, k) -> evalue_ok def v ->
  tb_discriminant E w = N.of_nat i -> kboxed s w v -> within None (kclaim w v) ->
  builds k (ev_variant v) b st' ->
  match storage k, st' with
  | Some U, Some U' => readable_as U U'
  | None, None => True
  | _, _ => False
  end ->
  (forall s', (s' = s \/ rely None s s') -> Q e v None s') ->
  kwp (kc_build E x (tb_as_ptr E w) (ev_variant v) b) e None s Q P.
Proof.
  intros Hi (k0 & Hin0 & Ht) Hw (j & k' & Hj & Hjw & Bx) W [B1 B2] St K.
  assert (k' = k).
  { pose proof (assoc_in _ _ _ (do_names _ Hd) (nth_error_In _ _ Hi)). pose proof (assoc_in _ _ _ (do_names _ Hd) (nth_error_In _ _ Hj)). congruence. }
  assert (k0 = k).
  { pose proof (assoc_in _ _ _ (do_names _ Hd) (nth_error_In _ _ Hi)). pose proof (assoc_in _ _ _ (do_names _ Hd) Hin0). congruence. }
  subst k' k0. unfold kc_build. rewrite B1. rewrite (kclaim_nth _ _ _ _ Hi) in W.
  destruct v as [n vs]. cbn [ev_variant ev_fields] in *.
  destruct (storage k) as [U|], st' as [U'|]; try contradiction.
  - assert (Same : forall s', rely None s s' -> same_on (claim_at U (tb_as_ptr E w)) s s') by (intros s' R; eapply within_same; eassumption).
    apply (kwp_read U' (tb_as_ptr E w) vs).
    + intros s' R. apply (read_at_readable U U' _ _ _ St). exact (hm_read _ _ _ _ _ (home_same E _ _ _ _ _ Bx (Same s' R))).
    + intros Z. destruct St as (_ & _ & L). unfold claim_at in W. destruct (N.eqb_spec (h_size U) 0) as [Z'|Z']; [lia|].
      destruct W as [W|W]; [|discriminate W]. eexists. split; [exact W|]. cbn. lia.
    + intros s' R. rewrite B2; [cbn [kwp]; apply K; right; exact R| |discriminate]. symmetry. eapply Forall2_len, Ht.
  - subst vs. cbn [kwp]. apply K. left. reflexivity.
Qed.

Lemma readable_refl U : readable_as U U.
Proof. repeat split. apply N.le_refl. Qed.

Lemma kwp_look {A} w v (cb : evalue -> kcode A) e s Q P : kboxed s w v -> evalue_ok def v -> within None (kclaim w v) ->
  closed Q -> closed P ->
  (forall s', (s' = s \/ rely None s s') -> kwp (cb v) e None s' Q P) ->
  kwp (kc_look E x w cb) e None s Q P.
Proof.
  intros B V W HQ HP K. pose proof B as (i & k & Hi & Ht & Hh).
  destruct (pick_box gen_ref (x_ref x) w i _ k gen_ref_tag (xp_ref _ _ (expand_inv _ _ Hx)) Hi Ht) as (a & Ga & Pa & Va).
  unfold kc_look, kc_match. rewrite Pa, Va. apply kwp_bind.
  eapply (kwp_build i k v (ra_build a) (storage k)); try eassumption.
  - apply ref_builds; [exact Ga|]. eapply nth_error_In, Hi.
  - destruct (storage k); [apply readable_refl|exact Logic.I].
  - intros s' R. apply kwp_exit; try assumption; [|exact Logic.I|apply K, R].
    rewrite (xp_drop _ _ (expand_inv _ _ Hx)). intros H. apply andb_true_iff in H. apply H.
Qed.

Lemma kwp_into_inner w v e s (Q : keff -> evalue -> option block -> st -> Prop) (P : keff -> panic -> option block -> st -> Prop) : kboxed s w v -> evalue_ok def v -> within None (kclaim w v) ->
  (forall s', (s' = s \/ rely None s s') -> Q e v None s') ->
  kwp (kc_into_inner E x w) e None s Q P.
Proof.
  intros B V W K. pose proof B as (i & k & Hi & Ht & Hh).
  destruct (pick_box gen_inner (x_inner x) w i _ k gen_inner_tag (xp_inner _ _ (expand_inv _ _ Hx)) Hi Ht) as (a & Ga & Pa & Va).
  unfold kc_into_inner, kc_match. rewrite Pa, Va. change (tb_as_mut_ptr E w) with (tb_as_ptr E w).
  eapply (kwp_build i k v (ra_build a) (storage k)); try eassumption.
  - apply inner_builds; [exact Ga|]. eapply nth_error_In, Hi.
  - destruct (storage k); [apply readable_refl|exact Logic.I].
Qed.

Lemma kwp_from_tagged w v e s (Q : keff -> evalue -> option block -> st -> Prop) (P : keff -> panic -> option block -> st -> Prop) : kboxed s w v -> evalue_ok def v -> within None (kclaim w v) ->
  (forall k, In (ev_variant v, k) (e_variants def) -> several_fields k -> readable_as (reprC (kind_types k)) (tuple_layout E (kind_types k))) ->
  (forall s', (s' = s \/ rely None s s') -> Q e v None s') ->
  kwp (kc_from_tagged E x w) e None s Q P.
Proof.
  intros B V W Lay K. pose proof B as (i & k & Hi & Ht & Hh).
  destruct (pick_box gen_from (x_from x) w i _ k gen_from_tag (xp_from _ _ (expand_inv _ _ Hx)) Hi Ht) as (a & Ga & Pa & Va).
  unfold kc_from_tagged, kc_match. rewrite Pa, Va. change (tb_as_mut_ptr E w) with (tb_as_ptr E w).
  eapply (kwp_build i k v (ra_build a) (from_storage E k)); try eassumption.
  - apply from_builds; [exact Ga|]. eapply nth_error_In, Hi.
  - specialize (Lay k (nth_error_In _ _ Hi)). destruct k as [|[|t [|t2 tys]]|ms]; cbn [storage from_storage]; try exact Logic.I;
      try apply readable_refl. apply Lay. cbn. lia.
Qed.

(** ** Storing *)

Lemma kwp_drop {A} U v (k : unit -> kcode A) e B s Q P : sized B ->
  (forall s', rely B s s' -> kwp (k tt) (KEff (k_out e) (k_died e ++ destructors U v) (k_got e) (k_usr e)) B s' Q P) ->
  kwp (KStep unit (Plain unit (ADrop U v)) k) e B s Q P.
Proof.
  intros Z K. cbn [kwp]. split; [split; exact Logic.I|]. intros s' [R1 R2]. exists tt. eexists. exists B. split; [reflexivity|].
  split; [apply guarantee_still; [exact Z|exact (same_on_live _ _ _ R2)]|]. apply K. split; [exact R1|]. destruct B; exact R2.
Qed.

Lemma kwp_new U vs d e s (Q : keff -> tagged_ptr -> option block -> st -> Prop) (P : keff -> panic -> option block -> st -> Prop) : layout_legal U -> hval_ok U vs -> d <= max_discriminant (cfg (tgt E)) ->
  (h_size U = 0 -> forall s' w, tb_discriminant E w = d -> home E s' U (tb_as_ptr E w) vs ->
     Q (KEff (k_out e) (k_died e ++ destructors U vs) (k_got e) (k_usr e)) w None s') ->
  (h_size U <> 0 -> forall s', P (KEff true (k_died e ++ destructors U vs) (k_got e) (k_usr e)) PanicNullAlloc None s') ->
  (h_size U <> 0 -> forall s' w, tb_discriminant E w = d -> home E s' U (tb_as_ptr E w) vs ->
     Q (KEff (k_out e) (k_died e) (S (k_got e)) (k_usr e)) w (claim_at U (tb_as_ptr E w)) s') ->
  kwp (lift (c_new E U vs d CRet)) e None s Q P.
Proof.
  intros L V Dd K1 K2 K3. unfold c_new. destruct (N.eqb_spec (h_size U) 0) as [Z|Z]; cbn [lift].
  - apply kwp_drop; [exact Logic.I|]. intros s' _. cbn [kwp]. destruct (dangling_done E HE U vs d L V Dd Z) as [D1 D2].
    apply K1; [exact Z|exact D2|]. unfold tb_as_ptr. rewrite D1. apply zst_home; assumption.
  - cbn [kwp]. split; [split; exact Logic.I|]. intros s' _. cbn [run_kact run_act]. unfold alloc.
    destruct (alloc_fn E s' (h_size U) (h_align U)) as [p|] eqn:Al.
    + assert (Z' : 0 < h_size U) by lia. destruct (eo_alloc E HE _ _ _ _ Z' (ll_align U L) Al) as (A1 & A2 & A3 & A4).
      assert (C : claim_at U p = Some (Block p (h_size U) (h_align U))) by (unfold claim_at; destruct (N.eqb_spec (h_size U) 0); [contradiction|reflexivity]).
      exists (Some p). eexists. exists (claim_at U p). split; [reflexivity|]. split.
      * split; [|split; [apply claim_at_sized|split; [rewrite C; left; reflexivity|]]].
        -- intros c Hc _. split; [right; exact Hc|]. intros q Hq. cbn [bytes]. unfold undef_range. specialize (A4 c Hc).
           destruct (N.leb_spec p q), (N.ltb_spec q (p + h_size U)); cbn; try reflexivity. lia.
        -- right. right. intros c Hc. rewrite C. cbn. unfold apart_b. cbn. exact (A4 c Hc).
      * assert (Rm : room E (St (undef_range (bytes s') p (h_size U)) (Block p (h_size U) (h_align U) :: blocks s') (events s' ++ [EvAlloc p (h_size U) (h_align U)])) U p).
        { constructor; try assumption; [intros _; left; reflexivity| |lia]. exact (eo_fits E HE _ _ _ _ Z' (ll_align U L) Al). }
        cbn [lift kwp]. split.
        { cbn [kpermitted touches]. split; [|exact Logic.I]. destruct (N.eqb_spec (h_size U) 0); [exact Logic.I|]. apply inside_claim, Z. }
        intros s1 [_ R1]. pose proof (room_same E _ _ _ _ Rm R1) as H'. exists tt. eexists. exists (claim_at U p).
        cbn [run_kact run_act]. rewrite write_at_eq by exact (room_access E _ _ _ H'). split; [reflexivity|]. split.
        -- split; [|split; [apply claim_at_sized|split; [|auto]]].
           ++ intros c Cc Ap. split; [exact Cc|]. intros q Q'. cbn [bytes]. apply write_mem_other; [exact V|apply H'|].
              rewrite C in Ap. cbn in Ap. unfold apart_b in Ap. cbn in Ap. lia.
           ++ apply room_live in H'. rewrite C in *. exact H'.
        -- pose proof (room_access E _ _ _ H') as Ca. destruct H' as [G1 G2 G3 G4 G5 G6].
           destruct (from_raw_done E HE p d G5 G6 Dd) as (w & W1 & W2 & W3). rewrite W1. cbn [lift kwp keffect effect e_out e_died e_got k_out k_died k_got k_usr].
           specialize (K3 Z). change (tp_as_ptr (tgt E) w) with (tb_as_ptr E w) in W2. rewrite <- W2. apply K3; [exact W3|]. rewrite W2.
           constructor; try assumption. rewrite read_at_eq by exact Ca. cbn [bytes]. rewrite read_write_mem by assumption. reflexivity.
    + exists None, s', None. split; [reflexivity|]. split; [apply guarantee_refl; exact Logic.I|]. cbn [lift].
      apply kwp_drop; [exact Logic.I|]. intros s1 _. cbn [kwp keffect effect k_out k_died k_got k_usr e_out e_died e_got]. apply K2, Z.
Qed.

Lemma into_plan_eq i v k vs : nth_error (e_variants def) i = Some (v, k) -> List.length vs = List.length (kind_types k) ->
  into_plan x (EV v vs) = Some (option_map (fun U => (U, vs)) (storage k), N.of_nat i mod 256).
Proof.
  intros Hi Hl. unfold into_plan. cbn [ev_variant].
  destruct (find_into_nth def x Hd Hx i v k Hi) as (a & Ga & Hf). rewrite Hf.
  pose proof (eval_tag_nth def x Hd Hx i v k Hi) as Ht.
  destruct k as [|[|t [|t2 tys]]|ms]; cbn [gen_into kind_types] in *;
    try (injection Ga as <-; cbn [ia_pat ia_tag ia_body bind_pattern ev_fields ev_variant]).
  - rewrite Ht. reflexivity.
  - destruct vs; [|discriminate Hl]. cbn [List.length Nat.eqb combine]. rewrite Ht. reflexivity.
  - destruct vs as [|y [|]]; try discriminate Hl. cbn [List.length Nat.eqb combine]. rewrite Ht. reflexivity.
  - destruct (find_arm _ expand_tuple_arm_arms) as [[p q]|] eqn:Fa; [|discriminate Ga]. injection Ga as <-.
    cbn [ia_pat ia_tag ia_body bind_pattern ev_fields ev_variant].
    destruct (find_arm_names _ _ _ Fa) as (L & <- & Nd). rewrite L, Hl, Nat.eqb_refl, Ht.
    rewrite lookup_all_same by (try assumption; lia). reflexivity.
  - rewrite (enum_members_struct def x Hd Hx v ms) by (eapply nth_error_In; eauto).
    pose proof (do_members _ Hd v ms (nth_error_In _ _ Hi)) as Nd. rewrite map_length in Hl.
    assert (L : lookup_all (map fst ms) (combine (map fst ms) vs) = Some vs)
      by (apply lookup_all_same; [assumption|rewrite map_length; exact Hl]).
    rewrite L. cbn [option_map]. rewrite Ht, L, L. reflexivity.
Qed.

Lemma kwp_into v e s (Q : keff -> tagged_ptr -> option block -> st -> Prop) (P : keff -> panic -> option block -> st -> Prop) : evalue_fits E def v -> closed Q -> closed P ->
  (needs_block def v = false -> forall s' w, kboxed s' w v -> kclaim w v = None -> Q e w None s') ->
  (needs_block def v = true -> forall s', P (KEff true (k_died e ++ value_destructors def v) (k_got e) (k_usr e)) PanicNullAlloc None s') ->
  (needs_block def v = true -> forall s' w, kboxed s' w v -> Q (KEff (k_out e) (k_died e) (S (k_got e)) (k_usr e)) w (kclaim w v) s') ->
  kwp (kc_into E x v) e None s Q P.
Proof.
  intros [(k & Hin & Ht) Hfit] HQ HP K1 K2 K3. destruct v as [n vs]. cbn [ev_variant ev_fields] in *.
  destruct (In_nth_error _ _ Hin) as [i Hi]. destruct (fits_nth E def Hd H8 HE i n k Hi Hfit) as [Hm Hmod].
  pose proof (assoc_in _ _ _ (do_names _ Hd) Hin) as As. pose proof (kind_types_wf _ _ _ Hd Hin) as Hw.
  assert (Nb : needs_block def (EV n vs) = match storage k with Some U => negb (h_size U =? 0) | None => false end)
    by (unfold needs_block; cbn [ev_variant]; rewrite As; reflexivity).
  assert (Vd : value_destructors def (EV n vs) = map (fun y => (ty_name (fst y), snd y)) (filter (fun y => ty_drop (fst y)) (combine (kind_types k) vs)))
    by (unfold value_destructors; cbn [ev_variant ev_fields]; rewrite As; reflexivity).
  rewrite Nb, Vd in *. unfold kc_into. rewrite (into_plan_eq i n k vs Hi) by (symmetry; eapply Forall2_len, Ht). rewrite Hmod.
  apply kwp_exit; try assumption; [rewrite (xp_drop _ _ (expand_inv _ _ Hx)); auto|exact Logic.I|].
  assert (Cl : forall w, kclaim w (EV n vs) = match storage k with Some U => claim_at U (tb_as_ptr E w) | None => None end)
    by (intros w; eapply kclaim_nth; exact Hi).
  destruct (storage k) as [U|] eqn:Es; cbn [option_map].
  - destruct (storage_legal k U Hw Es) as [Hl Hty].
    assert (Hv : hval_ok U vs) by (unfold hval_ok; rewrite Hty; exact Ht).
    assert (Bx : forall s' w, tb_discriminant E w = N.of_nat i -> home E s' U (tb_as_ptr E w) vs -> kboxed s' w (EV n vs))
      by (intros s' w W1 W2; exists i, k; cbn [ev_variant ev_fields]; rewrite Es; auto).
    apply kwp_new; try assumption.
    + intros Z s' w W1 W2. eapply (cl_sim _ HQ); [apply (K1 ltac:(rewrite Z; reflexivity) s' w (Bx _ _ W1 W2))|].
      * rewrite Cl. unfold claim_at. rewrite Z. reflexivity.
      * repeat split. intros N. cbn [k_died]. destruct (N _ _ Hin) as [_ N']. rewrite Es in N'. unfold destructors. rewrite Hty.
        rewrite <- Props_Containers.destroyed_drop_events, drop_events_none by auto. symmetry. apply app_nil_r.
    + intros Z s'. unfold destructors. rewrite Hty. apply K2. rewrite (proj2 (N.eqb_neq _ _) Z). reflexivity.
    + intros Z s' w W1 W2. rewrite <- Cl. apply K3; [rewrite (proj2 (N.eqb_neq _ _) Z); reflexivity|]. auto.
  - cbn [kwp]. apply K1; [reflexivity| |rewrite Cl; reflexivity]. exists i, k. cbn [ev_variant ev_fields]. rewrite Es.
    rewrite (storage_none k Es) in Ht. inversion Ht; subst. split; [exact Hi|]. split; [|reflexivity].
    unfold tb_discriminant, tb_dangling, tp_dangling. rewrite (xp_align _ _ (expand_inv _ _ Hx)). apply fetch_store_in.
    + apply (eo_target _ HE).
    + apply (proj1 (pow2_small E (eo_target _ HE) _ (do_align _ Hd))).
    + apply (max_disc_lt _ (eo_target _ HE)). exact Hm.
Qed.


(** ** The calls *)

Definition kvrel (B : option block) (s : st) (c : kcell) (a : kacell) : Prop :=
  match c, a with
  | KBox w, KABox _ _ v => kboxed s w v /\ evalue_ok def v /\ within B (kclaim w v)
  | KVal v, KAVal _ v' => v = v' /\ evalue_ok def v
  | KGone, KAGone => True
  | _, _ => False
  end.

Lemma kvrel_rely B s s' c a : kvrel B s c a -> rely B s s' -> kvrel B s' c a.
Proof.
  destruct c, a; cbn [kvrel]; try tauto. intros (H1 & H2 & H3) R. split; [eapply kboxed_rely; eassumption|auto].
Qed.

Definition agree (o : kop) (a a0 : kastate) : Prop := forall i, In i (kuses o) -> nth_error (kcells a) i = nth_error (kcells a0) i.

(** After the call the client sees [r] and the variable changed or made holds [z]; at this moment the specification can
    make the call, from whatever the variables it does not use are then. *)
Definition kafter (o : kop) (a0 : kastate) (e : keff) (r : kobs) (z : kcell) (B : option block) (s : st) : Prop :=
  forall a, agree o a a0 ->
  exists a' y, kastep def (F (fst (k_usr e))) (k_out e) o a = Some (r, a') /\ kcells a' = kput o y (kcells a) /\ kvrel B s z y /\
    kmade a' = (kmade a + k_got e)%nat /\ (nz -> exists l, kdead a' = kdead a ++ l /\ kdead_destructors def l = k_died e).

Lemma kafter_closed {A} o a0 (r : A -> kobs) (z : A -> kcell) : closed (fun e y B s => kafter o a0 e (r y) (z y) B s).
Proof.
  constructor.
  - intros e e' y B s H (S1 & S2 & S3 & S4) a Ha. destruct (H a Ha) as (a' & y' & K1 & K2 & K3 & K4 & K5). exists a', y'.
    rewrite <- S1, <- S2, <- S3. do 4 (split; [assumption|]). intros N. rewrite <- S4 by exact N. auto.
  - intros e y B s s' H R a Ha. destruct (H a Ha) as (a' & y' & K1 & K2 & K3 & K4). exists a', y'. do 2 (split; [assumption|]).
    split; [eapply kvrel_rely; eassumption|assumption].
Qed.

Lemma kafter_seen o a0 r e B s : kresult o = Nowhere -> k_died e = [] -> k_got e = 0%nat ->
  (forall a, agree o a a0 -> kastep def (F (fst (k_usr e))) (k_out e) o a = Some (r, a)) -> kafter o a0 e r KGone B s.
Proof.
  intros Ho Hl Hg H a Ha. exists a, KAGone. split; [apply H, Ha|]. split; [unfold kput; rewrite Ho; reflexivity|]. split; [exact Logic.I|].
  split; [lia|]. intros _. exists []. rewrite app_nil_r, Hl. auto.
Qed.

Lemma kwp_store o a0 v e s i (idf : kastate -> nat) (g : kastate -> kastate) : evalue_fits E def v ->
  k_out e = false -> k_died e = [] -> k_got e = 0%nat ->
  (forall z (l : list kacell), kput o z l = kplace i z l) ->
  (forall a fail, agree o a a0 -> kastep def (F (fst (k_usr e))) fail o a = Some (kstore def fail i (idf a) v (g a))) ->
  (forall a, kcells (g a) = kcells a /\ kmade (g a) = kmade a /\ kdead (g a) = kdead a) ->
  kwp (kc_into E x v) e None s (fun e w B s => kafter o a0 e KNothing (KBox w) B s) (fun e q B s => kafter o a0 e (KSawPanic q) KGone B s).
Proof.
  intros V E1 E2 E3 Hp Ha Hg.
  apply kwp_into; [exact V|apply (kafter_closed o a0 (fun _ => KNothing) KBox)|apply (kafter_closed o a0 KSawPanic (fun _ => KGone))|..].
  - intros Nb s' w Bx Cl a Ag. destruct (Hg a) as (G1 & G2 & G3). rewrite (Ha a _ Ag). unfold kstore. rewrite Nb. cbn [andb].
    do 2 eexists. split; [reflexivity|]. cbn [kcells kmade kdead]. split; [rewrite Hp, G1; reflexivity|].
    split; [cbn [kvrel]; rewrite Cl; split; [exact Bx|]; split; [apply V|exact Logic.I]|]. split; [lia|].
    intros _. exists []. rewrite G3, app_nil_r, E2. auto.
  - intros Nb s' a Ag. destruct (Hg a) as (G1 & G2 & G3). cbn [k_out k_died k_got k_usr]. rewrite (Ha a _ Ag). unfold kstore. rewrite Nb. cbn [andb].
    do 2 eexists. split; [reflexivity|]. cbn [kcells kmade kdead]. split; [rewrite Hp, G1; reflexivity|].
    split; [exact Logic.I|]. split; [lia|]. intros _. eexists. rewrite G3. split; [reflexivity|].
    unfold kdead_destructors. cbn [flat_map snd]. rewrite E2, app_nil_r. reflexivity.
  - intros Nb s' w Bx a Ag. destruct (Hg a) as (G1 & G2 & G3). cbn [k_out k_died k_got k_usr]. rewrite (Ha a _ Ag), E1. unfold kstore. rewrite Nb. cbn [andb].
    do 2 eexists. split; [reflexivity|]. cbn [kcells kmade kdead]. split; [rewrite Hp, G1; reflexivity|].
    split; [cbn [kvrel]; split; [exact Bx|]; split; [apply V|destruct (kclaim w v); cbn; auto]|]. split; [lia|].
    intros _. exists []. rewrite G3, app_nil_r, E2. auto.
Qed.

Lemma payload_code src n vals : payload_variant def src = Some n -> evalue_ok def (EV n vals) ->
  exists f, find (fun f => match f with
                           | FromLeaf t _ => String.eqb (ty_name t) src
                           | FromTuple tys _ _ => String.eqb ("(" ++ String.concat ", " (map ty_name tys) ++ ")") src
                           end) (x_froms x) = Some f /\
    kc_from_payload E x f vals = kc_into E x (EV n vals).
Proof.
  unfold payload_variant. destruct (find _ (e_variants def)) as [[v k]|] eqn:Fi; [|discriminate].
  intros En (k' & Hin' & Ht). cbn in En. injection En as ->. apply find_some in Fi as [Hin Hk]. cbn [snd] in Hk.
  cbn [ev_variant ev_fields] in *.
  assert (k' = k) by (pose proof (assoc_in _ _ _ (do_names _ Hd) Hin); pose proof (assoc_in _ _ _ (do_names _ Hd) Hin'); congruence).
  subst k'. apply existsb_exists in Hk as (key & Hkey & Eq). apply String.eqb_eq in Eq. subst key.
  destruct k as [|tys|ms]; [destruct Hkey| |destruct Hkey].
  assert (K : src = match tys with [t] => ty_name t | _ => tuple_name (map ty_name tys) end).
  { destruct tys as [|t [|t2 tys]]; cbn in Hkey; destruct Hkey as [<-|[]]; reflexivity. }
  assert (Hl : List.length vals = List.length tys) by (symmetry; eapply Forall2_len, Ht).
  assert (B : exists f, In f (x_froms x) /\ from_source f = match tys with [t] => ty_name t | _ => tuple_name (map ty_name tys) end /\
                kc_from_payload E x f vals = kc_into E x (EV n vals)).
  { destruct (xp_froms _ _ (expand_inv _ _ Hx)) as (l & G & El).
    destruct (In_nth_error _ _ Hin) as [i Hi]. destruct (gen_all_nth _ _ _ G) as [_ Gn]. specialize (Gn i).
    rewrite Hi in Gn. destruct Gn as (a & Ga & Ha). apply nth_error_In in Ha. rewrite El. clear K Hkey.
    destruct tys as [|t [|t2 tys]].
    - injection Ga as <-. exists (FromTuple [] n []). split; [apply in_concat; eexists; split; [exact Ha|left; reflexivity]|].
      split; [reflexivity|]. destruct vals; [reflexivity|discriminate Hl].
    - injection Ga as <-. exists (FromLeaf t n). split; [apply in_concat; eexists; split; [exact Ha|left; reflexivity]|].
      split; reflexivity.
    - cbn [gen_from_impl] in Ga. destruct (expand_tuple (t :: t2 :: tys)) as [idx|] eqn:Ex; [|discriminate Ga].
      injection Ga as <-. exists (FromTuple (t :: t2 :: tys) n idx).
      split; [apply in_concat; eexists; split; [exact Ha|left; reflexivity]|].
      split; [reflexivity|]. cbn [kc_from_payload]. apply expand_tuple_seq in Ex. rewrite Ex, project_all by exact Hl. reflexivity. }
  destruct B as (f & Hf & Hsrc & Hrun).
  assert (G : forall g, (match g with
                         | FromLeaf t _ => String.eqb (ty_name t) src
                         | FromTuple tys _ _ => String.eqb ("(" ++ String.concat ", " (map ty_name tys) ++ ")") src
                         end = true <-> from_source g = src)).
  { intros [t v0|ts v0 idx]; cbn [from_source]; unfold tuple_name; rewrite String.eqb_eq; reflexivity. }
  destruct (find _ (x_froms x)) as [g|] eqn:Fg.
  - exists g. split; [reflexivity|]. apply find_some in Fg as [Hg Sg]. apply G in Sg.
    assert (g = f) by (apply (proj2 (C30_unambiguous def x Hd Hx)); [assumption|assumption|congruence]). subst g. exact Hrun.
  - exfalso. pose proof (find_none _ _ Fg f Hf) as Hn. cbv beta in Hn. rewrite <- not_true_iff_false in Hn.
    apply Hn, G. congruence.
Qed.

Lemma kbox_tag s w v : kboxed s w v -> tb_discriminant E w = place (ev_variant v) (e_variants def).
Proof. intros (i & k & Hi & Ht & _). rewrite Ht. symmetry. eapply Props_Containers.place_nth; [exact Hs|apply (do_names _ Hd)|exact Hi]. Qed.

Definition call_start (s : st) : keff := KEff false [] 0 (s, s).
Definition q_after (o : kop) (a0 : kastate) : keff -> kobs * kcell -> option block -> st -> Prop :=
  fun e rz B s => kafter o a0 e (fst rz) (snd rz) B s.
Definition p_after (o : kop) (a0 : kastate) : keff -> panic -> option block -> st -> Prop :=
  fun e q B s => kafter o a0 e (KSawPanic q) KGone B s.

Lemma q_closed o a0 : closed (q_after o a0).
Proof. apply (kafter_closed o a0 (@fst kobs kcell) (@snd kobs kcell)). Qed.
Lemma p_closed o a0 : closed (p_after o a0).
Proof. apply (kafter_closed o a0 KSawPanic (fun _ => KGone)). Qed.

(** Looking at one box or two with user code. *)
Lemma kwp_seen {A} o a0 (f : A -> kobs) (r : st -> outcome A) (m : M A) s0 s : kresult o = Nowhere ->
  (forall t, computes keeps t m (r t)) ->
  (forall t fail a, agree o a a0 -> kastep def (F t) fail o a = Some (ksee f (r t), a)) ->
  kwp (kc_user m) (call_start s0) None s (fun e b B s => q_after o a0 e (f b, KGone) B s) (p_after o a0).
Proof.
  intros Ho C Ha. eapply (kwp_user _ r); [exact Logic.I|reflexivity|exact C|]. intros s' s'' _.
  destruct (r s') as [b|q] eqn:Er; unfold q_after, p_after; cbn [fst snd];
    (apply kafter_seen; [exact Ho|reflexivity|reflexivity|]); intros a Ag; cbn [k_usr k_out fst]; rewrite (Ha _ _ _ Ag), Er; reflexivity.
Qed.

Lemma see_closed {A} o a0 (f : A -> kobs) : closed (fun e b B s => q_after o a0 e (f b, KGone) B s).
Proof. apply (kafter_closed o a0 f (fun _ => KGone)). Qed.

Lemma kwp_one {A} o a0 (f : A -> kobs) (r : st -> outcome A) (m : evalue -> M A) w v s : kresult o = Nowhere ->
  kboxed s w v -> evalue_ok def v -> within None (kclaim w v) ->
  (forall t, computes keeps t (m v) (r t)) ->
  (forall t fail a, agree o a a0 -> kastep def (F t) fail o a = Some (ksee f (r t), a)) ->
  kwp (kc_bind (kc_look E x w (fun v => kc_user (m v))) (fun b => KRet (f b, KGone))) (call_start s) None s (q_after o a0) (p_after o a0).
Proof.
  intros Ho B V W C Ha. apply kwp_bind. cbn [kwp].
  eapply kwp_look; try eassumption; [apply see_closed|apply p_closed|]. intros s' _. eapply kwp_seen; eassumption.
Qed.

Lemma kwp_two {A} o a0 (f : A -> kobs) (r : st -> outcome A) (m : evalue -> evalue -> M A) w1 v1 w2 v2 s : kresult o = Nowhere ->
  kboxed s w1 v1 -> evalue_ok def v1 -> within None (kclaim w1 v1) -> kboxed s w2 v2 -> evalue_ok def v2 -> within None (kclaim w2 v2) ->
  (forall t, computes keeps t (m v1 v2) (r t)) ->
  (forall t fail a, agree o a a0 -> kastep def (F t) fail o a = Some (ksee f (r t), a)) ->
  kwp (kc_bind (kc_look E x w1 (fun v => kc_look E x w2 (fun u => kc_user (m v u)))) (fun b => KRet (f b, KGone))) (call_start s) None s
    (q_after o a0) (p_after o a0).
Proof.
  intros Ho B1 V1 W1 B2 V2 W2 C Ha. apply kwp_bind. cbn [kwp].
  eapply kwp_look; [exact B1|exact V1|exact W1|apply see_closed|apply p_closed|]. intros s' R.
  eapply kwp_look; [|exact V2|exact W2|apply see_closed|apply p_closed|].
  - destruct R as [->|R]; [exact B2|]. eapply kboxed_rely; eassumption.
  - intros s'' _. eapply kwp_seen; eassumption.
Qed.

Ltac ag1 Ag := rewrite (Ag _ (or_introl eq_refl)).

Theorem call_kwp o a0 c s : considered o = true -> (forall t, kcontract E def (F t) a0 o) ->
  (forall t, kastep def (F t) false o a0 <> None) ->
  (forall i y, In i (kuses o) -> nth_error (kcells a0) i = Some y -> exists z, nth_error c i = Some z /\ kvrel None s z y) ->
  exists m, kc_call E x I o c = Some m /\ kwp m (call_start s) None s (q_after o a0) (p_after o a0).
Proof.
  intros Co Hc Hn Hv. pose proof (Hn s) as Hn0.
  destruct o as [v|i|src vals|i|i|i j|i j|i j|i o out|i o out|i o out|i|i|i n f|i n val|i|i|i|i]; try discriminate Co; clear Co;
    cbn [kastep] in Hn0; cbn [kc_call].
  - (* KNew *) eexists. split; [reflexivity|]. cbn [kwp]. intros a Ag. cbn [kastep]. do 2 eexists. split; [reflexivity|]. cbn [fst snd kcells kmade kdead].
    split; [reflexivity|]. split; [cbn [kvrel]; split; [reflexivity|exact (Hc s)]|]. split; [cbn; lia|]. intros _. exists []. rewrite app_nil_r. auto.
  - (* KFrom *)
    destruct (nth_error (kcells a0) i) as [[id loc v|id v|]|] eqn:Hy; try contradiction.
    destruct (Hv i _ (or_introl eq_refl) Hy) as ([w|v'|] & Hz & Rz); cbn [kvrel] in Rz; try contradiction. destruct Rz as [-> V].
    rewrite Hz. eexists. split; [reflexivity|]. apply kwp_bind. cbn [kwp].
    apply (kwp_store (KFrom i) a0 v (call_start s) s (Some i) (fun _ => id) (fun a => a)); try reflexivity.
    + split; [exact V|]. exact (Hc s id v Hy).
    + intros a fail Ag. cbn [kastep]. ag1 Ag. rewrite Hy. reflexivity.
    + auto.
  - (* KFromPayload *)
    destruct (payload_variant def src) as [n|] eqn:Pv; [|contradiction].
    pose proof (Hc s) as Hc0. cbn [kcontract] in Hc0. rewrite Pv in Hc0.
    destruct (payload_code src n vals Pv (proj1 Hc0)) as (f & Ff & Hf). rewrite Ff. eexists. split; [reflexivity|]. rewrite Hf.
    apply kwp_bind. cbn [kwp].
    apply (kwp_store (KFromPayload src vals) a0 (EV n vals) (call_start s) s None knext kfresh); try reflexivity.
    + exact Hc0.
    + intros a fail Ag. cbn [kastep]. rewrite Pv. reflexivity.
    + auto.
  - (* KClone *)
    destruct (nth_error (kcells a0) i) as [[id loc v|id v|]|] eqn:Hy; try contradiction.
    destruct (Hv i _ (or_introl eq_refl) Hy) as ([w|v'|] & Hz & Rz); cbn [kvrel] in Rz; try contradiction. destruct Rz as (B & V & W).
    rewrite Hz. cbn [with_box]. eexists. split; [reflexivity|]. apply kwp_bind. cbn [kwp]. apply kwp_bind.
    eapply kwp_look; [exact B|exact V|exact W| |apply p_closed|].
    + apply kwp_is_closed; [apply (kafter_closed (KClone i) a0 (fun _ => KNothing) KBox)|apply p_closed].
    + intros s' _. eapply (kwp_user _ (fun t => m_clone (F t) v)); [exact Logic.I|reflexivity|intros t; apply (im_clone _ _ _ _ HI t v V)|].
      intros s1 s2 K. destruct (m_clone (F s1) v) as [cv|p] eqn:Mc.
      * pose proof (proj2 (im_clone _ _ _ _ HI s1 v V) cv Mc) as Vc.
        apply (kwp_store (KClone i) a0 cv (KEff false [] 0 (s1, s2)) s2 None knext kfresh); try reflexivity.
        -- split; [exact Vc|]. exact (Hc s1 id loc v cv Hy Mc).
        -- intros a fail Ag. cbn [kastep k_usr fst]. ag1 Ag. rewrite Hy, Mc. reflexivity.
        -- auto.
      * intros a Ag. cbn [kastep k_usr fst k_out k_got k_died call_start]. ag1 Ag. rewrite Hy, Mc. do 2 eexists. split; [reflexivity|].
        cbn [kcells kmade kdead]. split; [reflexivity|]. split; [exact Logic.I|]. split; [lia|]. intros _. exists []. rewrite app_nil_r. auto.
  - (* KCopy *)
    destruct (nth_error (kcells a0) i) as [[id loc v|id v|]|] eqn:Hy; try contradiction.
    destruct (e_copy def) eqn:Ec; [|contradiction].
    destruct (Hv i _ (or_introl eq_refl) Hy) as ([w|v'|] & Hz & Rz); cbn [kvrel] in Rz; try contradiction.
    rewrite (xp_copy _ _ (expand_inv _ _ Hx)), Ec, Hz. cbn [with_box]. eexists. split; [reflexivity|]. cbn [kwp].
    intros a Ag. cbn [kastep]. ag1 Ag. rewrite Hy, Ec. do 2 eexists. split; [reflexivity|]. cbn [fst snd kcells kmade kdead].
    split; [reflexivity|]. split; [exact Rz|]. split; [cbn; lia|]. intros _. exists []. rewrite app_nil_r. auto.
  - (* KEq *)
    destruct (nth_error (kcells a0) i) as [[id1 loc1 v1|id1 v1|]|] eqn:Hy1; try contradiction.
    destruct (nth_error (kcells a0) j) as [[id2 loc2 v2|id2 v2|]|] eqn:Hy2; try contradiction.
    destruct (Hv i _ (or_introl eq_refl) Hy1) as ([w1|v'|] & Hz1 & R1); cbn [kvrel] in R1; try contradiction.
    destruct (Hv j _ (or_intror (or_introl eq_refl)) Hy2) as ([w2|v'|] & Hz2 & R2); cbn [kvrel] in R2; try contradiction.
    destruct R1 as (B1 & V1 & W1), R2 as (B2 & V2 & W2). rewrite Hz1, Hz2. eexists. split; [reflexivity|].
    eapply (kwp_two _ _ KSawBool (fun t => m_eq (F t) v1 v2)); try eassumption; [reflexivity|intros t; apply (im_eq _ _ _ _ HI); assumption|].
    intros t fail a Ag. cbn [kastep]. ag1 Ag. rewrite (Ag _ (or_intror (or_introl eq_refl))), Hy1, Hy2. reflexivity.
  - (* KPartialCmp *)
    destruct (nth_error (kcells a0) i) as [[id1 loc1 v1|id1 v1|]|] eqn:Hy1; try contradiction.
    destruct (nth_error (kcells a0) j) as [[id2 loc2 v2|id2 v2|]|] eqn:Hy2; try contradiction.
    destruct (Hv i _ (or_introl eq_refl) Hy1) as ([w1|v'|] & Hz1 & R1); cbn [kvrel] in R1; try contradiction.
    destruct (Hv j _ (or_intror (or_introl eq_refl)) Hy2) as ([w2|v'|] & Hz2 & R2); cbn [kvrel] in R2; try contradiction.
    destruct R1 as (B1 & V1 & W1), R2 as (B2 & V2 & W2). rewrite Hz1, Hz2. eexists. split; [reflexivity|].
    eapply (kwp_two _ _ KSawPartial (fun t => m_pcmp (F t) v1 v2)); try eassumption; [reflexivity|intros t; apply (im_pcmp _ _ _ _ HI); assumption|].
    intros t fail a Ag. cbn [kastep]. ag1 Ag. rewrite (Ag _ (or_intror (or_introl eq_refl))), Hy1, Hy2. reflexivity.
  - (* KCmp *)
    destruct (nth_error (kcells a0) i) as [[id1 loc1 v1|id1 v1|]|] eqn:Hy1; try contradiction.
    destruct (nth_error (kcells a0) j) as [[id2 loc2 v2|id2 v2|]|] eqn:Hy2; try contradiction.
    destruct (Hv i _ (or_introl eq_refl) Hy1) as ([w1|v'|] & Hz1 & R1); cbn [kvrel] in R1; try contradiction.
    destruct (Hv j _ (or_intror (or_introl eq_refl)) Hy2) as ([w2|v'|] & Hz2 & R2); cbn [kvrel] in R2; try contradiction.
    destruct R1 as (B1 & V1 & W1), R2 as (B2 & V2 & W2). rewrite Hz1, Hz2. eexists. split; [reflexivity|].
    eapply (kwp_two _ _ KSawOrd (fun t => m_cmp (F t) v1 v2)); try eassumption; [reflexivity|intros t; apply (im_cmp _ _ _ _ HI); assumption|].
    intros t fail a Ag. cbn [kastep]. ag1 Ag. rewrite (Ag _ (or_intror (or_introl eq_refl))), Hy1, Hy2. reflexivity.
  - (* KDebug *)
    destruct (nth_error (kcells a0) i) as [[id loc v|id v|]|] eqn:Hy; try contradiction.
    destruct (Hv i _ (or_introl eq_refl) Hy) as ([w|v'|] & Hz & Rz); cbn [kvrel] in Rz; try contradiction. destruct Rz as (B & V & W).
    rewrite Hz. cbn [with_box]. eexists. split; [reflexivity|].
    eapply (kwp_one _ _ _ (fun t => m_debug (F t) default_opts v EmptyString)); try eassumption; [reflexivity|intros t; apply (im_debug _ _ _ _ HI); assumption|].
    intros t fail a Ag. cbn [kastep]. ag1 Ag. rewrite Hy, (xp_container _ _ (expand_inv _ _ Hx)). unfold ksee. destruct (m_debug (F t) default_opts v EmptyString) as [b|]; [|reflexivity].
    destruct (derived_debug o (e_container def) "value" b). reflexivity.
  - (* KDebugValue *)
    destruct (nth_error (kcells a0) i) as [[id loc v|id v|]|] eqn:Hy; try contradiction.
    destruct (Hv i _ (or_introl eq_refl) Hy) as ([w|v'|] & Hz & Rz); cbn [kvrel] in Rz; try contradiction. destruct Rz as (B & V & W).
    rewrite Hz. cbn [with_box]. eexists. split; [reflexivity|].
    eapply (kwp_one _ _ _ (fun t => m_debug (F t) default_opts v out)); try eassumption; [reflexivity|intros t; apply (im_debug _ _ _ _ HI); assumption|].
    intros t fail a Ag. cbn [kastep]. ag1 Ag. rewrite Hy. reflexivity.
  - (* KDisplay *)
    destruct (nth_error (kcells a0) i) as [[id loc v|id v|]|] eqn:Hy; try contradiction.
    destruct (Hv i _ (or_introl eq_refl) Hy) as ([w|v'|] & Hz & Rz); cbn [kvrel] in Rz; try contradiction. destruct Rz as (B & V & W).
    rewrite Hz. cbn [with_box]. eexists. split; [reflexivity|].
    eapply (kwp_one _ _ _ (fun t => m_display (F t) default_opts v out)); try eassumption; [reflexivity|intros t; apply (im_display _ _ _ _ HI); assumption|].
    intros t fail a Ag. cbn [kastep]. ag1 Ag. rewrite Hy. reflexivity.
  - (* KView *)
    destruct (nth_error (kcells a0) i) as [[id loc v|id v|]|] eqn:Hy; try contradiction.
    destruct (Hv i _ (or_introl eq_refl) Hy) as ([w|v'|] & Hz & Rz); cbn [kvrel] in Rz; try contradiction. destruct Rz as (B & V & W).
    rewrite Hz. cbn [with_box]. eexists. split; [reflexivity|]. apply kwp_bind. cbn [kwp].
    eapply kwp_look; [exact B|exact V|exact W|apply see_closed|apply p_closed|]. intros s' _. cbn [kwp]. apply kafter_seen; try reflexivity.
    intros a Ag. cbn [kastep]. ag1 Ag. rewrite Hy. reflexivity.
  - (* KTag *)
    destruct (nth_error (kcells a0) i) as [[id loc v|id v|]|] eqn:Hy; try contradiction.
    destruct (Hv i _ (or_introl eq_refl) Hy) as ([w|v'|] & Hz & Rz); cbn [kvrel] in Rz; try contradiction. destruct Rz as (B & V & W).
    rewrite Hz. cbn [with_box]. eexists. split; [reflexivity|]. cbn [kwp]. apply kafter_seen; try reflexivity.
    intros a Ag. cbn [kastep]. ag1 Ag. rewrite Hy, (kbox_tag _ _ _ B). reflexivity.
  - (* KIntoInner *)
    destruct (nth_error (kcells a0) i) as [[id loc v|id v|]|] eqn:Hy; try contradiction.
    destruct (Hv i _ (or_introl eq_refl) Hy) as ([w|v'|] & Hz & Rz); cbn [kvrel] in Rz; try contradiction. destruct Rz as (B & V & W).
    rewrite Hz. cbn [with_box]. eexists. split; [reflexivity|]. apply kwp_bind. cbn [kwp].
    eapply kwp_into_inner; [exact B|exact V|exact W|]. intros s' _ a Ag. cbn [kastep fst snd]. ag1 Ag. rewrite Hy. do 2 eexists. split; [reflexivity|].
    cbn [kset kcells kmade kdead]. split; [reflexivity|]. split; [cbn [kvrel]; auto|]. split; [cbn; lia|]. intros _. exists []. rewrite app_nil_r. auto.
  - (* KFromTagged *)
    destruct (nth_error (kcells a0) i) as [[id loc v|id v|]|] eqn:Hy; try contradiction.
    destruct (Hv i _ (or_introl eq_refl) Hy) as ([w|v'|] & Hz & Rz); cbn [kvrel] in Rz; try contradiction. destruct Rz as (B & V & W).
    rewrite Hz. cbn [with_box]. eexists. split; [reflexivity|]. apply kwp_bind. cbn [kwp].
    eapply kwp_from_tagged; [exact B|exact V|exact W|intros k; exact (Hc s id loc v k Hy)|].
    intros s' _ a Ag. cbn [kastep fst snd]. ag1 Ag. rewrite Hy. do 2 eexists. split; [reflexivity|].
    cbn [kset kcells kmade kdead]. split; [reflexivity|]. split; [cbn [kvrel]; auto|]. split; [cbn; lia|]. intros _. exists []. rewrite app_nil_r. auto.
  - (* KDrop *)
    destruct (nth_error (kcells a0) i) as [[id loc v|id v|]|] eqn:Hy; try contradiction.
    destruct (Hv i _ (or_introl eq_refl) Hy) as ([w|v'|] & Hz & Rz); cbn [kvrel] in Rz; try contradiction.
    rewrite Hz. cbn [with_box]. eexists. split; [reflexivity|]. cbn [kwp]. intros a Ag. cbn [kastep fst snd]. ag1 Ag. rewrite Hy. do 2 eexists. split; [reflexivity|].
    cbn [kset kcells kmade kdead]. split; [reflexivity|]. split; [exact Logic.I|]. split; [cbn; lia|]. intros _. exists []. rewrite app_nil_r. auto.
  - (* KDropVal *)
    destruct (nth_error (kcells a0) i) as [[id loc v|id v|]|] eqn:Hy; try contradiction.
    destruct (Hv i _ (or_introl eq_refl) Hy) as ([w|v'|] & Hz & Rz); cbn [kvrel] in Rz; try contradiction. destruct Rz as [-> V].
    rewrite Hz. eexists. split; [reflexivity|]. apply kwp_note; [exact Logic.I|]. intros s' _. cbn [kwp]. intros a Ag. cbn [kastep fst snd k_usr k_out k_got k_died call_start].
    ag1 Ag. rewrite Hy. do 2 eexists. split; [reflexivity|]. cbn [kcells kmade kdead]. split; [reflexivity|]. split; [exact Logic.I|].
    split; [lia|]. intros N. eexists. split; [reflexivity|]. rewrite (xp_drop _ _ (expand_inv _ _ Hx)), (nz_drop N), (xp_enum _ _ (expand_inv _ _ Hx)).
    unfold kdead_destructors. cbn [flat_map snd app]. rewrite app_nil_r. unfold value_destructors.
    destruct (assoc (ev_variant v) (e_variants def)); rewrite Props_Containers.destroyed_drop_events; reflexivity.
Qed.

End Wp.
