(** Proofs about programs whose destructors may panic: state by state, they do what they do without panics. *)
From Coq Require Import Arith NArith String Bool List Lia.
From Verif Require Import Words Config Spec ConfigFacts Pointer PointerFacts Mem SpecMem MemFacts Box BoxFacts
  Session SpecSession SessionFacts DropPanics SpecDropPanics.
Import ListNotations.
Local Open Scope N_scope.

Section Facts.
Variable E : env.
Variable fussy : st -> string -> leafval -> bool.

(** None of these destructors panics in every state; one of them does in some. *)
Definition mellow (l : list (string * leafval)) : Prop := forall n v, In (n, v) l -> exists s, fussy s n v = false.
Definition one_fussy (l : list (string * leafval)) : Prop := exists n v s, In (n, v) l /\ fussy s n v = true.

(** ** Drop glue *)

Lemma glue_cases tys : forall vs u s,
  let s' := St (bytes s) (blocks s) (events s ++ drop_events tys vs) in
  let l := destroyed (drop_events tys vs) in
  (d_drop_fields fussy tys vs u s = DOk tt s' /\ mellow l) \/
  (u = false /\ exists n v, d_drop_fields fussy tys vs u s = DPanic (InDrop n v) s' /\ In (n, v) l /\ exists s1, fussy s1 n v = true) \/
  (exists s2, d_drop_fields fussy tys vs u s = DAbort s2 /\ one_fussy l /\ (u = true \/ (2 <= List.length l)%nat)).
Proof.
  assert (N : forall s, St (bytes s) (blocks s) (events s ++ []) = s) by (intros []; cbn; rewrite app_nil_r; reflexivity).
  induction tys as [|t tys IH]; intros [|v vs] u s; cbn [drop_events d_drop_fields];
    try (left; split; [unfold dret; rewrite N; reflexivity|intros ? ? []]).
  unfold finally, d_drop_leaf. destruct (ty_drop t) eqn:D.
  2:{ cbn [app]. unfold dbind. destruct (IH vs u s) as [[R M]|[(-> & n & w & R & H)|(s2 & R & H)]]; rewrite R.
      - left. auto.
      - right; left. split; [reflexivity|]. exists n, w. auto.
      - right; right. exists s2. auto. }
  set (s1 := log (EvDrop (ty_name t) v) s). cbn [app destroyed].
  assert (A : forall x, St (bytes s1) (blocks s1) (events s1 ++ x) = St (bytes s) (blocks s) (events s ++ EvDrop (ty_name t) v :: x))
    by (intros x; unfold s1, log; cbn [bytes blocks events]; rewrite <- app_assoc; reflexivity).
  destruct (fussy s (ty_name t) v) eqn:F.
  - unfold draise. assert (O : forall l, one_fussy ((ty_name t, v) :: l)) by (intros l; exists (ty_name t), v, s; cbn; auto).
    destruct u; [right; right; exists s1; auto|].
    destruct (IH vs true s1) as [[R M]|[(Q & _)|(s2 & R & (n & w & s3 & In3 & F3) & H)]]; [| discriminate Q |]; rewrite R.
    + right; left. split; [reflexivity|]. exists (ty_name t), v. rewrite A. split; [reflexivity|]. split; [left; reflexivity|]. exists s; exact F.
    + right; right. exists s2. split; [reflexivity|]. split; [apply O|]. right. cbn [List.length].
      destruct (destroyed (drop_events tys vs)); [destruct In3|cbn [List.length]; lia].
  - unfold dbind, dret. destruct (IH vs u s1) as [[R M]|[(-> & n & w & R & H1 & H2)|(s2 & R & (n & w & s3 & In3 & F3) & H)]]; rewrite R.
    + left. rewrite A. split; [reflexivity|]. intros n w [K|K]; [injection K as <- <-; eauto|auto].
    + right; left. split; [reflexivity|]. exists n, w. rewrite A. split; [reflexivity|]. split; [right; exact H1|exact H2].
    + right; right. exists s2. split; [reflexivity|]. split; [exists n, w, s3; cbn; auto|]. cbn [List.length]. destruct H; [auto|right; lia].
Qed.

Lemma drop_cases U vs u s :
  (d_drop fussy U vs u s = DOk tt (dropped U vs s) /\ mellow (destructors U vs)) \/
  (u = false /\ exists n v, d_drop fussy U vs u s = DPanic (InDrop n v) (dropped U vs s) /\ In (n, v) (destructors U vs) /\
     exists s1, fussy s1 n v = true) \/
  (exists s2, d_drop fussy U vs u s = DAbort s2 /\ one_fussy (destructors U vs) /\ (u = true \/ (2 <= List.length (destructors U vs))%nat)).
Proof. unfold d_drop, dropped. rewrite <- destroyed_drop. apply glue_cases. Qed.

(** ** The functions *)

(** [dm] with panicking destructors does what [m] does without. *)
Definition like {A} (dm : DM A) (m : M A) (s : st) : Prop :=
  match m s with
  | Ok r s' => exists l, destroyed (events s') = destroyed (events s) ++ l /\
      ((dm false s = DOk r s' /\ mellow l) \/
       (exists n v, dm false s = DPanic (InDrop n v) s' /\ In (n, v) l /\ exists s1, fussy s1 n v = true) \/
       (exists s2, dm false s = DAbort s2 /\ one_fussy l /\ (2 <= List.length l)%nat))
  | Panicked q s' => exists l, destroyed (events s') = destroyed (events s) ++ l /\
      ((dm false s = DPanic (InCrate q) s' /\ mellow l) \/
       (exists s2, dm false s = DAbort s2 /\ one_fussy l /\ q = PanicNullAlloc))
  | UB _ => True
  end.

Lemma like_bind {A B} (dm : DM A) (m : M A) (f : A -> B) s : like dm m s ->
  like (dbind dm (fun a => dret (f a))) (bind m (fun a => ret (f a))) s.
Proof.
  unfold like, bind, dbind, ret, dret. destruct (m s) as [r s'|q s'|u]; [| |auto]; intros (l & D & H); exists l; (split; [exact D|]).
  - destruct H as [[R M]|[(n & v & R & H)|(s2 & R & H)]]; rewrite R; [left; auto|right; left; eauto|right; right; eauto].
  - destruct H as [[R M]|(s2 & R & H)]; rewrite R; [left; auto|right; eauto].
Qed.

Lemma mellow_nil : mellow [].
Proof. intros ? ? []. Qed.

Lemma destroyed_dropped U v s : destroyed (events (dropped U v s)) = destroyed (events s) ++ destructors U v.
Proof. cbn [dropped events]. rewrite destroyed_app, destroyed_drop. reflexivity. Qed.

Lemma drop_like U v s : like (d_drop fussy U v) (drop_hval U v) s.
Proof.
  unfold like, drop_hval. exists (destructors U v). split; [apply destroyed_dropped|].
  destruct (drop_cases U v false s) as [H|[(_ & n & w & H)|(s2 & R & H1 & [H2|H2])]]; [left; exact H|right; left; eauto|discriminate H2|right; right; eauto].
Qed.

Lemma new_like U val d s : like (d_new E fussy U val d) (tb_new E U val d) s.
Proof.
  unfold like, d_new, tb_new. destruct (N.eqb_spec (h_size U) 0) as [Z|Z].
  - unfold bind, drop_hval, ret. exists (destructors U val). split; [apply destroyed_dropped|].
    unfold finally, dret, dbind. fold (dropped U val s).
    destruct (drop_cases U val false s) as [[R M]|[(_ & n & w & R & H)|(s2 & R & H1 & [H2|H2])]]; try discriminate H2; rewrite R;
      [left; auto|right; left; eauto|right; right; eauto].
  - unfold bind, dbind, plainly. unfold alloc. destruct (alloc_fn E s (h_size U) (h_align U)) as [p|] eqn:A.
    + set (s1 := St _ _ _). destruct (write_at U p val s1) as [[] s2|q s2|u] eqn:W; [| |exact Logic.I].
      * assert (D : destroyed (events s2) = destroyed (events s) ++ []).
        { unfold write_at, bind in W. destruct (check_access U p s1) eqn:C; try discriminate W. apply check_access_inv in C as [-> _].
          injection W as <-. unfold s1. cbn [events]. rewrite destroyed_app. reflexivity. }
        unfold of_outcome. destruct (tp_new (tgt E) p d); cbn [ret raise]; exists []; (split; [exact D|]); left; (split; [reflexivity|apply mellow_nil]).
      * exfalso. unfold write_at, bind in W. destruct (check_access U p s1) as [? ?|? ?|?] eqn:C; try discriminate W.
        unfold check_access in C. repeat (match type of C with (if ?b then _ else _) = _ => destruct b end; try discriminate C).
    + unfold drop_hval, raise. fold (dropped U val s). exists (destructors U val). split; [apply destroyed_dropped|].
      unfold finally, draise. destruct (drop_cases U val true s) as [[R M]|[(Q & _)|(s2 & R & H1 & H2)]]; [| discriminate Q |]; rewrite R;
        [left; auto|right; eauto].
Qed.

Lemma assign_like U p val s : like (d_assign fussy U p val) (assign_at U p val) s.
Proof.
  unfold like, d_assign, assign_at, bind, dbind, plainly.
  destruct (read_at U p s) as [old s1|q s1|u] eqn:R; [| |exact Logic.I].
  - apply read_at_inv in R as (-> & Ca & _). unfold drop_hval. fold (dropped U old s).
    rewrite write_at_eq by exact Ca. cbn [events dropped]. exists (destructors U old). split; [rewrite destroyed_app, destroyed_drop; reflexivity|].
    unfold finally. assert (W := write_at_eq (dropped U old s) U p val Ca).
    destruct (drop_cases U old false s) as [[R M]|[(_ & n & w & R & H)|(s2 & R & H1 & [H2|H2])]]; try discriminate H2; rewrite R;
      unfold dbind, dret; rewrite ?W; [left; auto|right; left; eauto|right; right; eauto].
  - exfalso. unfold read_at, bind in R. destruct (check_access U p s) eqn:C; try discriminate R.
    + destruct (read_fields _ _ _) in R; discriminate R.
    + unfold check_access in C. repeat (match type of C with (if ?b then _ else _) = _ => destruct b end; try discriminate C).
Qed.

Lemma rbox_drop_like U p s : like (d_rbox_drop fussy U p) (rbox_drop U p) s.
Proof.
  unfold like, d_rbox_drop, rbox_drop, bind, dbind, plainly.
  destruct (read_at U p s) as [v s1|q s1|u] eqn:R; [| |exact Logic.I].
  - apply read_at_inv in R as (-> & Ca & _). unfold drop_hval. fold (dropped U v s). destruct (h_size U =? 0).
    + unfold ret. exists (destructors U v). split; [apply destroyed_dropped|]. unfold finally, dret, dbind.
      destruct (drop_cases U v false s) as [[R M]|[(_ & n & w & R & H)|(s2 & R & H1 & [H2|H2])]]; try discriminate H2; rewrite R;
        [left; auto|right; left; eauto|right; right; eauto].
    + destruct (dealloc p (h_size U) (h_align U) (dropped U v s)) as [[] s3|q s3|u] eqn:W; [| |exact Logic.I].
      * exists (destructors U v). split.
        { unfold dealloc in W. destruct (existsb _ _) in W; [|discriminate W]. injection W as <-. cbn [events].
          rewrite !destroyed_app, destroyed_drop. cbn. rewrite app_nil_r. reflexivity. }
        unfold finally, dret, dbind.
        destruct (drop_cases U v false s) as [[R M]|[(_ & n & w & R & H)|(s2 & R & H1 & [H2|H2])]]; try discriminate H2; rewrite R; rewrite ?W;
          [left; auto|right; left; eauto|right; right; eauto].
      * unfold dealloc in W. destruct (existsb _ _) in W; discriminate W.
  - exfalso. unfold read_at, bind in R. destruct (check_access U p s) eqn:C; try discriminate R.
    + destruct (read_fields _ _ _) in R; discriminate R.
    + unfold check_access in C. repeat (match type of C with (if ?b then _ else _) = _ => destruct b end; try discriminate C).
Qed.

(** ** Steps *)

(** The calls that run destructors. *)
Definition destroys (o : op) : bool :=
  match o with
  | NewBox _ _ _ _ | Assign _ _ | AssignPtr _ _ | RawAssign _ _ | RustDrop _ | DropValue _ => true
  | _ => false
  end.

Lemma keeps_dead fail o a x a' : destroys o = false -> astep fail o a = Some (x, a') -> dead a' = dead a.
Proof.
  intros H. destruct o as [u U val d|i|i|i|i f|i val|i|i|i d|i|i|i|i|i|i|i|i val|i|i val]; try discriminate H; cbn [astep];
    destruct (nth_error (cells a) i) as [[]|]; try discriminate; intros K; injection K as <- <-; reflexivity.
Qed.

Lemma step_plainly o c : destroys o = false -> d_step E fussy o c = option_map plainly (step E o c) /\ d_after_panic o c = after_panic o c.
Proof. intros H. destruct o; try discriminate H; split; reflexivity. Qed.

Lemma step_like o c m s : destroys o = true -> step E o c = Some m ->
  exists dm, d_step E fussy o c = Some dm /\ like dm m s /\
    (forall r s', m s = Ok r s' -> d_after_panic o c = match o with NewBox _ _ _ _ => c ++ [CGone] | _ => snd r end) /\
    (forall q s', m s = Panicked q s' -> match o with RustDrop _ | DropValue _ => False | _ => True end).
Proof.
  intros H S. destruct o as [u U val d|i|i|i|i f|i val|i|i|i d|i|i|i|i|i|i|i|i val|i|i val]; try discriminate H; cbn [step d_step] in *.
  { injection S as <-. eexists. split; [reflexivity|]. split; [|split; [reflexivity|intros; exact Logic.I]].
    destruct u; [change (tb_new_unchecked E U val d) with (tb_new E U val d)|]; exact (like_bind _ _ (fun w => (SawNothing, c ++ [CBox U w])) s (new_like U val d s)). }
  all: destruct (nth_error c i) as [[U w|U p|U p|U v|]|]; try discriminate S; injection S as <-; eexists; (split; [reflexivity|]).
  - split; [exact (like_bind _ _ (fun _ => (SawNothing, c)) s (assign_like U (tp_mut_ref_addr (tgt E) w) val s))|]. split; [|intros; exact Logic.I].
    intros r s'. unfold bind, ret. destruct (tb_assign E U w val s); intros K; try discriminate K. injection K as <- <-. reflexivity.
  - split; [exact (like_bind _ _ (fun _ => (SawNothing, put i CGone c)) s (rbox_drop_like U p s))|]. split.
    + intros r s'. unfold bind at 1, ret at 1. destruct (rbox_drop U p s); intros K; try discriminate K. injection K as <- <-. reflexivity.
    + intros q s'. unfold bind, ret. pose proof (rbox_drop_like U p s) as L. unfold like in L. destruct (rbox_drop U p s) as [? ?|q0 s0|?] eqn:R; intros K; try discriminate K.
      unfold rbox_drop, bind, drop_hval, ret in R.
      destruct (read_at U p s) as [v s1|q1 s1|u1] eqn:R1; try discriminate R.
      * destruct (h_size U =? 0); [discriminate R|]. unfold dealloc in R. destruct (existsb _ _) in R; discriminate R.
      * unfold read_at, bind in R1. destruct (check_access U p s) eqn:C; try discriminate R1.
        -- destruct (read_fields _ _ _) in R1; discriminate R1.
        -- unfold check_access in C. repeat (match type of C with (if ?b then _ else _) = _ => destruct b end; try discriminate C).
  - split; [exact (like_bind _ _ (fun _ => (SawNothing, put i CGone c)) s (drop_like U v s))|]. split.
    + intros r s' K. injection K as <- <-. reflexivity.
    + intros q s' K. discriminate K.
  - split; [exact (like_bind _ _ (fun _ => (SawNothing, c)) s (assign_like U (tb_as_mut_ptr E w) val s))|]. split; [|intros; exact Logic.I].
    intros r s'. unfold bind, ret. destruct (assign_at U (tb_as_mut_ptr E w) val s); intros K; try discriminate K. injection K as <- <-. reflexivity.
  - split; [exact (like_bind _ _ (fun _ => (SawNothing, c)) s (assign_like U p val s))|]. split; [|intros; exact Logic.I].
    intros r s'. unfold bind, ret. destruct (assign_at U p val s); intros K; try discriminate K. injection K as <- <-. reflexivity.
Qed.

Hypothesis HE : env_ok E.

(** A step of a program: as without panics; or all done, but for a box made; or aborted. *)
Lemma d_step_sim s0 s c a o : inv E s0 s c a -> contract E a o -> astep false o a <> None ->
  exists fail x a' c' s' dm, astep fail o a = Some (x, a') /\ d_step E fussy o c = Some dm /\
    inv E s0 s' c' a' /\ tracks E s a s' a' /\
    (((dm false s = DOk (x, c') s' \/ exists p, x = SawPanic p /\ dm false s = DPanic (InCrate p) s' /\ c' = d_after_panic o c) /\
      (forall n v, among_victims a a' n v -> exists s1, fussy s1 n v = false)) \/
     (exists n v, astep false o a = Some (x, a') /\ dm false s = DPanic (InDrop n v) s' /\ among_victims a a' n v /\ (exists s1, fussy s1 n v = true) /\
        inv E s0 s' (d_after_panic o c) (blown o a a')) \/
     (exists s2, dm false s = DAbort s2 /\ may_abort (starved E o s) fussy o a)).
Proof.
  intros I Hc Hn. destruct (step_sim E HE s0 s c a o I Hc Hn) as (fail & m & x & a' & c' & s' & H1 & H2 & H3 & H4 & H5 & H6).
  pose proof H5 as [(l & D1 & D2) _]. exists fail, x, a', c', s'. destruct (destroys o) eqn:De.
  - destruct (step_like o c m s De H2) as (dm & S1 & L & A1 & A2). exists dm. do 4 (split; [assumption|]).
    assert (V : forall n v, among_victims a a' n v <-> In (n, v) (dead_destructors l)).
    { intros n v. split; [|intros K; exists l; auto]. intros (l2 & Q1 & Q2). rewrite D1 in Q1. apply app_inv_head in Q1. subst l2. exact Q2. }
    unfold like in L. destruct H3 as [R|(q & -> & R & ->)]; rewrite R in L; destruct L as (l2 & D3 & L);
      rewrite D2 in D3; apply app_inv_head in D3; subst l2.
    + destruct L as [[L1 L2]|[(n & v & L1 & L2 & L3)|(s2 & L1 & (n & v & s3 & L2 & L4) & L3)]].
      * left. split; [left; exact L1|]. intros n v K. apply L2, V, K.
      * right; left. exists n, v.
        assert (Hf : astep false o a = Some (x, a')).
        { destruct o; try exact H1; try discriminate De; cbn [astep] in H1 |- *. destruct (h_size U =? 0); [exact H1|].
          destruct fail; [|exact H1]. injection H1 as Hx _. subst x. exfalso. cbn [step] in H2. injection H2 as <-. clear - R.
          unfold bind, ret in R. destruct ((if unchecked then tb_new_unchecked E U val d else tb_new E U val d) s); discriminate R. }
        split; [exact Hf|]. split; [exact L1|]. split; [apply V; exact L2|]. split; [exact L3|].
        rewrite (A1 _ _ R). cbn [snd]. destruct o; try exact H4; try discriminate De.
        cbn [blown]. destruct H4 as [I1 I2 I3 I4 I5] eqn:Ei. clear Ei.
        pose proof (inv_put_same E s0 s' c' a' (blown (NewBox unchecked U val d) a a') (List.length c)) as P.
        cbn [step] in H2. injection H2 as <-. unfold bind, ret in R.
        destruct ((if unchecked then tb_new_unchecked E U val d else tb_new E U val d) s) as [w s1|? ?|?]; try discriminate R.
        injection R as <- <- <-. pose proof (iv_len _ _ _ _ _ I) as Lc.
        assert (Q : forall {T} (y z : T) k, put (List.length k) y (k ++ [z]) = k ++ [y])
          by (intros T y z k; induction k as [|u0 k IHk]; cbn [List.length app put]; [reflexivity|rewrite IHk; reflexivity]).
        specialize (P (CBox U w) CGone AGone (events s1) H4). rewrite Q in P. destruct s1 as [by1 bl1 ev1]. cbn [bytes blocks events] in P. apply P.
        -- rewrite nth_error_app2 by lia. rewrite Nat.sub_diag. reflexivity.
        -- cbn [blown cells]. cbn [astep] in Hf. destruct (h_size U =? 0); injection Hf as <-; cbn [cells]; rewrite Lc, Q; reflexivity.
        -- exact Logic.I.
        -- right. reflexivity.
      * right; right. exists s2. split; [exact L1|]. rewrite <- H6. exists x, a', l. split; [exact H1|]. split; [exact D1|]. split; [exists n, v, s3; auto|right; exact L3].
    + destruct L as [[L1 L2]|(s2 & L1 & (n & v & s3 & L2 & L4) & ->)].
      * left. split; [right|intros n v K; apply L2, V, K]. exists q. split; [reflexivity|]. split; [exact L1|].
        specialize (A2 _ _ R). destruct o; try reflexivity; try discriminate De; contradiction.
      * right; right. exists s2. split; [exact L1|]. rewrite <- H6. exists (SawPanic PanicNullAlloc), a', l.
        split; [exact H1|]. split; [exact D1|]. split; [exists n, v, s3; auto|left].
        destruct o as [u U val d|i|i|i|i f|i val|i|i|i d|i|i|i|i|i|i|i|i val|i|i val]; try discriminate De; cbn [astep] in H1;
          try (destruct (nth_error (cells a) i) as [[]|]; try discriminate H1).
        destruct (h_size U =? 0); [discriminate H1|]. destruct fail; [reflexivity|discriminate H1].
  - destruct (step_plainly o c De) as [S1 S2]. rewrite S1, H2. exists (plainly m). do 4 (split; [assumption || reflexivity|]).
    left. split.
    + unfold plainly. destruct H3 as [R|(q & -> & R & ->)]; rewrite R; [left; reflexivity|right]. exists q. rewrite S2. auto.
    + intros n v (l2 & Q1 & Q2). rewrite (keeps_dead _ _ _ _ _ De H1) in Q1. rewrite <- (app_nil_r (dead a)) in Q1 at 1.
      apply app_inv_head in Q1. subst l2. destruct Q2.
Qed.

End Facts.
