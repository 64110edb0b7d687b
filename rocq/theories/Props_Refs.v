(** C61: references into boxes that live on while the client does other things. *)
From Coq Require Import Arith NArith String Bool List Lia.
From Verif Require Import Words Config Spec ConfigFacts Pointer PointerFacts Mem SpecMem MemFacts Box BoxFacts Bump
  Props_Pointer Props_Box Props_Unsound Session SpecSession SessionFacts Props_Session Threads Refs SpecRefs.
Import ListNotations.
Local Open Scope N_scope.

(** ** The relation between references *)

Section Sim.
Variable E : env.
Hypothesis HE : env_ok E.

(** A reference leads to the box in its variable. *)
Definition ref_rel (c : list cell) (r : option ref) (x : option (nat * bool)) : Prop :=
  match r, x with
  | Some r, Some (i, m) => r_var r = i /\ r_mut r = m /\
      exists w, nth_error c i = Some (CBox (r_ty r) w) /\ r_addr r = tp_as_ptr (tgt E) w
  | None, None => True
  | _, _ => False
  end.

Record rinv (s0 s : st) (c : list cell) (refs : list (option ref)) (a : astate) (l : arefs) : Prop := {
  ri_inv : inv E s0 s c a;
  ri_refs : Forall2 (ref_rel c) refs l;
  ri_excl : forall n m r q, n <> m -> get_ref refs n = Some r -> get_ref refs m = Some q -> r_mut r = true -> r_var r <> r_var q
}.

Lemma refs_get c refs l n : Forall2 (ref_rel c) refs l -> ref_rel c (get_ref refs n) (aget l n).
Proof.
  intros H. revert n. unfold get_ref, aget. induction H as [|r x refs l R _ IH]; intros [|n]; cbn; auto.
Qed.

Lemma borrowed_eq c refs l i : Forall2 (ref_rel c) refs l -> borrowed refs i = some_ref l i.
Proof.
  unfold borrowed, some_ref. induction 1 as [|r x refs l R _ IH]; cbn; [reflexivity|]. rewrite IH. f_equal.
  destruct r as [r|], x as [[j m]|]; cbn in R; try contradiction; [|reflexivity]. destruct R as (-> & _). reflexivity.
Qed.

Lemma borrowed_mut_eq c refs l i : Forall2 (ref_rel c) refs l -> borrowed_mut refs i = some_mut_ref l i.
Proof.
  unfold borrowed_mut, some_mut_ref. induction 1 as [|r x refs l R _ IH]; cbn; [reflexivity|]. rewrite IH. f_equal.
  destruct r as [r|], x as [[j m]|]; cbn in R; try contradiction; [|reflexivity]. destruct R as (-> & -> & _). reflexivity.
Qed.

Lemma get_in refs n r : get_ref refs n = Some r -> In (Some r) refs.
Proof. unfold get_ref. destruct (nth_error refs n) as [x|] eqn:H; [|discriminate]. intros ->. eapply nth_error_In; eassumption. Qed.

Lemma not_borrowed refs i n r : borrowed refs i = false -> get_ref refs n = Some r -> r_var r <> i.
Proof.
  intros B G Hr. apply get_in in G. assert (T : borrowed refs i = true); [|congruence].
  apply existsb_exists. exists (Some r). split; [exact G|]. apply Nat.eqb_eq. exact Hr.
Qed.

Lemma not_borrowed_mut refs i n r : borrowed_mut refs i = false -> get_ref refs n = Some r -> r_mut r = true -> r_var r <> i.
Proof.
  intros B G Hm Hr. apply get_in in G. assert (T : borrowed_mut refs i = true); [|congruence].
  apply existsb_exists. exists (Some r). split; [exact G|]. rewrite Hm, (proj2 (Nat.eqb_eq _ _) Hr). reflexivity.
Qed.

(** The variables change, those borrowed do not. *)
Lemma refs_keep c c' refs l : Forall2 (ref_rel c) refs l ->
  (forall n r x, get_ref refs n = Some r -> nth_error c (r_var r) = Some x -> nth_error c' (r_var r) = Some x) ->
  Forall2 (ref_rel c') refs l.
Proof.
  intros H K. assert (K' : forall r x, In (Some r) refs -> nth_error c (r_var r) = Some x -> nth_error c' (r_var r) = Some x).
  { intros r x Hr. apply In_nth_error in Hr as [n Hn]. apply (K n). unfold get_ref. rewrite Hn. reflexivity. }
  clear K. induction H as [|r x refs l R _ IH]; constructor.
  - destruct r as [r|], x as [[j m]|]; cbn in R |- *; try contradiction; auto. destruct R as (R1 & R2 & w & R3 & R4).
    split; [exact R1|]. split; [exact R2|]. exists w. split; [|exact R4]. subst j. apply K'; [left; reflexivity|exact R3].
  - apply IH. intros r' x' Hi. apply K'. right. exact Hi.
Qed.

Lemma refs_add c refs l r x : Forall2 (ref_rel c) refs l -> ref_rel c r x -> Forall2 (ref_rel c) (refs ++ [r]) (l ++ [x]).
Proof. intros H R. apply Forall2_app; [exact H|]. constructor; [exact R|constructor]. Qed.

Lemma refs_end c refs l r : Forall2 (ref_rel c) refs l -> Forall2 (ref_rel c) (put r None refs) (put r None l).
Proof. intros H. revert r. induction H as [|x y refs l R Hl IH]; intros [|r]; cbn [put]; try apply Forall2_nil; apply Forall2_cons; auto; exact Logic.I. Qed.

Lemma get_add refs r n x : get_ref (refs ++ [Some r]) n = Some x -> get_ref refs n = Some x \/ (n = List.length refs /\ x = r).
Proof.
  unfold get_ref. destruct (Nat.lt_ge_cases n (List.length refs)) as [L|L].
  - rewrite nth_error_app1 by exact L. auto.
  - rewrite nth_error_app2 by exact L. destruct (n - List.length refs)%nat as [|k] eqn:K; [|destruct k; discriminate].
    cbn. intros H. injection H as <-. right. split; [lia|reflexivity].
Qed.

Lemma get_end refs r n x : get_ref (put r None refs) n = Some x -> get_ref refs n = Some x.
Proof.
  unfold get_ref. revert r n. induction refs as [|y refs IH]; intros [|r] [|n]; cbn; try (apply IH); auto; intros H; discriminate H.
Qed.

(** ** Which variables a call leaves alone *)

Lemma step_leaves o c m s x c' s' : step E o c = Some m -> does o c m s x c' s' ->
  forall j z, nth_error c j = Some z -> target_of o <> Some j \/ by_shared_ref o = true -> nth_error c' j = Some z.
Proof.
  intros Hs D j z Hz T.
  assert (App : forall y, nth_error (c ++ [y]) j = Some z) by (intros y; rewrite nth_error_app1; [exact Hz|eapply nth_some_lt; eassumption]).
  destruct D as [D|(p & -> & D & ->)]; [|destruct o; cbn [after_panic]; auto].
  destruct o as [u U val d|i|i|i|i f|i val|i|i|i d|i|i|i|i|i|i|i|i val|i|i val]; cbn [step target_of by_shared_ref] in *;
    [injection Hs as <-; unfold bind in D; destruct u;
       [destruct (tb_new_unchecked E U val d s) as [w s1| |]|destruct (tb_new E U val d s) as [w s1| |]]; try discriminate D;
       injection D as _ <- _; apply App|..];
    (destruct (nth_error c i) as [[U w|U p|U p|U v|]|]; try discriminate Hs; injection Hs as <-; unfold bind, ret in D;
     repeat match type of D with context [match ?r with Ok _ _ => _ | Panicked _ _ => _ | UB _ => _ end] =>
       lazymatch r with context [match _ with Ok _ _ => _ | Panicked _ _ => _ | UB _ => _ end] => fail | _ => destruct r; try discriminate D end end;
     injection D as _ <- _;
     first [exact Hz|rewrite put_other by (intros ->; destruct T as [T|T]; [apply T; reflexivity|discriminate T]); exact Hz]).
Qed.

(** ** One step *)

Definition rdoes (o : rop) (c : list cell) (refs : list (option ref)) (m : M (obs * (list cell * list (option ref)))) (s : st)
  (x : obs) (c' : list cell) (refs' : list (option ref)) (s' : st) : Prop :=
  m s = Ok (x, (c', refs')) s' \/
  exists p, x = SawPanic p /\ m s = Panicked p s' /\ c' = rafter_panic o c /\ refs' = refs.

Definition rsimulates (s0 s : st) (c : list cell) (refs : list (option ref)) (a : astate) (l : arefs) (o : rop) : Prop :=
  exists m x a' l' c' refs' s',
    arstep (match o with Call o => starved E o s | _ => false end) o a l = Some (x, (a', l')) /\
    rstep E o c refs = Some m /\ rdoes o c refs m s x c' refs' s' /\
    rinv s0 s' c' refs' a' l' /\ tracks E s a s' a'.

(** What a reference gives. *)
Lemma ref_home s0 s c refs a l r i mt : rinv s0 s c refs a l -> aget l r = Some (i, mt) ->
  exists U w v id d, get_ref refs r = Some (Ref i mt U (tp_as_ptr (tgt E) w)) /\ nth_error c i = Some (CBox U w) /\
    nth_error (cells a) i = Some (ABox U id v d) /\ tp_discriminant (tgt E) w = d /\ home E s U (tp_as_ptr (tgt E) w) v.
Proof.
  intros [I R _] G. pose proof (refs_get c refs l r R) as K. rewrite G in K. destruct (get_ref refs r) as [[j m U p]|]; [|destruct K].
  cbn in K. destruct K as (-> & -> & w & Hc & ->).
  pose proof (nth_some_lt _ _ _ Hc) as Ln. rewrite (iv_len _ _ _ _ _ I) in Ln. apply nth_error_Some in Ln.
  destruct (nth_error (cells a) i) as [y|] eqn:Hy; [|contradiction].
  pose proof (iv_rel _ _ _ _ _ I i _ _ Hc Hy) as Rl. destruct y as [U' id v d|U' id v|U' id v|U' id v|]; cbn [rel] in Rl; try contradiction.
  destruct Rl as (-> & Rd & Rh). exists U', w, v, id, d. auto 10.
Qed.

Lemma box_write s0 s c a i U w v id d v' id' e : inv E s0 s c a -> nth_error c i = Some (CBox U w) ->
  nth_error (cells a) i = Some (ABox U id v d) -> tp_discriminant (tgt E) w = d -> home E s U (tp_as_ptr (tgt E) w) v -> hval_ok U v' ->
  forall a', cells a' = put i (ABox U id' v' d) (cells a) ->
  inv E s0 (St (write_mem U (tp_as_ptr (tgt E) w) v' (bytes s)) (blocks s) e) c a'.
Proof.
  intros I Hc Hy Hd Hh Hv a' Ha. eapply inv_write; [exact I|exact Hc|reflexivity|exact Ha|exact (hm_legal _ _ _ _ _ Hh)|exact Hv|].
  cbn [rel]. split; [reflexivity|]. split; [exact Hd|]. apply (home_write E s U _ v); assumption.
Qed.

Lemma rstep_sim s0 s c refs a l o : rinv s0 s c refs a l -> rcontract E a l o -> (forall fail, arstep fail o a l <> None) ->
  rsimulates s0 s c refs a l o.
Proof.
  intros I Hc Hn. pose proof I as [Iv Ir Ie]. pose proof (Hn false) as Hn0.
  destruct o as [o|i|i|r|r f|r val|r val|r q|r]; cbn [arstep rcontract] in Hc, Hn, Hn0.
  - (* Call *)
    assert (Hok : passes_borrowck refs o = true /\ forall fail, astep fail o a <> None /\
      arstep fail (Call o) a l = option_map (fun r : obs * astate => (fst r, (snd r, l))) (astep fail o a)).
    { unfold passes_borrowck. cbn [arstep]. destruct (target_of o) as [i|].
      - rewrite (borrowed_eq c refs l i Ir), (borrowed_mut_eq c refs l i Ir).
        destruct (by_shared_ref o), (some_mut_ref l i), (some_ref l i); try contradiction; (split; [reflexivity|]);
          intros fail; (split; [intros H; specialize (Hn fail); rewrite H in Hn; contradiction|reflexivity]).
      - split; [reflexivity|]. intros fail. split; [intros H; specialize (Hn fail); rewrite H in Hn; contradiction|reflexivity]. }
    destruct Hok as [Hp Ha].
    destruct (step_sim E HE s0 s c a o Iv Hc (proj1 (Ha false))) as (fail & m & x & a' & c' & s' & H1 & H2 & H3 & H4 & H5 & ->).
    assert (Lv : Forall2 (ref_rel c') refs l).
    { eapply refs_keep; [exact Ir|]. intros n r z G Hz. eapply step_leaves; [exact H2|exact H3|exact Hz|].
      unfold passes_borrowck in Hp. destruct (target_of o) as [i|]; [|left; discriminate].
      destruct (by_shared_ref o); [right; reflexivity|left]. apply negb_true_iff in Hp. intros K. injection K as ->.
      exact (not_borrowed refs (r_var r) n r Hp G eq_refl). }
    exists (bind m (fun r => ret (fst r, (snd r, refs)))), x, a', l, c', refs, s'.
    split; [rewrite (proj2 (Ha _)), H1; reflexivity|]. split; [cbn [rstep]; rewrite Hp, H2; reflexivity|].
    split; [|split; [constructor; assumption|exact H5]].
    unfold rdoes, bind. destruct H3 as [->|(p & -> & -> & ->)]; [left; reflexivity|right; exists p; auto].
  - (* Borrow *)
    destruct (is_abox a i) eqn:Hb; [|contradiction]. destruct (some_mut_ref l i) eqn:Hm; [contradiction|].
    unfold is_abox in Hb. destruct (nth_error (cells a) i) as [y|] eqn:Hy; [|discriminate].
    destruct y as [U id v d|?|?|?|]; try discriminate. destruct (inv_get E s0 s c a i _ Iv Hy) as (x & Hx & R).
    destruct x as [U' w|?|?|?|]; cbn [rel] in R; try contradiction. destruct R as (-> & Rd & Rh).
    do 7 eexists. cbn [arstep rstep]. unfold is_abox. rewrite Hy, Hm, Hx, (borrowed_mut_eq c refs l i Ir), Hm. cbn [andb negb].
    split; [reflexivity|]. split; [reflexivity|].
    split; [left; unfold bind; rewrite as_ref_eq, (hm_read _ _ _ _ _ Rh); reflexivity|]. split; [|apply tracks_refl; reflexivity].
    constructor; [exact Iv| |].
    + apply refs_add; [exact Ir|]. cbn [ref_rel r_var r_mut r_ty r_addr]. split; [reflexivity|]. split; [reflexivity|]. exists w. auto.
    + intros n m r q N G1 G2 M. apply get_add in G1 as [G1|[-> ->]]; [|discriminate M].
      apply get_add in G2 as [G2|[-> ->]]; [eapply Ie; eassumption|]. cbn [r_var].
      apply (not_borrowed_mut refs i n r); [rewrite (borrowed_mut_eq c refs l i Ir); exact Hm|exact G1|exact M].
  - (* BorrowMut *)
    destruct (is_abox a i) eqn:Hb; [|contradiction]. destruct (some_ref l i) eqn:Hm; [contradiction|].
    unfold is_abox in Hb. destruct (nth_error (cells a) i) as [y|] eqn:Hy; [|discriminate].
    destruct y as [U id v d|?|?|?|]; try discriminate. destruct (inv_get E s0 s c a i _ Iv Hy) as (x & Hx & R).
    destruct x as [U' w|?|?|?|]; cbn [rel] in R; try contradiction. destruct R as (-> & Rd & Rh).
    pose proof (borrowed_eq c refs l i Ir) as Be. rewrite Hm in Be.
    do 7 eexists. cbn [arstep rstep]. unfold is_abox. rewrite Hy, Hm, Hx, Be. cbn [andb negb].
    split; [reflexivity|]. split; [reflexivity|].
    split; [left; unfold bind; change (tp_mut_ref_addr (tgt E) w) with (tp_as_ptr (tgt E) w); rewrite (hm_read _ _ _ _ _ Rh); reflexivity|].
    split; [|apply tracks_refl; reflexivity].
    constructor; [exact Iv| |].
    + apply refs_add; [exact Ir|]. cbn [ref_rel r_var r_mut r_ty r_addr]. split; [reflexivity|]. split; [reflexivity|]. exists w. auto.
    + intros n m r q N G1 G2 M. apply get_add in G1 as [G1|[-> ->]].
      * apply get_add in G2 as [G2|[-> ->]]; [eapply Ie; eassumption|]. cbn [r_var]. exact (not_borrowed refs i n r Be G1).
      * apply get_add in G2 as [G2|[-> _]]; [|contradiction]. cbn [r_var]. intros K. symmetry in K. revert K. exact (not_borrowed refs i m q Be G2).
  - (* Look *)
    destruct (aget l r) as [[i mt]|] eqn:G; [|contradiction].
    destruct (ref_home s0 s c refs a l r i mt I G) as (U & w & v & id & d & Gr & Hc' & Hy & Hd & Hh).
    do 7 eexists. cbn [arstep rstep astep]. rewrite G, Gr, Hy. cbn [option_map fst snd].
    split; [reflexivity|]. split; [reflexivity|].
    split; [left; unfold bind; rewrite (hm_read _ _ _ _ _ Hh); reflexivity|]. split; [exact I|apply tracks_refl; reflexivity].
  - (* Update *)
    destruct (aget l r) as [[i mt]|] eqn:G; [|contradiction]. destruct mt; [|contradiction].
    destruct (ref_home s0 s c refs a l r i true I G) as (U & w & v & id & d & Gr & Hc' & Hy & Hd & Hh).
    pose proof (read_at_inv _ _ _ _ _ (hm_read _ _ _ _ _ Hh)) as (_ & Ca & _).
    cbn [contract] in Hc. rewrite Hy in Hc.
    do 7 eexists. cbn [arstep rstep astep]. rewrite G, Gr, Hy. cbn [option_map fst snd].
    split; [reflexivity|]. split; [reflexivity|].
    split; [left; unfold bind; rewrite (hm_read _ _ _ _ _ Hh), write_at_eq by exact Ca; reflexivity|].
    split; [constructor; [|exact Ir|exact Ie]; eapply box_write; try eassumption; reflexivity|].
    split; [|cbn; lia]. exists []. cbn. rewrite !app_nil_r. split; reflexivity.
  - (* Overwrite *)
    destruct (aget l r) as [[i mt]|] eqn:G; [|contradiction]. destruct mt; [|contradiction].
    destruct (ref_home s0 s c refs a l r i true I G) as (U & w & v & id & d & Gr & Hc' & Hy & Hd & Hh).
    cbn [contract] in Hc. rewrite Hy in Hc.
    do 7 eexists. cbn [arstep rstep astep]. rewrite G, Gr, Hy. cbn [option_map fst snd].
    split; [reflexivity|]. split; [reflexivity|].
    split; [left; unfold bind; rewrite (assign_eq _ _ _ _ _ _ Hh); reflexivity|].
    split; [constructor; [|exact Ir|exact Ie]; eapply box_write; try eassumption; reflexivity|].
    split; [|cbn; lia]. eexists. split; [reflexivity|]. cbn [events dropped].
    rewrite destroyed_app, destroyed_drop. cbn. rewrite app_nil_r. reflexivity.
  - (* Replace *)
    destruct (aget l r) as [[i mt]|] eqn:G; [|contradiction]. destruct mt; [|contradiction].
    destruct (ref_home s0 s c refs a l r i true I G) as (U & w & v & id & d & Gr & Hc' & Hy & Hd & Hh).
    pose proof (read_at_inv _ _ _ _ _ (hm_read _ _ _ _ _ Hh)) as (_ & Ca & _).
    cbn [contract] in Hc. rewrite Hy in Hc.
    do 7 eexists. cbn [arstep rstep]. rewrite G, Gr, Hy.
    split; [reflexivity|]. split; [reflexivity|].
    split; [left; unfold bind; rewrite (hm_read _ _ _ _ _ Hh), write_at_eq by exact Ca; reflexivity|].
    split; [|split; [|cbn; lia]; exists []; cbn; rewrite !app_nil_r; split; reflexivity].
    constructor; [| |exact Ie].
    + eapply (inv_add E s0 (St (write_mem U (tp_as_ptr (tgt E) w) val (bytes s)) (blocks s) (events s)) _ c
        (AState (put i (ABox U (next a) val d) (cells a)) (next a) (dead a) (made a) (freed a)));
        [eapply (box_write s0 s c a i U w v id d val (next a)); try eassumption; reflexivity| | | |].
      * reflexivity.
      * cbn [rel]. split; reflexivity.
      * apply keeps_refl.
      * intros b _. exact Logic.I.
    + eapply refs_keep; [exact Ir|]. intros n z y _ Hz. rewrite nth_error_app1; [exact Hz|eapply nth_some_lt; eassumption].
  - (* Swap *)
    destruct (Nat.eqb_spec r q) as [|Nq]; [contradiction|].
    destruct (aget l r) as [[i mt]|] eqn:G; [|contradiction]. destruct mt; [|contradiction].
    destruct (aget l q) as [[j mt]|] eqn:G'; [|contradiction]. destruct mt; [|contradiction].
    destruct (ref_home s0 s c refs a l r i true I G) as (U & w & v & id & d & Gr & Hi & Hy & Hd & Hh).
    destruct (ref_home s0 s c refs a l q j true I G') as (U' & w' & v' & id' & d' & Gq & Hj & Hy' & Hd' & Hh').
    assert (Nij : i <> j) by exact (Ie r q _ _ Nq Gr Gq eq_refl).
    rewrite Hy, Hy' in Hc. subst U'.
    set (p := tp_as_ptr (tgt E) w) in *. set (p' := tp_as_ptr (tgt E) w') in *.
    pose proof (read_at_inv _ _ _ _ _ (hm_read _ _ _ _ _ Hh)) as (_ & Ca & Rv).
    pose proof (read_at_inv _ _ _ _ _ (hm_read _ _ _ _ _ Hh')) as (_ & Ca' & Rv').
    set (s1 := St (write_mem U p v' (bytes s)) (blocks s) (events s)).
    assert (Ca1 : can_access s1 U p') by exact Ca'.
    assert (V : hval_ok U v) by exact (read_at_types _ _ _ _ _ (hm_read _ _ _ _ _ Hh)).
    assert (V' : hval_ok U v') by exact (read_at_types _ _ _ _ _ (hm_read _ _ _ _ _ Hh')).
    set (a1 := set i (ABox U id' v' d) a).
    assert (I1 : inv E s0 s1 c a1) by (eapply (box_write s0 s c a i U w v id d v' id'); try eassumption; reflexivity).
    assert (Hy1 : nth_error (cells a1) j = Some (ABox U id' v' d')) by (cbn [a1 set cells]; rewrite put_other by exact Nij; exact Hy').
    assert (Hh1 : home E s1 U p' v').
    { pose proof (iv_rel _ _ _ _ _ I1 j _ _ Hj Hy1) as K. cbn [rel] in K. apply K. }
    do 7 eexists. cbn [arstep rstep]. rewrite (proj2 (Nat.eqb_neq r q) Nq), G, G', Gr, Gq, Hy, Hy'.
    split; [reflexivity|]. split; [reflexivity|].
    split; [left; unfold bind; rewrite (hm_read _ _ _ _ _ Hh), (hm_read _ _ _ _ _ Hh'), write_at_eq by exact Ca; fold s1;
      rewrite write_at_eq by exact Ca1; reflexivity|].
    split; [|split; [|cbn; lia]; exists []; cbn; rewrite !app_nil_r; split; reflexivity].
    constructor; [|exact Ir|exact Ie]. eapply (box_write s0 s1 c a1 j U w' v' id' d' v id); try eassumption. reflexivity.
  - (* EndRef *)
    destruct (aget l r) as [[i mt]|] eqn:G; [|contradiction].
    destruct (ref_home s0 s c refs a l r i mt I G) as (U & w & v & id & d & Gr & _).
    do 7 eexists. cbn [arstep rstep]. rewrite G, Gr.
    split; [reflexivity|]. split; [reflexivity|]. split; [left; reflexivity|]. split; [|apply tracks_refl; reflexivity].
    constructor; [exact Iv|apply refs_end; exact Ir|]. intros n m x y N G1 G2. apply get_end in G1, G2. eapply Ie; eassumption.
Qed.

Lemma rrun_sim : forall p c refs s0 s a l, rinv s0 s c refs a l -> rfollows E p a l ->
  exists c' refs' s', let r := rarun p (rshortages E p c refs s) a l in
    rrun E p c refs s = (fst r, RFinished c' refs' s') /\ rinv s0 s' c' refs' (fst (snd r)) (snd (snd r)) /\ tracks E s a s' (fst (snd r)).
Proof.
  intros p. induction p as [|o k IH]; intros c refs s0 s a l I F; cbn [rfollows] in F.
  - exists c, refs, s. cbn [rarun rrun fst snd]. split; [reflexivity|]. split; [exact I|]. apply tracks_refl; reflexivity.
  - destruct F as [Hc Hf].
    destruct (rstep_sim s0 s c refs a l o I Hc) as (m & x & a' & l' & c' & refs' & s' & H1 & H2 & H3 & H4 & H5).
    { intros fail K. specialize (Hf fail). rewrite K in Hf. exact Hf. }
    specialize (Hf (match o with Call o => starved E o s | _ => false end)). rewrite H1 in Hf.
    destruct (IH x c' refs' s0 s' a' l' H4 Hf) as (c2 & refs2 & s2 & R1 & R2 & R3).
    exists c2, refs2, s2. cbn [rarun rshortages hd tl rrun]. rewrite H1, H2.
    assert (G : match m s with
                | Ok (x, (c', refs')) s' => rshortages E (k x) c' refs' s'
                | Panicked q s' => rshortages E (k (SawPanic q)) (rafter_panic o c) refs s'
                | UB _ => [] end = rshortages E (k x) c' refs' s')
      by (destruct H3 as [->|(q & -> & -> & -> & ->)]; reflexivity).
    rewrite G. destruct (rarun (k x) (rshortages E (k x) c' refs' s') a' l') as [q e]. cbn [fst snd] in *.
    split; [|split; [exact R2|]].
    + destruct H3 as [->|(z & -> & -> & -> & ->)]; rewrite R1; reflexivity.
    + destruct H5 as [(l1 & D1 & D2) B1], R3 as [(l2 & D3 & D4) B2]. split; [|lia].
      exists (l1 ++ l2). rewrite D3, D1, D4, D2, dead_destructors_app, !app_assoc. auto.
Qed.

Lemma rinv0 s : rinv s s [] [] a0 [].
Proof.
  constructor; [|constructor|intros [] m r q _ G; discriminate].
  constructor; [reflexivity| | | |apply keeps_refl]; intros i; [intros x y H|intros j x y _ H|intros x b H]; destruct i; discriminate.
Qed.

End Sim.

(** ** Programs with references *)

(** No undefined behaviour; the program sees exactly what it sees on plain variables, with an out-of-memory panic
    exactly where the allocator has no memory; destructors and blocks as there; memory live before is untouched. *)
Theorem C61_history : forall E p s, env_ok E -> rfollows E p a0 [] ->
  exists c refs s', let '(seen, (a, l)) := rarun p (rshortages E p [] [] s) a0 [] in
    rrun E p [] [] s = (seen, RFinished c refs s') /\ keeps s s' /\
    destroyed (events s') = destroyed (events s) ++ dead_destructors (dead a) /\
    (List.length (blocks s') + freed a = List.length (blocks s) + made a)%nat.
Proof.
  intros E p s HE F. destruct (rrun_sim E HE p [] [] s s a0 [] (rinv0 E s) F) as (c & refs & s' & R1 & R2 & [(l & D1 & D2) B]).
  exists c, refs, s'. destruct (rarun p (rshortages E p [] [] s) a0 []) as [seen [a l']]. cbn [fst snd] in *. cbn in D1, B. subst l.
  split; [exact R1|]. split; [exact (iv_base _ _ _ _ _ (ri_inv _ _ _ _ _ _ _ R2))|]. split; [exact D2|]. lia.
Qed.

(** At the end of any such program (so at any moment of any program: one that stops there is a program, too) every
    reference still in use is usable and its variable still holds a box of its type, a mutable one overlaps no other, and no
    other variable leads to the bytes behind it. *)
Theorem C61_exclusive : forall E p s seen c refs s', env_ok E -> rfollows E p a0 [] ->
  rrun E p [] [] s = (seen, RFinished c refs s') ->
  (forall n r, get_ref refs n = Some r -> usable r s' /\ exists w, nth_error c (r_var r) = Some (CBox (r_ty r) w)) /\
  exclusive refs /\ own_memory E c refs.
Proof.
  intros E p s seen c refs s' HE F R.
  destruct (rrun_sim E HE p [] [] s s a0 [] (rinv0 E s) F) as (c2 & refs2 & s2 & R1 & R2 & _).
  rewrite R in R1. injection R1 as _ <- <- <-. destruct R2 as [I Rf Ex].
  set (a := fst (snd (rarun p (rshortages E p [] [] s) a0 []))) in *.
  set (l := snd (snd (rarun p (rshortages E p [] [] s) a0 []))) in *.
  assert (G : forall n r, get_ref refs n = Some r -> exists w v, nth_error c (r_var r) = Some (CBox (r_ty r) w) /\
    r_addr r = tp_as_ptr (tgt E) w /\ read_at (r_ty r) (r_addr r) s' = Ok v s').
  { intros n r Gr. pose proof (refs_get E c refs l n Rf) as K. rewrite Gr in K. destruct (aget l n) as [[i m]|] eqn:Ga; [|destruct K].
    destruct (ref_home E s s' c refs a l n i m (Build_rinv _ _ _ _ _ _ _ I Rf Ex) Ga) as (U & w & v & id & d & G1 & G2 & G3 & _ & Hh).
    rewrite Gr in G1. injection G1 as ->. exists w, v. cbn [r_var r_ty r_addr]. split; [exact G2|]. split; [reflexivity|].
    exact (hm_read _ _ _ _ _ Hh). }
  assert (P : forall i j x y z, i <> j -> nth_error c i = Some x -> nth_error c j = Some y -> leads_to E x z -> ~ leads_to E y z).
  { intros i j x y z N Hx Hy L1 L2. pose proof (iv_apart _ _ _ _ _ I i j x y N Hx Hy) as K.
    destruct x, y; cbn [leads_to] in L1, L2; try contradiction; cbn [place] in K;
      repeat match type of K with context [h_size ?U =? 0] => destruct (N.eqb_spec (h_size U) 0); [lia|] end; cbn [clear_of] in K; lia. }
  split; [|split].
  - intros n r Gr. destruct (G n r Gr) as (w & v & G1 & _ & G3). split; [exists v; exact G3|exists w; exact G1].
  - intros n m r q x N Gr Gq M B1 B2. destruct (G n r Gr) as (w & v & G1 & G2 & _), (G m q Gq) as (w' & v' & G1' & G2' & _).
    unfold behind in B1, B2. rewrite G2 in B1. rewrite G2' in B2.
    exact (P _ _ _ _ x (Ex n m r q N Gr Gq M) G1 G1' B1 B2).
  - intros n r j x b Gr N Hb B. destruct (G n r Gr) as (w & v & G1 & G2 & _). unfold behind in B. rewrite G2 in B.
    exact (P _ _ _ _ x (not_eq_sym N) G1 Hb B).
Qed.

(** What the derived [Copy] breaks, for every box made with [new]: two mutable references to the same bytes pass the borrow
    checker. *)
Theorem C61_copies_alias : forall (E : env) (U : hty) (val : hval) (d : N) (s : st) (w : tagged_ptr) (s1 : st),
  env_ok E -> layout_legal U -> hval_ok U val -> d <= max_discriminant (cfg (tgt E)) -> h_size U <> 0 ->
  tb_new E U val d s = Ok w s1 ->
  exists refs, rrun E (RDo (BorrowMut 0) (fun _ => RDo (BorrowMut 1) (fun _ => RStop))) [CBox U w; CBox U (tb_copy w)] [] s1 =
    ([SawNothing; SawNothing], RFinished [CBox U w; CBox U (tb_copy w)] refs s1) /\ ~ exclusive refs.
Proof.
  intros E U val d s w s1 HE L V D Z Hn.
  pose proof (C15_into_inner E U val d s w s1 s1 HE L V D Hn (keeps_refl s1)) as R.
  change (tb_into_inner E U w) with (read_at U (tp_as_ptr (tgt E) w)) in R.
  eexists. split.
  - unfold tb_copy. cbn [rrun rstep nth_error borrowed existsb orb app]. unfold bind.
    change (tp_mut_ref_addr (tgt E) w) with (tp_as_ptr (tgt E) w). rewrite R. cbn [rrun rstep nth_error r_var Nat.eqb borrowed existsb orb app ret].
    unfold bind. change (tp_mut_ref_addr (tgt E) w) with (tp_as_ptr (tgt E) w). rewrite R. reflexivity.
  - intros X. apply (X 0%nat 1%nat _ _ (tp_as_ptr (tgt E) w) (Nat.neq_succ_diag_r 0) eq_refl eq_refl eq_refl);
      unfold behind; cbn [r_addr r_ty]; lia.
Qed.

(** And a reference outlives the value behind it: dropping the [Box] made of the copy is allowed, the next look is at freed memory. *)
Theorem C61_copies_dangle : forall (E : env) (U : hty) (val : hval) (d : N) (s : st) (w : tagged_ptr) (s1 : st),
  env_ok E -> layout_legal U -> hval_ok U val -> d <= max_discriminant (cfg (tgt E)) -> h_size U <> 0 ->
  tb_new E U val d s = Ok w s1 ->
  rrun E (RDo (Borrow 0) (fun _ => RDo (Call (IntoBox 1)) (fun _ => RDo (Call (RustDrop 1)) (fun _ => RDo (Look 0) (fun _ => RStop)))))
    [CBox U w; CBox U (tb_copy w)] [] s1 = ([SawNothing; SawNothing; SawNothing], RUndefined UbOutOfBlock).
Proof.
  intros E U val d s w s1 HE L V D Z Hn.
  pose proof (C15_into_inner E U val d s w s1 s1 HE L V D Hn (keeps_refl s1)) as R.
  change (tb_into_inner E U w) with (read_at U (tp_as_ptr (tgt E) w)) in R.
  destruct (C39_double_free E U val d s w s1 HE L V Z D Hn) as (s2 & F1 & _ & F2 & _).
  unfold tb_copy in *. change (tb_as_ref E U w) with (read_at U (tp_as_ptr (tgt E) w)) in F2.
  cbn [rrun rstep nth_error borrowed_mut existsb orb app]. unfold bind. change (tb_as_ref E U w) with (read_at U (tp_as_ptr (tgt E) w)). rewrite R.
  cbn [rrun rstep passes_borrowck target_of by_shared_ref borrowed existsb r_var Nat.eqb orb negb step nth_error option_map].
  unfold bind. cbn [ret fst snd put rrun rstep passes_borrowck target_of by_shared_ref borrowed existsb r_var Nat.eqb orb negb step nth_error option_map].
  unfold bind. rewrite F1.
  cbn [ret fst snd put rrun rstep get_ref nth_error].
  unfold bind. change (tp_ref_addr (tgt E) w) with (tp_as_ptr (tgt E) w). rewrite F2. reflexivity.
Qed.

(** *** Every value is destroyed at most once *)

Definition apart (l : arefs) : Prop := forall n m i j b, n <> m -> aget l n = Some (i, true) -> aget l m = Some (j, b) -> i <> j.

Lemma aget_add l x n y : aget (l ++ [Some x]) n = Some y -> aget l n = Some y \/ (n = List.length l /\ y = x).
Proof.
  unfold aget. destruct (Nat.lt_ge_cases n (List.length l)) as [L|L].
  - rewrite nth_error_app1 by exact L. auto.
  - rewrite nth_error_app2 by exact L. destruct (n - List.length l)%nat as [|k] eqn:K; [|destruct k; discriminate].
    cbn. intros H. injection H as <-. right. split; [lia|reflexivity].
Qed.

Lemma aget_end l r n x : aget (put r None l) n = Some x -> aget l n = Some x.
Proof.
  unfold aget. revert r n. induction l as [|y l IH]; intros [|r] [|n]; cbn; try (apply IH); auto; intros H; discriminate H.
Qed.

Lemma some_ref_get l i n j b : aget l n = Some (j, b) -> some_ref l i = false -> j <> i.
Proof.
  intros G F ->. assert (T : some_ref l i = true); [|congruence]. apply existsb_exists. exists (Some (i, b)).
  split; [|apply Nat.eqb_refl]. unfold aget in G. destruct (nth_error l n) eqn:H; [|discriminate G]. subst. eapply nth_error_In; eassumption.
Qed.

Lemma some_mut_ref_get l i n j : aget l n = Some (j, true) -> some_mut_ref l i = false -> j <> i.
Proof.
  intros G F ->. assert (T : some_mut_ref l i = true); [|congruence]. apply existsb_exists. exists (Some (i, true)).
  split; [|rewrite Nat.eqb_refl; reflexivity]. unfold aget in G. destruct (nth_error l n) eqn:H; [|discriminate G]. subst. eapply nth_error_In; eassumption.
Qed.

Lemma still_inv (r : option (obs * astate)) (l : arefs) x a' l' :
  option_map (fun r : obs * astate => (fst r, (snd r, l))) r = Some (x, (a', l')) -> r = Some (x, a') /\ l' = l.
Proof. destruct r as [[y b]|]; cbn; intros H; [|discriminate H]. injection H as <- <- <-. auto. Qed.

Lemma rcounted_step E fail o a l x a' l' : counted a -> apart l -> rcontract E a l o ->
  arstep fail o a l = Some (x, (a', l')) -> counted a' /\ apart l'.
Proof.
  intros C A K H. destruct o as [o|i|i|r|r f|r val|r val|r q|r]; cbn [arstep] in H.
  - assert (S : option_map (fun r : obs * astate => (fst r, (snd r, l))) (astep fail o a) = Some (x, (a', l'))).
    { destruct (target_of o); [|exact H]. destruct (if by_shared_ref o then _ else _); [discriminate H|exact H]. }
    apply still_inv in S as [S ->]. split; [exact (counted_step _ _ _ _ _ C S)|exact A].
  - destruct (is_abox a i); [|discriminate H]. destruct (some_mut_ref l i) eqn:F; [discriminate H|]. injection H as _ <- <-.
    split; [exact C|]. intros n m j k b N G1 G2. apply aget_add in G1 as [G1|[_ G1]]; [|discriminate G1].
    apply aget_add in G2 as [G2|[_ G2]]; [eapply A; eassumption|]. injection G2 as -> _. eapply some_mut_ref_get; eassumption.
  - destruct (is_abox a i); [|discriminate H]. destruct (some_ref l i) eqn:F; [discriminate H|]. injection H as _ <- <-.
    split; [exact C|]. intros n m j k b N G1 G2. apply aget_add in G1 as [G1|[L1 G1]].
    + apply aget_add in G2 as [G2|[_ G2]]; [eapply A; eassumption|]. injection G2 as -> _. eapply some_ref_get; eassumption.
    + apply aget_add in G2 as [G2|[L2 _]]; [|congruence]. injection G1 as ->. intros ->. exact (some_ref_get l k m k b G2 F eq_refl).
  - destruct (aget l r) as [[i b]|]; [|discriminate H]. apply still_inv in H as [S ->]. split; [exact (counted_step _ _ _ _ _ C S)|exact A].
  - destruct (aget l r) as [[i []]|]; try discriminate H. apply still_inv in H as [S ->]. split; [exact (counted_step _ _ _ _ _ C S)|exact A].
  - destruct (aget l r) as [[i []]|]; try discriminate H. apply still_inv in H as [S ->]. split; [exact (counted_step _ _ _ _ _ C S)|exact A].
  - destruct (aget l r) as [[i []]|]; try discriminate H. destruct (nth_error (cells a) i) as [[U id v d|?|?|?|]|] eqn:Hy; try discriminate H.
    injection H as _ <- <-. split; [|exact A]. intros n. specialize (C n). unfold live_ids in *. cbn [cells dead next].
    pose proof (live_put n (ABox U (next a) val d) _ _ _ Hy) as P. cbn [cell_id] in P.
    pose proof (occ_new n (next a) (h_size U =? 0)) as B. unfold occ at 1. rewrite flat_map_app, count_occ_app. cbn [flat_map cell_id].
    rewrite app_nil_r. fold (occ n (flat_map cell_id (put i (ABox U (next a) val d) (cells a)))).
    fold (occ n (if h_size U =? 0 then [] else [id])). lia.
  - destruct (Nat.eqb_spec r q) as [|N]; [discriminate H|]. cbn [rcontract] in K.
    destruct (aget l r) as [[i []]|] eqn:G; try discriminate H. destruct (aget l q) as [[j []]|] eqn:G'; try discriminate H.
    destruct (nth_error (cells a) i) as [[U id v d|?|?|?|]|] eqn:Hy; try discriminate H.
    destruct (nth_error (cells a) j) as [[U' id' v' d'|?|?|?|]|] eqn:Hy'; try discriminate H. subst U'.
    injection H as _ <- <-. split; [|exact A]. intros n. specialize (C n). unfold live_ids in *. cbn [set cells dead next].
    assert (Hj : nth_error (put i (ABox U id' v' d) (cells a)) j = Some (ABox U id' v' d'))
      by (rewrite put_other by exact (A r q i j true N G G'); exact Hy').
    pose proof (live_put n (ABox U id v d') _ _ _ Hj) as P. pose proof (live_put n (ABox U id' v' d) _ _ _ Hy) as P'. cbn [cell_id] in P, P'. lia.
  - destruct (aget l r); [|discriminate H]. injection H as _ <- <-. split; [exact C|].
    intros n m i j b N G1 G2. apply aget_end in G1, G2. eapply A; eassumption.
Qed.

Lemma rarun_once : forall E p fails, rfollows E p a0 [] -> let a := fst (snd (rarun p fails a0 [])) in
  NoDup (live_ids a ++ dead_ids (dead a)).
Proof.
  intros E.
  assert (K : forall p fails a l, counted a -> apart l -> rfollows E p a l -> counted (fst (snd (rarun p fails a l)))).
  { induction p as [|o k IH]; intros fails a l C A F; cbn [rarun]; [exact C|]. destruct F as [Hc Hf]. specialize (Hf (hd false fails)).
    destruct (arstep (hd false fails) o a l) as [[x [a' l']]|] eqn:S; [|destruct Hf].
    destruct (rcounted_step _ _ _ _ _ _ _ _ C A Hc S) as [C' A']. specialize (IH x (tl fails) a' l' C' A' Hf).
    destruct (rarun (k x) (tl fails) a' l') as [q e]. exact IH. }
  intros p fails F a. apply (NoDup_count_occ Nat.eq_dec). intros n.
  assert (C : counted a).
  { apply K; [intros m; cbn; destruct (m <? 0)%nat; lia|intros [] m i j b _ G; discriminate G|exact F]. }
  specialize (C n). unfold occ in C. rewrite count_occ_app. destruct (n <? next a)%nat; lia.
Qed.

(** Every value has a number from when it was made. The destructors that ran are those of certain values; none of these that takes up
    memory was destroyed twice, and none is still held in a variable, however values were swapped and replaced through references. *)
Theorem C61_once : forall E p s, env_ok E -> rfollows E p a0 [] ->
  exists c refs s', let '(seen, (a, l)) := rarun p (rshortages E p [] [] s) a0 [] in
    rrun E p [] [] s = (seen, RFinished c refs s') /\ Forall2 (shows E s') c (cells a) /\
    destroyed (events s') = destroyed (events s) ++ dead_destructors (dead a) /\
    NoDup (live_ids a ++ dead_ids (dead a)).
Proof.
  intros E p s HE F. destruct (rrun_sim E HE p [] [] s s a0 [] (rinv0 E s) F) as (c & refs & s' & R1 & R2 & [(l & D1 & D2) B]).
  pose proof (rarun_once E p (rshortages E p [] [] s) F) as N.
  exists c, refs, s'. destruct (rarun p (rshortages E p [] [] s) a0 []) as [seen [a l']]. cbn [fst snd] in *. cbn in D1, B. subst l.
  split; [exact R1|]. split; [exact (inv_shows _ _ _ _ _ (ri_inv _ _ _ _ _ _ _ R2))|]. split; [exact D2|exact N].
Qed.

(** ** Examples *)

Definition rgo (l : list rop) : rprog := fold_right (fun o p => RDo o (fun _ => p)) RStop l.

(** Two boxes, both borrowed mutably at once; their values are swapped, one is replaced (the old value goes to a variable and is dropped)
    and one overwritten; then one reference ends, and its box is read and borrowed twice while the other is still borrowed mutably. *)
Definition refs_ops : list rop :=
  [BorrowMut 0; BorrowMut 1; Swap 0 1; Look 0; Replace 0 v_u32; Call (DropValue 2); Overwrite 1 [le_bytes 4 5]; Look 1; EndRef 0;
   Call (Read 0); Call (Tag 0); Borrow 0; Borrow 0; Look 2; Call (Read 0); Look 3; Look 1].

(** The client stops when an allocation fails. *)
Definition refs_prog : rprog :=
  RDo (Call (NewBox false U_u32 v_u32 3)) (fun x => match x with SawPanic _ => RStop | _ =>
    RDo (Call (NewBox true U_u32 [le_bytes 4 8] 4)) (fun x => match x with SawPanic _ => RStop | _ => rgo refs_ops end) end).

Definition refs_seen : list obs :=
  [SawNothing; SawNothing; SawNothing; SawNothing; SawNothing; SawValue [le_bytes 4 8]; SawNothing; SawNothing; SawNothing;
   SawValue [le_bytes 4 5]; SawNothing; SawValue v_u32; SawTag 3; SawNothing; SawNothing; SawValue v_u32; SawValue v_u32; SawValue v_u32;
   SawValue [le_bytes 4 5]].

Lemma refs_follow : env_ok (bump_env dbg60) /\ rfollows (bump_env dbg60) refs_prog a0 [].
Proof.
  split; [apply bump_env_ok, example_targets_ok|].
  destruct example_values_ok as (L1 & V1 & _).
  assert (V2 : hval_ok U_u32 [le_bytes 4 8]) by (repeat constructor).
  assert (V3 : hval_ok U_u32 [le_bytes 4 5]) by (repeat constructor).
  assert (M : forall d, d <= 15 -> d <= max_discriminant (cfg (tgt (bump_env dbg60)))).
  { intros d H. vm_compute max_discriminant. exact H. }
  split; [split; [exact L1|]; split; [exact V1|]; apply M; discriminate|].
  intros []; [exact Logic.I|]. cbn. 
  split; [split; [exact L1|]; split; [exact V2|]; apply M; discriminate|].
  intros []; [exact Logic.I|]. cbn.
  repeat (split; [first [exact Logic.I|reflexivity|exact V1|exact V3]|intros _; cbn]). exact Logic.I.
Qed.

Example C61_history_example : exists c refs s, rrun (bump_env dbg60) refs_prog [] [] st0 = (refs_seen, RFinished c refs s) /\
  List.length (blocks s) = 2%nat.
Proof.
  destruct refs_follow as [HE F]. destruct (C61_history _ _ st0 HE F) as (c & refs & s & H). exists c, refs, s.
  replace (rarun refs_prog (rshortages (bump_env dbg60) refs_prog [] [] st0) a0 []) with (rarun refs_prog [] a0 []) in H by (vm_compute; reflexivity).
  set (r := rarun refs_prog [] a0 []) in H.
  assert (A1 : fst r = refs_seen) by (vm_compute; reflexivity).
  assert (A2 : made (fst (snd r)) = 2%nat /\ freed (fst (snd r)) = 0%nat) by (vm_compute; auto).
  destruct r as [seen [a l]]. cbn [fst snd] in A1, A2. destruct H as (R & _ & _ & B). destruct A2 as [A2 A3]. rewrite A2, A3 in B.
  split; [rewrite R, A1; reflexivity|]. cbn in B. lia.
Qed.

(** In the middle of it: two mutable references. *)
Example C61_exclusive_example : exists c refs s r q, rrun (bump_env dbg60)
    (RDo (Call (NewBox false U_u32 v_u32 3)) (fun x => match x with SawPanic _ => RStop | _ =>
     RDo (Call (NewBox true U_u32 [le_bytes 4 8] 4)) (fun x => match x with SawPanic _ => RStop | _ => rgo [BorrowMut 0; BorrowMut 1] end) end)) [] [] st0
    = ([SawNothing; SawNothing; SawNothing; SawNothing], RFinished c refs s) /\
  get_ref refs 0 = Some r /\ get_ref refs 1 = Some q /\ r_mut r = true /\ r_addr r <> r_addr q /\ exclusive refs.
Proof.
  set (p := RDo _ _). assert (F : rfollows (bump_env dbg60) p a0 []).
  { destruct example_values_ok as (L1 & V1 & _).
    assert (V2 : hval_ok U_u32 [le_bytes 4 8]) by (repeat constructor).
    assert (M : forall d, d <= 15 -> d <= max_discriminant (cfg (tgt (bump_env dbg60)))).
    { intros d H. vm_compute max_discriminant. exact H. }
    split; [split; [exact L1|]; split; [exact V1|]; apply M; discriminate|].
    intros []; [exact Logic.I|]. cbn.
    split; [split; [exact L1|]; split; [exact V2|]; apply M; discriminate|].
    intros []; [exact Logic.I|]. cbn.
    repeat (split; [exact Logic.I|intros _; cbn]). exact Logic.I. }
  destruct (rrun (bump_env dbg60) p [] [] st0) as [seen e] eqn:R.
  destruct refs_follow as [HE _].
  assert (K : exists c refs s r q, e = RFinished c refs s /\ seen = [SawNothing; SawNothing; SawNothing; SawNothing] /\
    get_ref refs 0 = Some r /\ get_ref refs 1 = Some q /\ r_mut r = true /\ r_addr r <> r_addr q).
  { clear F. vm_compute in R. injection R as <- <-. do 5 eexists. split; [reflexivity|]. split; [reflexivity|]. split; [reflexivity|].
    split; [reflexivity|]. split; [reflexivity|]. discriminate. }
  destruct K as (c & refs & s & r & q & -> & -> & G1 & G2 & M & D). exists c, refs, s, r, q.
  destruct (C61_exclusive _ _ _ _ _ _ _ HE F R) as (_ & X & _). auto 10.
Qed.

Example C61_once_example : exists c refs s a, rrun (bump_env dbg60) refs_prog [] [] st0 = (refs_seen, RFinished c refs s) /\
  NoDup (live_ids a ++ dead_ids (dead a)) /\ List.length (live_ids a) = 2%nat /\ List.length (dead_ids (dead a)) = 2%nat /\
  Forall2 (shows (bump_env dbg60) s) c (cells a).
Proof.
  destruct refs_follow as [HE F]. destruct (C61_once _ _ st0 HE F) as (c & refs & s & H). exists c, refs, s.
  set (r := rarun refs_prog _ a0 []) in H. assert (A1 : fst r = refs_seen) by (vm_compute; reflexivity).
  assert (A2 : List.length (live_ids (fst (snd r))) = 2%nat) by (vm_compute; reflexivity).
  assert (A3 : List.length (dead_ids (dead (fst (snd r)))) = 2%nat) by (vm_compute; reflexivity).
  destruct r as [seen [a l]]. cbn [fst snd] in A1, A2, A3. destruct H as (R & Sh & _ & N). exists a. rewrite R, A1. auto.
Qed.

Example C61_copies_example : exists w s, tb_new (bump_env dbg60) U_u32 v_u32 3 st0 = Ok w s /\
  (exists refs, rrun (bump_env dbg60) (RDo (BorrowMut 0) (fun _ => RDo (BorrowMut 1) (fun _ => RStop))) [CBox U_u32 w; CBox U_u32 (tb_copy w)] [] s =
    ([SawNothing; SawNothing], RFinished [CBox U_u32 w; CBox U_u32 (tb_copy w)] refs s) /\ ~ exclusive refs) /\
  rrun (bump_env dbg60) (rgo [Borrow 0; Call (IntoBox 1); Call (RustDrop 1); Look 0]) [CBox U_u32 w; CBox U_u32 (tb_copy w)] [] s =
    ([SawNothing; SawNothing; SawNothing], RUndefined UbOutOfBlock).
Proof.
  destruct example_values_ok as (L1 & V1 & _). destruct (tb_new (bump_env dbg60) U_u32 v_u32 3 st0) as [w s| |] eqn:R; [|vm_compute in R; discriminate R..].
  assert (HE : env_ok (bump_env dbg60)) by (apply bump_env_ok, example_targets_ok).
  assert (D : 3 <= max_discriminant (cfg (tgt (bump_env dbg60)))) by (vm_compute; discriminate).
  assert (Z : h_size U_u32 <> 0) by discriminate.
  exists w, s. split; [reflexivity|].
  split; [exact (C61_copies_alias _ _ _ _ _ _ _ HE L1 V1 D Z R)|exact (C61_copies_dangle _ _ _ _ _ _ _ HE L1 V1 D Z R)].
Qed.

Print Assumptions C61_history.
Print Assumptions C61_exclusive.
Print Assumptions C61_once.
Print Assumptions C61_copies_alias.
Print Assumptions C61_copies_dangle.
