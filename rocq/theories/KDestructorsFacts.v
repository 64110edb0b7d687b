(** Proofs about programs of generated containers whose destructors do things: what the variables stand for survives them. *)
From Coq Require Import Arith NArith String Bool List Lia.
From Verif Require Import Words Config Spec ConfigFacts Pointer PointerFacts Fmt Mem SpecMem MemFacts Box BoxFacts
  Macro SpecMacro MacroFacts Session SpecSession SessionFacts Containers SpecContainers Props_Box Props_Macro Props_Clone Props_Containers
  DropPanics SpecDropPanics DropPanicsFacts KDropPanics SpecKDropPanics KDropPanicsFacts
  Destructors SpecDestructors DestructorsFacts KDestructors SpecKDestructors.
Import ListNotations.
Local Open Scope N_scope.

(** ** Drop glue *)

Section Glue.
Variable act : string -> leafval -> st -> st * bool.
Let fussy := panics act.

(** Whatever the destructors keep up, the glue does. *)
Lemma ke_glue (Q : st -> Prop) tys : forall vs u t, let l := destroyed (drop_events tys vs) in
  (forall n v t, In (n, v) l -> Q t -> Q (log (EvDrop n v) (fst (act n v t)))) -> Q t ->
  (exists t', Q t' /\ (lonely act -> destroyed (events t') = destroyed (events t) ++ l) /\
     ((e_drop_fields act tys vs u t = DOk tt t' /\ mellow fussy l) \/
      (u = false /\ exists n v, e_drop_fields act tys vs u t = DPanic (InDrop n v) t' /\ In (n, v) l /\ exists s1, fussy s1 n v = true))) \/
  (exists s2, e_drop_fields act tys vs u t = DAbort s2 /\ one_fussy fussy l /\ (u = true \/ (2 <= List.length l)%nat)).
Proof.
  induction tys as [|ty tys IH]; intros [|v vs] u t l P S; unfold l in *; clear l; cbn [drop_events e_drop_fields] in *;
    try (left; exists t; split; [exact S|]; split; [intros; cbn; rewrite app_nil_r; reflexivity|];
         left; split; [reflexivity|intros ? ? []]).
  unfold finally, e_drop_leaf. destruct (ty_drop ty) eqn:D.
  2:{ cbn [app] in *. unfold dbind. destruct (IH vs u t P S) as [(t' & S' & L & [[R M]|(-> & n & w & R & H)])|(s2 & R & H)]; rewrite R.
      - left. exists t'. split; [exact S'|]. split; [exact L|]. left. auto.
      - left. exists t'. split; [exact S'|]. split; [exact L|]. right. split; [reflexivity|]. exists n, w. auto.
      - right. exists s2. auto. }
  cbn [app destroyed] in *.
  set (t1 := log (EvDrop (ty_name ty) v) (fst (act (ty_name ty) v t))).
  assert (S1 : Q t1) by (apply P; [left; reflexivity|exact S]).
  assert (L1 : lonely act -> destroyed (events t1) = destroyed (events t) ++ [(ty_name ty, v)]).
  { intros L. unfold t1. cbn [log events]. rewrite destroyed_app, L. reflexivity. }
  assert (P1 : forall n v t, In (n, v) (destroyed (drop_events tys vs)) -> Q t -> Q (log (EvDrop n v) (fst (act n v t))))
    by (intros n w t2 Hn; apply P; right; exact Hn).
  assert (J : forall t', (lonely act -> destroyed (events t') = destroyed (events t1) ++ destroyed (drop_events tys vs)) ->
    lonely act -> destroyed (events t') = destroyed (events t) ++ (ty_name ty, v) :: destroyed (drop_events tys vs)).
  { intros t' H L. rewrite H, L1 by exact L. rewrite <- app_assoc. reflexivity. }
  destruct (snd (act (ty_name ty) v t)) eqn:F.
  - assert (O : one_fussy fussy ((ty_name ty, v) :: destroyed (drop_events tys vs))) by (exists (ty_name ty), v, t; split; [left; reflexivity|exact F]).
    unfold draise. destruct u; [right; exists t1; auto|].
    destruct (IH vs true t1 P1 S1) as [(t' & S' & L & [[R M]|(X & _)])|(s2 & R & (n & w & s3 & In3 & F3) & H)]; [|discriminate X|]; rewrite R.
    + left. exists t'. split; [exact S'|]. split; [apply J, L|]. right. split; [reflexivity|]. exists (ty_name ty), v.
      split; [reflexivity|]. split; [left; reflexivity|]. exists t; exact F.
    + right. exists s2. split; [reflexivity|]. split; [exact O|]. right. cbn [List.length].
      destruct (destroyed (drop_events tys vs)); [destruct In3|cbn [List.length]; lia].
  - unfold dbind, dret.
    destruct (IH vs u t1 P1 S1) as [(t' & S' & L & [[R M]|(-> & n & w & R & H1 & H2)])|(s2 & R & (n & w & s3 & In3 & F3) & H)]; rewrite R.
    + left. exists t'. split; [exact S'|]. split; [apply J, L|]. left. split; [reflexivity|].
      intros n w [K|K]; [injection K as <- <-; exists t; exact F|auto].
    + left. exists t'. split; [exact S'|]. split; [apply J, L|]. right. split; [reflexivity|]. exists n, w. split; [reflexivity|]. split; [right; exact H1|exact H2].
    + right. exists s2. split; [reflexivity|]. split; [exists n, w, s3; cbn; auto|]. cbn [List.length]. destruct H; [auto|right; lia].
Qed.

End Glue.

(** ** Writing *)

Lemma store_at v : forall (m m' : N -> mbyte) a q, m q = m' q -> store m a v q = store m' a v q.
Proof. induction v as [|b v IH]; intros m m' a q H; cbn [store]; [exact H|]. rewrite (IH m m' (a + 1) q H). reflexivity. Qed.

Lemma write_fields_at fs p : forall vs m m' q, m q = m' q -> write_fields m p fs vs q = write_fields m' p fs vs q.
Proof.
  induction fs as [|[off t] fs IH]; intros [|v vs] m m' q H; cbn [write_fields]; try exact H. apply IH, store_at, H.
Qed.

Lemma write_mem_at U p vs m m' q : m q = m' q -> write_mem U p vs m q = write_mem U p vs m' q.
Proof. intros H. unfold write_mem. apply write_fields_at. unfold undef_range. rewrite H. reflexivity. Qed.

(** What is written does not depend on what was there. *)
Lemma write_mem_in U p vs m m' q : p <= q < p + h_size U -> write_mem U p vs m q = write_mem U p vs m' q.
Proof.
  intros H. unfold write_mem. apply write_fields_at. unfold undef_range.
  destruct (N.leb_spec p q), (N.ltb_spec q (p + h_size U)); try lia. reflexivity.
Qed.

Lemma blocks_more {A} (b : A) l : b :: l <> l.
Proof. intros H. apply (f_equal (@List.length A)) in H. cbn in H. lia. Qed.

Section Facts.
Variables (E : env) (def : edef) (x : expansion).
Variable act : string -> leafval -> st -> st * bool.
Variable s0 : st.
Hypothesis Hs : macro_setup E def x.
Let fussy := panics act.
Let Hd : def_ok def := ms_def _ _ _ Hs.
Let Hx : expand def = Some x := ms_expand _ _ _ Hs.
Let H8 := setup_u8 _ _ _ Hs.

(** ** States *)

Lemma kspares_refl c j s : kspares E def s0 c j s s.
Proof. split; auto. Qed.

Lemma kspares_trans c j s t u : kspares E def s0 c j s t -> kspares E def s0 c j t u -> kspares E def s0 c j s u.
Proof.
  intros [A1 A2] [B1 B2]. split.
  - intros i y p n al Hy Hp Hb. destruct (A1 i y p n al Hy Hp Hb) as [C1 C2]. destruct (B1 i y p n al Hy Hp C1) as [D1 D2].
    split; [exact D1|]. intros Hj q Hq. rewrite D2, C2; auto.
  - intros b H0 Hb. destruct (A2 b H0 Hb) as [C1 C2]. destruct (B2 b H0 C1) as [D1 D2]. split; [exact D1|]. intros q Hq. rewrite D2, C2; auto.
Qed.

Lemma kspares_keeps c j s t : keeps s t -> kspares E def s0 c j s t.
Proof.
  intros K. split.
  - intros i y p n al _ _ Hb. destruct (K _ Hb) as [K1 K2]. auto.
  - intros b _ Hb. exact (K _ Hb).
Qed.

Lemma kspares_sub c c' s t : (forall y, In y c' -> kits_block E def y = None \/ In y c) ->
  kspares E def s0 c None s t -> kspares E def s0 c' None s t.
Proof.
  intros H [A1 A2]. split; [|exact A2]. intros i y p n al Hy Hp Hb. destruct (H y (nth_error_In _ _ Hy)) as [Q|Q]; [congruence|].
  apply In_nth_error in Q as [j Q]. destruct (A1 j y p n al Q Hp Hb) as [B1 B2]. split; [exact B1|]. intros _. apply B2. discriminate.
Qed.

Lemma kspares_base c j s t : keeps s0 s -> kspares E def s0 c j s t -> keeps s0 t.
Proof.
  intros K [_ A] b Hb. destruct (K b Hb) as [K1 K2]. destruct (A b Hb K1) as [A1 A2]. split; [exact A1|].
  intros q Hq. rewrite A2, K2; auto.
Qed.

Lemma kits_mem s w v : boxed E def s w v -> kits_block E def (KBox w) = kmem E def w v.
Proof.
  intros (i & k & Hi & Ht & _). unfold tb_discriminant in Ht. unfold kits_block, kmem. rewrite Ht, Nat2N.id, Hi.
  rewrite (assoc_in _ _ _ (do_names _ Hd) (nth_error_In _ _ Hi)). reflexivity.
Qed.

(** A box whose block is left alone. *)
Lemma boxed_spared s t w v : boxed E def s w v -> khome s0 s (kmem E def w v) ->
  (forall p n al, kmem E def w v = Some (p, n) -> In (Block p n al) (blocks s) ->
     In (Block p n al) (blocks t) /\ forall q, p <= q < p + n -> bytes t q = bytes s q) ->
  boxed E def t w v.
Proof.
  intros (i & k & Hi & Ht & B) Hm S. exists i, k. split; [exact Hi|]. split; [exact Ht|].
  pose proof (nth_error_In _ _ Hi) as Hin. unfold kmem in Hm, S. rewrite (assoc_in _ _ _ (do_names _ Hd) Hin) in Hm, S.
  destruct (storage k) as [U|] eqn:Es; [|exact B].
  destruct (storage_legal k U (kind_types_wf _ _ _ Hd Hin) Es) as [Hl _].
  eapply (box_holds_addr E); [exact Hl|reflexivity|]. apply box_holds_inv in B.
  apply read_at_inv in B as (_ & (A1 & A2 & A3) & A4). unfold tb_as_ptr in *.
  assert (Z : accessible t (tp_as_ptr (tgt E) w) (h_size U) = true /\
              forall q, tp_as_ptr (tgt E) w <= q < tp_as_ptr (tgt E) w + h_size U -> bytes t q = bytes s q).
  { destruct (N.eqb_spec (h_size U) 0) as [Z|Z].
    - split; [unfold accessible; rewrite Z; reflexivity|]. intros q Hq. lia.
    - cbn [khome] in Hm. destruct Hm as [[al Hb] _]. destruct (S _ _ al eq_refl Hb) as [S1 S2]. split; [|exact S2].
      unfold accessible. apply orb_true_iff. right. apply existsb_exists. eexists. split; [exact S1|].
      unfold block_contains. cbn [b_base b_size]. rewrite !N.leb_refl. reflexivity. }
  destruct Z as [Z1 Z2]. rewrite read_at_eq by (split; [exact A1|]; split; [exact A2|exact Z1]).
  rewrite (read_fields_ext _ _ (bytes s)), A4; [reflexivity|]. intros f q Hf Hq. apply Z2.
  pose proof (ll_inside U Hl) as Hin'. rewrite Forall_forall in Hin'. specialize (Hin' f Hf). unfold in_field in Hq. lia.
Qed.

(** Everything is left alone. *)
Lemma kinv_all s t c a : kinv E def s0 s c a -> kspares E def s0 c None s t -> kinv E def s0 t c a.
Proof.
  intros H S. pose proof (kspares_base _ _ _ _ (ki_base _ _ _ _ _ _ H) S) as K. destruct H as [H1 H2 H3]. destruct S as [S _].
  constructor; [|exact H2|exact K]. apply Forall2_nth_iff in H1 as [L H1]. apply Forall2_nth_iff. split; [exact L|].
  intros i y z Hy Hz. specialize (H1 i y z Hy Hz). destruct y as [w|v|], z as [id loc v'|id v'|]; cbn [krel] in *; try exact H1.
  destruct H1 as (B & V & Hm & Lt).
  assert (Sp : forall p n al, kmem E def w v' = Some (p, n) -> In (Block p n al) (blocks s) ->
     In (Block p n al) (blocks t) /\ forall q, p <= q < p + n -> bytes t q = bytes s q).
  { intros p n al Hp Hb. rewrite <- (kits_mem s w v' B) in Hp. destruct (S i _ p n al Hy Hp Hb) as [S1 S2]. split; [exact S1|]. apply S2. discriminate. }
  split; [exact (boxed_spared s t w v' B Hm Sp)|]. split; [exact V|]. split; [|exact Lt].
  destruct (kmem E def w v') as [[p n]|]; [|exact Logic.I]. destruct Hm as [[al Hb] Hm]. split; [|exact Hm]. exists al. apply (Sp p n al eq_refl Hb).
Qed.

(** ** Calls *)

(** [t] is [s], but for what destructors did. *)
Definition near (c : list kcell) (s t : st) : Prop :=
  kspares E def s0 c None s t /\ (lonely act -> destroyed (events t) = destroyed (events s)).

Lemma near_refl c s : near c s s.
Proof. split; [apply kspares_refl|reflexivity]. Qed.

Lemma near_sub c c' s t : (forall y, In y c' -> kits_block E def y = None \/ In y c) -> near c s t -> near c' s t.
Proof. intros H [N1 N2]. split; [eapply kspares_sub; eassumption|exact N2]. Qed.

(** As [klike]. *)
Definition elike (c : list kcell) {A} (fr : A -> list kcell) (l : list (string * leafval)) (dm : DM A) (m : M A) (s : st) : Prop :=
  match m s with
  | Ok r s' =>
      (exists t', near (fr r) s' t' /\
        ((dm false s = DOk r t' /\ mellow fussy l) \/
         (exists n v, dm false s = DPanic (InDrop n v) t' /\ In (n, v) l /\ exists s1, fussy s1 n v = true))) \/
      (exists s2, dm false s = DAbort s2 /\ one_fussy fussy l /\ (2 <= List.length l)%nat)
  | Panicked q s' =>
      (exists t', near c s' t' /\ dm false s = DPanic (InCrate q) t' /\ mellow fussy l) \/
      (exists s2, dm false s = DAbort s2 /\ one_fussy fussy l /\ q = PanicNullAlloc)
  | UB _ => True
  end.

Lemma elike_bind c l {A B} (fr : A -> list kcell) (fr' : B -> list kcell) (dm : DM A) (m : M A) (f : A -> B) s :
  (forall r y, In y (fr' (f r)) -> kits_block E def y = None \/ In y (fr r)) -> elike c fr l dm m s ->
  elike c fr' l (dbind dm (fun a => dret (f a))) (bind m (fun a => ret (f a))) s.
Proof.
  intros Hf. unfold elike, bind, dbind, ret, dret. destruct (m s) as [r s'|q s'|u]; [| |auto]; intros H.
  - destruct H as [(t' & N & [[R M]|(n & v & R & H)])|(s2 & R & H)]; rewrite R.
    + left. exists t'. split; [eapply near_sub; [apply Hf|exact N]|]. left. auto.
    + left. exists t'. split; [eapply near_sub; [apply Hf|exact N]|]. right. eauto.
    + right. eauto.
  - destruct H as [(t' & N & R & M)|(s2 & R & H)]; rewrite R; [left; eauto|right; eauto].
Qed.

(** Making a box: by [TaggedBox::new], or dangling. *)
Definition shaped (dm : DM tagged_ptr) (m : M tagged_ptr) : Prop :=
  (exists U vs d, (forall s, m s = tb_new E U vs d s) /\ forall u s, dm u s = e_new E act U vs d u s) \/
  (exists w, forall s, m s = Ok w s /\ forall u, dm u s = DOk w s) \/
  (exists e, forall s, m s = UB e).

Lemma shaped_resolved {A} (o : option A) f g : (forall a, shaped (f a) (g a)) ->
  shaped (dbind (plainly (resolved o)) f) (bind (resolved o) g).
Proof.
  intros H. destruct o as [a|]; [exact (H a)|]. right; right. eexists. intros s. reflexivity.
Qed.

Lemma into_shaped v : x_drop x = false -> shaped (ke_into E x act v) (macro_into E x v).
Proof.
  intros D. unfold ke_into, macro_into, ke_at_exit. rewrite D.
  apply (shaped_resolved (find_into (ev_variant v) (x_into x))). intros a.
  apply (shaped_resolved (bind_pattern x (ia_pat a) v)). intros binds.
  apply (shaped_resolved (eval_tag x (ia_tag a))). intros tag.
  assert (N : forall U vs, shaped (e_new E act U vs tag) (tb_new E U vs tag)) by (intros U vs; left; exists U, vs, tag; auto).
  destruct (ia_body a) as [t arg|tys args|ms lit|]; cbn [ke_into_body run_into_body].
  - apply shaped_resolved. intros vs. apply N.
  - apply shaped_resolved. intros vs. apply N.
  - apply shaped_resolved. intros vals. apply shaped_resolved. intros vs. apply N.
  - right; left. eexists. intros s. split; reflexivity.
Qed.

Lemma payload_shaped f vals : x_drop x = false -> shaped (ke_from_payload E x act f vals) (container_from_payload E x f vals).
Proof.
  intros D. destruct f as [t v|ts v idx]; cbn [ke_from_payload container_from_payload]; [apply into_shaped, D|].
  apply shaped_resolved. intros vs. apply into_shaped, D.
Qed.

Hypothesis Hno : Macro.e_drop def = false.
Let Xd : x_drop x = false := x_no_drop E def x Hs Hno.

(** The destructors of these values are polite. *)
Definition kall_polite (c : list kcell) (j : option nat) (s : st) (l : list (string * leafval)) : Prop :=
  forall n v t, In (n, v) l -> kspares E def s0 c j s t -> kspares E def s0 c j t (fst (act n v t)).

Lemma polite_glue c j s l : kall_polite c j s l ->
  forall n v t, In (n, v) l -> kspares E def s0 c j s t -> kspares E def s0 c j s (log (EvDrop n v) (fst (act n v t))).
Proof. intros P n v t Hin S. eapply kspares_trans; [exact S|]. exact (P n v t Hin S). Qed.

Lemma store_elike c dm m v s : shaped dm m -> m s = macro_into E x v s -> evalue_fits E def v ->
  kall_polite c None s (unstored def (no_room E def v s) v) ->
  elike c (fun w => KBox w :: c) (unstored def (no_room E def v s) v) dm m s.
Proof.
  intros Sh Hm [(k & Hin & Ht) Hfit] P. unfold elike.
  assert (Vd := value_destructors_eq E def x Hs v k Hin).
  assert (Nb : needs_block def v = match storage k with Some U => negb (h_size U =? 0) | None => false end).
  { unfold needs_block. rewrite (assoc_in _ _ _ (do_names _ Hd) Hin). reflexivity. }
  assert (Nr : no_room E def v s = match storage k with Some U => no_block E U s | None => false end).
  { unfold no_room. rewrite (assoc_in _ _ _ (do_names _ Hd) Hin). reflexivity. }
  assert (El : exit_log def (ev_fields v) = []) by (unfold exit_log; rewrite Hno; reflexivity).
  pose proof (macro_into_spec E def x Hd Hx H8 (ms_env _ _ _ Hs) v k s Hin Ht Hfit) as Sp. cbv zeta in Sp. rewrite El, app_nil_r, <- !Hm in Sp.
  set (l := unstored def (no_room E def v s) v) in *. unfold logged in Sp.
  assert (Sto : forall U0 p vs, events (stored U0 p vs s) = events s ++ [EvAlloc p (h_size U0) (h_align U0)]) by reflexivity.
  destruct Sp as [(Hz & w & M & B) | [(U & Hu & Hz & A & M) | (U & p & w & Hu & Hz & A & M & _)]].
  - (* no block *)
    assert (L : l = destroyed (drop_events (kind_types k) (ev_fields v))).
    { unfold l, unstored. assert (needs_block def v = false) as -> by (rewrite Nb; destruct (storage k) as [U|]; [rewrite Hz|]; reflexivity). exact Vd. }
    assert (Kb : forall t, boxed E def t w v -> kits_block E def (KBox w) = None).
    { intros t Bt. rewrite (kits_mem t w v Bt). unfold kmem. rewrite (assoc_in _ _ _ (do_names _ Hd) Hin).
      destruct (storage k) as [U|]; [rewrite Hz|]; reflexivity. }
    specialize (Kb _ B). rewrite M. rewrite L in *.
    assert (Sub : forall y, In y (KBox w :: c) -> kits_block E def y = None \/ In y c) by (intros y [<-|Hy]; auto).
    destruct Sh as [(U & vs & d & M1 & D1)|[(w1 & W1)|(e & W1)]].
    + rewrite M1 in M. rewrite D1. unfold tb_new in M. unfold e_new. destruct (N.eqb_spec (h_size U) 0) as [Z|Z].
      * unfold bind, drop_hval, ret in M. injection M as M2 M3. apply app_inv_head in M3. fold (dropped U vs s) in *.
        unfold finally, dret, dbind, e_drop. rewrite <- M3 in *.
        destruct (ke_glue act (kspares E def s0 c None s) (h_types U) vs false s (polite_glue _ _ _ _ P) (kspares_refl c None s))
          as [(t' & S' & Lo & [[R Me]|(_ & n & w2 & R & H)])|(s2 & R & O & [Q|Q])]; [| |discriminate Q|]; rewrite R.
        -- left. exists t'. split; [eapply near_sub; [exact Sub|]; split; [exact S'|]|left; split; [rewrite M2; reflexivity|exact Me]].
           intros Ha. rewrite (Lo Ha). cbn [events]. rewrite destroyed_app. reflexivity.
        -- left. exists t'. split; [eapply near_sub; [exact Sub|]; split; [exact S'|]|right; exists n, w2; split; [reflexivity|exact H]].
           intros Ha. rewrite (Lo Ha). cbn [events]. rewrite destroyed_app. reflexivity.
        -- right. exists s2. auto.
      * exfalso. unfold bind, alloc in M. destruct (alloc_fn E s (h_size U) (h_align U)) as [q|]; [|discriminate M].
        unfold write_at, bind in M. set (s1 := St _ _ _) in M. destruct (check_access U q s1) as [[] s2|pq s2|e] eqn:C; try discriminate M.
        apply check_access_inv in C as [-> _]. unfold of_outcome in M. destruct (tp_new (tgt E) q d); [|discriminate M].
        unfold ret in M. injection M as _ _ M3 _. unfold s1 in M3. cbn [blocks] in M3. exact (blocks_more _ _ M3).
    + destruct (W1 s) as [W2 W3]. rewrite W2 in M. injection M as -> M3. rewrite W3. left. exists s.
      assert (Nil : drop_events (kind_types k) (ev_fields v) = []).
      { apply (f_equal events) in M3. cbn [events] in M3. symmetry. eapply app_inv_head. rewrite app_nil_r. exact M3. }
      rewrite Nil. split; [|left; split; [reflexivity|intros ? ? []]]. rewrite app_nil_r. destruct s. apply near_refl.
    + rewrite W1 in M. discriminate M.
  - (* no memory *)
    assert (L : l = destroyed (drop_events (kind_types k) (ev_fields v))).
    { unfold l, unstored. rewrite Nb, Nr, Hu. unfold no_block. rewrite (proj2 (N.eqb_neq _ _) Hz), A. exact Vd. }
    rewrite M. rewrite L in *. destruct Sh as [(U1 & vs & d & M1 & D1)|[(w1 & W1)|(e & W1)]];
      [|destruct (W1 s) as [W2 _]; rewrite W2 in M; discriminate M|rewrite W1 in M; discriminate M].
    rewrite M1 in M. rewrite D1. unfold tb_new in M. unfold e_new. destruct (N.eqb_spec (h_size U1) 0) as [Z|Z]; [discriminate M|].
    unfold bind, alloc in M. unfold dbind, plainly, alloc. destruct (alloc_fn E s (h_size U1) (h_align U1)) as [q|].
    { exfalso. unfold write_at, bind in M. set (s1 := St _ _ _) in M. destruct (check_access U1 q s1) as [[] s2|pq s2|e] eqn:C; try discriminate M.
      - apply check_access_inv in C as [-> _]. unfold of_outcome in M. destruct (tp_new (tgt E) q d); [discriminate M|].
        unfold raise in M. injection M as _ _ M3 _. unfold s1 in M3. cbn [blocks] in M3. exact (blocks_more _ _ M3).
      - unfold check_access in C. repeat (match type of C with (if ?b then _ else _) = _ => destruct b end; try discriminate C). }
    unfold drop_hval, raise in M. injection M as M3. apply app_inv_head in M3. unfold finally, draise, e_drop. rewrite <- M3 in *.
    destruct (ke_glue act (kspares E def s0 c None s) (h_types U1) vs true s (polite_glue _ _ _ _ P) (kspares_refl c None s))
      as [(t' & S' & Lo & [[R Me]|(Q & _)])|(s2 & R & O & _)]; [|discriminate Q|]; rewrite R.
    + left. exists t'. split; [split; [exact S'|]|auto]. intros Ha. rewrite (Lo Ha). cbn [events]. rewrite destroyed_app. reflexivity.
    + right. exists s2. auto.
  - (* stored *)
    assert (L : l = []).
    { unfold l, unstored. rewrite Nb, Nr, Hu. unfold no_block. rewrite (proj2 (N.eqb_neq _ _) Hz), A. reflexivity. }
    assert (Mn : mellow fussy l) by (rewrite L; intros ? ? []).
    assert (Dm : dm false s = plainly m false s).
    { unfold plainly. destruct Sh as [(U1 & vs & d & M1 & D1)|[(w1 & W1)|(e & W1)]].
      - rewrite M1 in *. rewrite D1. unfold tb_new in M |- *. unfold e_new. destruct (N.eqb_spec (h_size U1) 0) as [Z|Z].
        + exfalso. unfold bind, drop_hval, ret in M. injection M as _ _ M3 _. exact (blocks_more _ _ (eq_sym M3)).
        + unfold bind, alloc in M |- *. unfold dbind, plainly, alloc. destruct (alloc_fn E s (h_size U1) (h_align U1)) as [q|]; [|discriminate M].
          destruct (write_at U1 q vs _) as [[] s2|pq s2|e]; reflexivity.
      - destruct (W1 s) as [W2 W3]. rewrite W2, W3. reflexivity.
      - rewrite W1 in M. discriminate M. }
    rewrite Dm. unfold plainly. rewrite M. left. eexists. split; [apply near_refl|]. left. auto.
Qed.

Lemma assign_elike c i w U p old val s : nth_error c i = Some (KBox w) -> layout_legal U -> hval_ok U val ->
  kits_block E def (KBox w) = (if h_size U =? 0 then None else Some (p, h_size U)) ->
  (h_size U <> 0 -> exists al, In (Block p (h_size U) al) (blocks s)) ->
  read_at U p s = Ok old s -> kall_polite c (Some i) s (destructors U old) ->
  elike c (fun _ => c) (destructors U old) (e_assign act U p val) (assign_at U p val) s.
Proof.
  intros Hi Hl Hv Hk Hb R P. pose proof (read_at_inv _ _ _ _ _ R) as (_ & Ca & _). unfold elike.
  assert (M : assign_at U p val s = Ok tt (St (write_mem U p val (bytes s)) (blocks s) (events (dropped U old s)))).
  { unfold assign_at, bind. rewrite R. unfold drop_hval. fold (dropped U old s). exact (write_at_eq (dropped U old s) U p val Ca). }
  rewrite M.
  assert (D : e_assign act U p val false s = finally (e_drop act U old) (plainly (write_at U p val)) false s).
  { unfold e_assign, dbind. unfold plainly at 1. rewrite R. reflexivity. }
  rewrite D. rewrite <- destroyed_drop in *. unfold finally, e_drop.
  assert (W : forall t u, kspares E def s0 c (Some i) s t ->
    plainly (write_at U p val) u t = DOk tt (St (write_mem U p val (bytes t)) (blocks t) (events t)) /\
    kspares E def s0 c None (St (write_mem U p val (bytes s)) (blocks s) (events (dropped U old s))) (St (write_mem U p val (bytes t)) (blocks t) (events t))).
  { intros t u [S1 S2]. split.
    - unfold plainly. rewrite write_at_eq; [reflexivity|]. destruct Ca as (C1 & C2 & _). split; [exact C1|]. split; [exact C2|].
      unfold accessible. apply orb_true_iff. destruct (N.eqb_spec (h_size U) 0) as [Z|Z]; [left; reflexivity|right].
      destruct (Hb Z) as [al B]. destruct (S1 i _ p (h_size U) al Hi) as [B' _]; [rewrite Hk; reflexivity|exact B|].
      apply existsb_exists. eexists. split; [exact B'|]. unfold block_contains. cbn [b_base b_size]. rewrite !N.leb_refl. reflexivity.
    - assert (By : forall q, bytes t q = bytes s q \/ p <= q < p + h_size U -> write_mem U p val (bytes t) q = write_mem U p val (bytes s) q)
        by (intros q [Q|Q]; [apply write_mem_at, Q|apply write_mem_in, Q]).
      split; cbn [blocks bytes].
      + intros j y q n al Hy Hq Bq. destruct (S1 j y q n al Hy Hq Bq) as [B1 B2]. split; [exact B1|]. intros _ r Hr. apply By.
        destruct (Nat.eq_dec i j) as [<-|Nj]; [right|left; apply B2; [congruence|exact Hr]].
        rewrite Hi in Hy. injection Hy as <-. rewrite Hk in Hq. destruct (h_size U =? 0); [discriminate Hq|]. injection Hq as <- <-. exact Hr.
      + intros b B0 Bs. destruct (S2 b B0 Bs) as [B1 B2]. split; [exact B1|]. intros q Hq. apply By. left. apply B2, Hq. }
  destruct (ke_glue act (kspares E def s0 c (Some i) s) (h_types U) old false s (polite_glue _ _ _ _ P) (kspares_refl c (Some i) s))
    as [(t' & S' & Lo & [[Rn Me]|(_ & n & w2 & Rn & H)])|(s2 & Rn & O & [Q|Q])]; [| |discriminate Q|]; rewrite Rn.
  - destruct (W t' false S') as [W1 W2]. unfold dbind, dret. rewrite W1. left. eexists. split; [split; [exact W2|]|left; auto].
    intros Ha. cbn [events dropped]. rewrite (Lo Ha), destroyed_app. reflexivity.
  - destruct (W t' true S') as [W1 W2]. rewrite W1. left. eexists. split; [split; [exact W2|]|right; exists n, w2; split; [reflexivity|exact H]].
    intros Ha. cbn [events dropped]. rewrite (Lo Ha), destroyed_app. reflexivity.
  - right. exists s2. auto.
Qed.

Lemma drop_elike c v k s : In (ev_variant v, k) (e_variants def) -> kall_polite c None s (value_destructors def v) ->
  elike c (fun _ => c) (value_destructors def v) (ke_drop_evalue x act v) (drop_evalue x v) s.
Proof.
  intros Hin P. unfold elike, ke_drop_evalue, drop_evalue. rewrite Xd. cbn [app].
  rewrite (xp_enum _ _ (expand_inv _ _ Hx)), (assoc_in _ _ _ (do_names _ Hd) Hin). rewrite (value_destructors_eq E def x Hs v k Hin) in *.
  destruct (ke_glue act (kspares E def s0 c None s) (kind_types k) (ev_fields v) false s (polite_glue _ _ _ _ P) (kspares_refl c None s))
    as [(t' & S' & Lo & [[Rn Me]|(_ & n & w2 & Rn & H)])|(s2 & Rn & O & [Q|Q])]; [| |discriminate Q|]; rewrite Rn.
  - left. exists t'. split; [split; [exact S'|]|left; auto]. intros Ha. rewrite (Lo Ha). cbn [events]. rewrite destroyed_app. reflexivity.
  - left. exists t'. split; [split; [exact S'|]|right; exists n, w2; split; [reflexivity|exact H]]. intros Ha. rewrite (Lo Ha). cbn [events]. rewrite destroyed_app. reflexivity.
  - right. exists s2. auto.
Qed.

End Facts.

Section Step.
Variables (E : env) (def : edef) (x : expansion) (I : impls) (F : st -> meaning) (R : st -> st -> Prop).
Variable act : string -> leafval -> st -> st * bool.
Hypothesis Hs : macro_setup E def x.
Hypothesis HI : implements R def I F.
Hypothesis HR : forall s s', R s s' -> keeps s s'.
Hypothesis Hno : Macro.e_drop def = false.
Let fussy := panics act.
Let Hd : def_ok def := ms_def _ _ _ Hs.
Let Hx : expand def = Some x := ms_expand _ _ _ Hs.
Let H8 := setup_u8 _ _ _ Hs.
Let Xd : x_drop x = false := x_no_drop E def x Hs Hno.

Lemma in_put {A} (y z : A) l : forall i, In y (put i z l) -> y = z \/ In y l.
Proof. induction l as [|b l IH]; intros [|i] H; cbn [put] in H; [destruct H..| |]; destruct H as [H|H]; cbn; auto. apply IH in H. tauto. Qed.

Lemma after_sub o c y : In y (kd_after_panic o c) -> kits_block E def y = None \/ In y c.
Proof.
  destruct o; cbn [kd_after_panic kafter_panic]; try (intros H; right; exact H);
    first [intros H; apply in_put in H as [->|H]; [left; reflexivity|right; exact H]
          |intros H; apply in_app_iff in H as [H|[<-|[]]]; [right; exact H|left; reflexivity]].
Qed.

Lemma all_polite_later s0 c j s s1 l : keeps s s1 -> kall_polite E def act s0 c j s l -> kall_polite E def act s0 c j s1 l.
Proof. intros K P n v t Hin S. apply (P n v t Hin). eapply kspares_trans; [apply kspares_keeps, K|exact S]. Qed.

Lemma ke_plainly o c : kdestroys o = false -> ke_step E x I act o c = option_map plainly (kstep E x I o c).
Proof. intros H. destruct o; try discriminate H; reflexivity. Qed.

(** The calls that run destructors. *)
Lemma ke_step_like s0 s c a o m : kdestroys o = true -> kinv E def s0 s c a -> kcontract E def (F s) a o ->
  kastep def (F s) false o a <> None -> kall_polite E def act s0 c (kslot o) s (kvictims E def x I o c s) -> kstep E x I o c = Some m ->
  exists dm, ke_step E x I act o c = Some dm /\
    elike E def act s0 c snd (kloses def (F s) (kstarved E def x I o c s) o a) dm m s.
Proof.
  intros H Hi Hc Hn P S. destruct o as [v|i|src vals|i|i|i j|i j|i j|i o out|i o out|i o out|i|i|i n f|i n val|i|i|i|i]; try discriminate H;
    cbn [kastep kstep ke_step kloses kstarved kcontract kvictims kslot] in *.
  - (* KFrom *)
    destruct (nth_error (kcells a) i) as [[id loc v|id v|]|] eqn:Hy; try contradiction.
    destruct (Forall2_nth _ _ _ _ _ (ki_rel _ _ _ _ _ _ Hi) Hy) as ([w|v'|] & Hz & Rz); cbn [krel] in Rz; try contradiction.
    destruct Rz as [-> V]. rewrite Hz in *. injection S as <-. eexists. split; [reflexivity|].
    pose proof (conj V (Hc id v eq_refl)) as Hv.
    apply (elike_bind E def act s0 c _ (fun w => KBox w :: c) snd (ke_into E x act v) (container_from E x v) (fun w => (KNothing, put i (KBox w) c))).
    + intros w y Hin. cbn [snd] in Hin. right. apply in_put in Hin as [->|Hin]; [left; reflexivity|right; exact Hin].
    + apply (store_elike E def x act s0 Hs Hno); [apply into_shaped, Xd|reflexivity|exact Hv|exact P].
  - (* KFromPayload *)
    destruct (payload_variant def src) as [n|] eqn:Pv; [|contradiction].
    destruct (payload_found E def x Hs src n vals Pv (proj1 Hc)) as (f & Ff & Hf). rewrite Ff in *. injection S as <-.
    eexists. split; [reflexivity|].
    apply (elike_bind E def act s0 c _ (fun w => KBox w :: c) snd (ke_from_payload E x act f vals) (container_from_payload E x f vals) (fun w => (KNothing, c ++ [KBox w]))).
    + intros w y Hin. cbn [snd] in Hin. right. apply in_app_iff in Hin as [Hin|[<-|[]]]; [right; exact Hin|left; reflexivity].
    + apply (store_elike E def x act s0 Hs Hno); [apply payload_shaped, Xd|apply Hf|exact Hc|exact P].
  - (* KClone *)
    destruct (nth_error (kcells a) i) as [[id loc v|id v|]|] eqn:Hy; try contradiction.
    destruct (Forall2_nth _ _ _ _ _ (ki_rel _ _ _ _ _ _ Hi) Hy) as ([w|v'|] & Hz & Rz); cbn [krel] in Rz; try contradiction.
    rewrite Hz in *. injection S as <-. eexists. split; [reflexivity|].
    destruct Rz as (B & V & Hm & Hlt). destruct (im_clone _ _ _ _ HI s v V) as [Cc Vc].
    assert (Cs : computes R s (bind (i_clone I v) (fun c0 => ret (Some c0)))
                   (match m_clone (F s) v with Done c0 => Done (Some c0) | Panics p => Panics p end)).
    { destruct Cc as (s1 & C1 & R1). exists s1. unfold bind. rewrite C1. destruct (m_clone (F s) v); auto. }
    destruct (view_one E def x R Hs s w v (fun this (_ : option evalue) => bind (i_clone I this) (fun c0 => ret (Some c0))) None _ B V Cs)
      as (s1 & V1 & Al & Us).
    assert (K1 : keeps s s1) by (eapply keeps_trans; [apply HR, Us|eapply almost_keeps, Al]).
    rewrite V1 in *.
    apply (elike_bind E def act s0 c _ (fun w => KBox w :: c) snd (ke_clone E x I act w) _ (fun w' => (KNothing, c ++ [KBox w']))).
    { intros w' y Hin. cbn [snd] in Hin. right. apply in_app_iff in Hin as [Hin|[<-|[]]]; [right; exact Hin|left; reflexivity]. }
    assert (D1 : ke_clone E x I act w false s =
                 match m_clone (F s) v with Done cv => ke_into E x act cv false s1 | Panics p => DPanic (InCrate p) s1 end).
    { unfold ke_clone, dbind, plainly. rewrite V1. destruct (m_clone (F s) v); reflexivity. }
    assert (D2 : tb_clone (macro_taggable E x) (i_clone I) w s =
                 match m_clone (F s) v with Done cv => macro_into E x cv s1 | Panics p => Panicked p s1 end).
    { unfold tb_clone. unfold bind at 1. cbn [ref_from_tagged_box macro_taggable into_tagged_box]. rewrite V1.
      destruct (m_clone (F s) v); reflexivity. }
    unfold elike. rewrite D1, D2. destruct (m_clone (F s) v) as [cv|p] eqn:Mc; cbn [ends] in *.
    + apply (store_elike E def x act s0 Hs Hno c (ke_into E x act cv) (macro_into E x cv) cv s1);
        [apply into_shaped, Xd|reflexivity|exact (conj (Vc cv eq_refl) (Hc id loc v cv eq_refl Mc))|exact (all_polite_later _ _ _ _ _ _ K1 P)].
    + left. exists s1. split; [apply near_refl|]. split; [reflexivity|intros ? ? []].
  - (* KAssign *)
    destruct (nth_error (kcells a) i) as [[id loc v|id v|]|] eqn:Hy; try contradiction.
    destruct (only_field def n) as [t|] eqn:Of; [|contradiction].
    destruct (Forall2_nth _ _ _ _ _ (ki_rel _ _ _ _ _ _ Hi) Hy) as ([w|v'|] & Hz & Rz); cbn [krel] in Rz; try contradiction.
    destruct Rz as (B & V & Hm & Hlt). destruct (Hc id loc v eq_refl) as [Ev Vn].
    destruct (only_field_leaf E def x Hs n t Of) as [Hin Lt']. rewrite <- Ev in Hin. rewrite Hz, Lt' in *. injection S as <-.
    destruct (boxed_leaf E def x Hs s w v t B Hin) as (Bl & Hl).
    assert (Rd : read_at (leaf_hty t) (tp_as_ptr (tgt E) w) s = Ok (ev_fields v) s) by exact (box_holds_inv E _ _ _ _ Bl).
    rewrite Rd in P.
    assert (Lv : value_destructors def v = destructors (leaf_hty t) (ev_fields v)).
    { rewrite (value_destructors_eq E def x Hs v _ Hin), <- destroyed_drop. reflexivity. }
    rewrite Lv. eexists. split; [reflexivity|].
    assert (Km : kmem E def w v = if h_size (leaf_hty t) =? 0 then None else Some (tp_as_ptr (tgt E) w, h_size (leaf_hty t))).
    { unfold kmem. rewrite (assoc_in _ _ _ (do_names _ Hd) Hin). reflexivity. }
    apply (elike_bind E def act s0 c _ (fun _ => c) snd (e_assign act (leaf_hty t) (tp_mut_ref_addr (tgt E) w) [val]) _ (fun _ => (KNothing, c))).
    { intros [] y Hin'. right. exact Hin'. }
    apply (assign_elike E def act s0 c i w); [exact Hz|exact Hl| | | |exact Rd|exact P].
    + apply leaf_hval. rewrite <- Ev in Vn. apply (leaf_value E def x Hs (EV (ev_variant v) [val]) t Hin Vn).
    + rewrite (kits_mem E def x Hs s w v B). exact Km.
    + intros Z. rewrite Km in Hm. rewrite (proj2 (N.eqb_neq _ _) Z) in Hm. exact (proj1 Hm).
  - (* KDropVal *)
    destruct (nth_error (kcells a) i) as [[id loc v|id v|]|] eqn:Hy; try contradiction.
    destruct (Forall2_nth _ _ _ _ _ (ki_rel _ _ _ _ _ _ Hi) Hy) as ([w|v'|] & Hz & Rz); cbn [krel] in Rz; try contradiction.
    destruct Rz as [-> (k & Hin & Ht)]. rewrite Hz in *. injection S as <-.
    eexists. split; [reflexivity|].
    apply (elike_bind E def act s0 c _ (fun _ => c) snd (ke_drop_evalue x act v) _ (fun _ => (KNothing, put i KGone c))).
    { intros [] y Hin'. cbn [snd] in Hin'. apply in_put in Hin' as [->|Hin']; [left; reflexivity|right; exact Hin']. }
    eapply (drop_elike E def x act s0 Hs Hno); [exact Hin|exact P].
Qed.

(** A step of a program: done; done but for a destructor's panic; or aborted. *)
Lemma ke_step_sim s0 s c a o : kinv E def s0 s c a -> kcontract E def (F s) a o -> kastep def (F s) false o a <> None ->
  kall_polite E def act s0 c (kslot o) s (kvictims E def x I o c s) ->
  let fail := kstarved E def x I o c s in
  exists r a' c' s' t' dm, kastep def (F s) fail o a = Some (r, a') /\ ke_step E x I act o c = Some dm /\
    kinv E def s0 t' c' a' /\
    ((R s (kcalled I o a s) \/ kcalled I o a s = s) /\ ktracks def (kcalled I o a s) a s' a') /\
    (lonely act -> destroyed (events t') = destroyed (events s')) /\
    (((dm false s = DOk (r, c') t' \/ exists p, r = KSawPanic p /\ dm false s = DPanic (InCrate p) t' /\ c' = kd_after_panic o c) /\
      mellow fussy (kloses def (F s) fail o a)) \/
     (exists n v, fail = false /\ dm false s = DPanic (InDrop n v) t' /\ In (n, v) (kloses def (F s) false o a) /\ (exists t, fussy t n v = true) /\
        kinv E def s0 t' (kd_after_panic o c) (kblown o a a')) \/
     (exists s2, dm false s = DAbort s2 /\ kmay_abort def fussy (F s) fail o a)).
Proof.
  intros H Hc Hn P fail. destruct (kstep_sim E def x I F R Hs HI HR s0 s c a o H Hc Hn) as (f & m & r & a' & c' & s' & H1 & H2 & H3 & H4 & H5 & H6).
  subst f. fold fail in H1. exists r, a', c', s'. destruct (kdestroys o) eqn:De.
  - destruct (kstep_like E def x I F R fussy Hs HI Hno s0 s c a o m De H Hc Hn H2) as (_ & _ & _ & A1 & A2). fold fail in A1.
    destruct (ke_step_like s0 s c a o m De H Hc Hn P H2) as (dm & S1 & L). fold fail in L.
    unfold elike in L. destruct H3 as [M|(q & -> & M & ->)]; rewrite M in L.
    + destruct (A1 _ _ M) as [Nf A3]. cbn [snd] in L. destruct L as [(t' & [N1 N2] & L)|(s2 & L1 & L2 & L3)].
      * exists t', dm. pose proof (kinv_all E def x s0 Hs s' t' c' a' H4 N1) as H4'. do 5 (split; [assumption|]).
        destruct L as [[L1 L2]|(n & v & L1 & L2 & L3)]; [left; split; [left; exact L1|exact L2]|].
        right; left. exists n, v. split; [exact Nf|]. split; [exact L1|]. rewrite Nf in L2. split; [exact L2|]. split; [exact L3|].
        destruct o; try discriminate De; cbn [kstores kmakes kblown kd_after_panic kafter_panic snd] in *.
        -- destruct A3 as (w & A3). injection A3 as -> ->. rewrite <- (put_put KGone (KBox w)). eapply kinv_burst; [exact Hs|exact H4'|].
           apply put_same. apply nth_error_Some. cbn [kstep] in H2. destruct (nth_error c i); [discriminate|discriminate H2].
        -- destruct A3 as (w & A3). injection A3 as -> ->. rewrite <- (put_end KGone (KBox w)), <- (Forall2_len _ _ _ (ki_rel _ _ _ _ _ _ H)).
           eapply kinv_burst; [exact Hs|exact H4'|]. rewrite nth_error_app2 by lia. rewrite Nat.sub_diag. reflexivity.
        -- destruct A3 as (w & A3). injection A3 as -> ->. rewrite <- (put_end KGone (KBox w)), <- (Forall2_len _ _ _ (ki_rel _ _ _ _ _ _ H)).
           eapply kinv_burst; [exact Hs|exact H4'|]. rewrite nth_error_app2 by lia. rewrite Nat.sub_diag. reflexivity.
        -- rewrite A3. exact H4'.
        -- rewrite A3. exact H4'.
      * exists s', dm. do 4 (split; [assumption|]). split; [reflexivity|]. right; right. exists s2. split; [exact L1|]. split; [exact L2|right; exact L3].
    + destruct L as [(t' & [N1 N2] & L1 & L2)|(s2 & L1 & L2 & Lq)].
      * exists t', dm. split; [assumption|]. split; [assumption|]. split; [|split; [assumption|split; [assumption|]]].
        -- eapply (kinv_all E def x s0 Hs); [exact H4|]. rewrite <- (A2 _ _ M). eapply kspares_sub; [apply after_sub|exact N1].
        -- left. split; [right|exact L2]. exists q. split; [reflexivity|]. split; [exact L1|]. symmetry. exact (A2 _ _ M).
      * exists s', dm. do 4 (split; [assumption|]). split; [reflexivity|].
        right; right. exists s2. split; [exact L1|]. split; [exact L2|]. left. subst q.
        destruct L2 as (n & v & t & L2 & _). destruct fail eqn:Ef; [reflexivity|exfalso].
        destruct o; try discriminate De; cbn [kastep kloses] in H1, L2.
        -- destruct (nth_error (kcells a) i) as [[]|]; try discriminate H1. unfold kstore in H1. rewrite andb_false_r in H1. discriminate H1.
        -- destruct (payload_variant def src); try discriminate H1. unfold kstore in H1. rewrite andb_false_r in H1. discriminate H1.
        -- destruct (nth_error (kcells a) i) as [[]|]; try discriminate H1. destruct (m_clone (F s) v0); [|destruct L2].
           unfold kstore in H1. rewrite andb_false_r in H1. discriminate H1.
        -- destruct (nth_error (kcells a) i) as [[]|]; try discriminate H1. destruct (only_field def n0); discriminate H1.
        -- destruct (nth_error (kcells a) i) as [[]|]; discriminate H1.
  - destruct (kstep_plainly E def x I (fun _ _ _ => false) o c De) as (_ & S2 & S3 & _).
    exists s', (plainly m). split; [assumption|]. split; [rewrite (ke_plainly o c De), H2; reflexivity|]. do 2 (split; [assumption|]). split; [reflexivity|].
    left. rewrite S3. split; [|intros ? ? []].
    unfold plainly. destruct H3 as [M|(q & -> & M & ->)]; rewrite M; [left; reflexivity|right]. exists q. rewrite S2. auto.
Qed.

End Step.
