(** The invariant behind property C69: the block of every container is live and exposed. *)
From Coq Require Import Arith NArith String Bool List Lia.
From Verif Require Import Words Config Spec ConfigFacts Pointer PointerFacts Fmt Mem SpecMem MemFacts Box BoxFacts
  Arms Macro SpecMacro MacroFacts Props_Pointer Props_Box Props_Macro Props_Layout Props_Clone Session SpecSession SessionFacts
  Containers SpecContainers Props_Containers Provenance SpecProvenance ProvenanceFacts KProvenance.
Import ListNotations.
Local Open Scope N_scope.
Local Open Scope list_scope.

Definition good (ps : pst) : Prop := numbered ps /\ tidy (blocks (p_mem ps)).

Lemma ford_map {A B} (R : B -> B -> Prop) (f : A -> B) l : ForallOrdPairs R (map f l) -> ForallOrdPairs (fun a b => R (f a) (f b)) l.
Proof.
  induction l as [|a l IH]; cbn [map]; intros H; inversion H as [|? ? H1 H2]; subst; constructor; [|auto].
  rewrite Forall_map in H1. exact H1.
Qed.

Definition has_byte (b : block) (a : N) : Prop := b_base b <= a < b_base b + b_size b.

Lemma good_byte ps q1 q2 a : good ps -> In q1 (p_blocks ps) -> In q2 (p_blocks ps) -> has_byte (snd q1) a -> has_byte (snd q2) a -> q1 = q2.
Proof.
  intros [[N1 _ _] [_ T]] I1 I2 H1 H2. rewrite <- N1 in T. apply ford_map in T. unfold has_byte in *.
  destruct (ForallOrdPairs_In T _ _ I1 I2) as [|[C|C]]; [assumption|lia|lia].
Qed.

(** A live exposed block of [n] bytes at [a]. *)
Definition sees (ps : pst) (a n : N) : Prop :=
  exists id al, In (id, Block a n al) (p_blocks ps) /\ In id (p_exposed ps).

(** ** What code may do to the blocks *)

Definition grew (ps ps' : pst) : Prop := good ps -> good ps' /\ incl (p_blocks ps) (p_blocks ps') /\ incl (p_exposed ps) (p_exposed ps').
(** All new blocks are exposed. *)
Definition made (ps ps' : pst) : Prop := good ps -> good ps' /\ incl (p_blocks ps) (p_blocks ps') /\ incl (p_exposed ps) (p_exposed ps') /\
  forall q, In q (p_blocks ps') -> In q (p_blocks ps) \/ In (fst q) (p_exposed ps').

Lemma made_refl ps : made ps ps.
Proof. intros G. split; [exact G|]. split; [apply incl_refl|]. split; [apply incl_refl|auto]. Qed.
Lemma made_trans a b c : made a b -> made b c -> made a c.
Proof.
  intros H1 H2 G. destruct (H1 G) as (A1 & A2 & A3 & A4). destruct (H2 A1) as (B1 & B2 & B3 & B4).
  split; [exact B1|]. split; [eapply incl_tran; eassumption|]. split; [eapply incl_tran; eassumption|].
  intros q Q. destruct (B4 q Q) as [K|K]; [|auto]. destruct (A4 q K) as [L|L]; auto.
Qed.
Lemma grew_refl ps : grew ps ps.
Proof. intros G. split; [exact G|]. split; apply incl_refl. Qed.
Lemma grew_trans a b c : grew a b -> grew b c -> grew a c.
Proof.
  intros H1 H2 G. destruct (H1 G) as (A1 & A2 & A3). destruct (H2 A1) as (B1 & B2 & B3).
  split; [exact B1|]. split; eapply incl_tran; eassumption.
Qed.
Lemma made_grew a b : made a b -> grew a b.
Proof. intros H G. destruct (H G) as (A & B & C & _). auto. Qed.
Lemma eq_made (a b : pst) : a = b -> made a b.
Proof. intros <-. apply made_refl. Qed.

Lemma grew_sees ps ps' a n : good ps -> grew ps ps' -> sees ps a n -> sees ps' a n.
Proof. intros G H (id & al & A & B). destruct (H G) as (_ & C & D). exists id, al. auto. Qed.

(** Only the memory changed, and no block was made or freed. *)
Lemma made_mem ps m : blocks m = blocks (p_mem ps) -> made ps (PSt m (p_blocks ps) (p_exposed ps) (p_next ps)).
Proof.
  intros H [[N1 N2 N3] T]. split; [|cbn [p_blocks p_exposed]; auto using incl_refl].
  split; [constructor; cbn [p_blocks p_mem p_next]; congruence || assumption|]. cbn [p_mem]. rewrite H. exact T.
Qed.

(** ** Code that does the same on both machines *)

Definition follows_ (G : pst -> pst -> Prop) {A} (pm : PM A) (m : M A) (ps : pst) : Prop :=
  match m (p_mem ps) with
  | Ok a s' => exists ps', pm ps = POk a ps' /\ p_mem ps' = s' /\ G ps ps'
  | Panicked q s' => exists ps', pm ps = PPanic q ps' /\ p_mem ps' = s' /\ G ps ps'
  | UB _ => True
  end.

Lemma fol_weak (G G' : pst -> pst -> Prop) {A} (pm : PM A) m ps : (forall a b, G a b -> G' a b) -> follows_ G pm m ps -> follows_ G' pm m ps.
Proof.
  unfold follows_. intros W. destruct (m (p_mem ps)); [| |auto]; intros (ps' & H1 & H2 & H3); exists ps'; auto.
Qed.

Lemma fol_bind (G : pst -> pst -> Prop) {A B} (pm : PM A) m (pk : A -> PM B) k ps :
  (forall a b c, G a b -> G b c -> G a c) -> follows_ G pm m ps ->
  (forall a ps', m (p_mem ps) = Ok a (p_mem ps') -> G ps ps' -> follows_ G (pk a) (k a) ps') ->
  follows_ G (pbind pm pk) (bind m k) ps.
Proof.
  unfold follows_, pbind, bind. intros T H1 H2. destruct (m (p_mem ps)) as [a s'|q s'|u].
  - destruct H1 as (ps' & -> & <- & X). specialize (H2 a ps' eq_refl X). destruct (k a (p_mem ps')) as [b s2|q s2|u]; [| |exact Logic.I];
      destruct H2 as (ps2 & H & G2 & X2); exists ps2; eauto.
  - destruct H1 as (ps' & -> & H & X). exists ps'. auto.
  - exact Logic.I.
Qed.

Lemma fol_same (G : pst -> pst -> Prop) {A} (pm pm' : PM A) m m' ps : pm ps = pm' ps -> m (p_mem ps) = m' (p_mem ps) ->
  follows_ G pm' m' ps -> follows_ G pm m ps.
Proof. unfold follows_. intros -> ->. auto. Qed.

Lemma fol_ret (G : pst -> pst -> Prop) {A} (a : A) ps : G ps ps -> follows_ G (pret a) (ret a) ps.
Proof. intros H. exists ps. auto. Qed.

Lemma fol_under {A} (m : M A) ps :
  match m (p_mem ps) with Ok _ s' | Panicked _ s' => blocks s' = blocks (p_mem ps) | UB _ => True end -> follows_ made (under m) m ps.
Proof.
  unfold follows_, under. destruct (m (p_mem ps)) as [a s'|q s'|u]; intros H; [| |exact Logic.I];
    eexists; (split; [reflexivity|]); (split; [reflexivity|]); apply made_mem, H.
Qed.

Lemma mem_id ps : PSt (p_mem ps) (p_blocks ps) (p_exposed ps) (p_next ps) = ps.
Proof. destruct ps. reflexivity. Qed.

Lemma fol_resolved {A} (o : option A) ps : follows_ eq (under (resolved o)) (resolved o) ps.
Proof.
  destruct o as [a|]; [|exact Logic.I]. exists ps. split; [|auto]. unfold under, resolved, ret. rewrite mem_id. reflexivity.
Qed.

Lemma fol_raise {A} p ps : follows_ eq (under (raise (A := A) p)) (raise p) ps.
Proof. exists ps. split; [|auto]. unfold under, raise. rewrite mem_id. reflexivity. Qed.

Lemma eq_trans3 (a b c : pst) : a = b -> b = c -> a = c.
Proof. congruence. Qed.

(** Reading through a box. *)
Definition readable (ps : pst) (a : N) (H : hty) : Prop := h_size H <> 0 -> exists n, sees ps a n /\ h_size H <= n.

Lemma to_ptr_sees ps a n : good ps -> n <> 0 -> sees ps a n ->
  exists id al, to_ptr false a ps = POk (a, Some id) ps /\ In (id, Block a n al) (p_blocks ps).
Proof.
  intros G Z (id & al & B & X). exists id, al. split; [|exact B]. unfold to_ptr. f_equal. f_equal.
  destruct (find _ (p_blocks ps)) as [q|] eqn:F.
  - apply find_some in F as [F1 F2]. cbn [option_map]. f_equal.
    apply andb_true_iff in F2 as [F2 _]. apply andb_true_iff in F2 as [F2 F3]. apply N.leb_le in F2. apply N.ltb_lt in F3.
    assert (q = (id, Block a n al)) as -> by (apply (good_byte ps q _ a G F1 B); unfold has_byte; cbn; lia). reflexivity.
  - pose proof (find_none _ _ F _ B) as K. cbn [fst snd b_base b_size] in K. rewrite N.leb_refl in K.
    replace (a <? a + n) with true in K by (symmetry; apply N.ltb_lt; lia). cbn [andb] in K.
    assert (Y : existsb (Nat.eqb id) (p_exposed ps) = true) by (apply existsb_exists; exists id; rewrite Nat.eqb_refl; auto).
    rewrite Y in K. discriminate K.
Qed.

Lemma access_sees ps a H : good ps -> readable ps a H ->
  exists p, to_ptr false a ps = POk p ps /\ fst p = a /\ forall ps', incl (p_blocks ps) (p_blocks ps') -> p_access H p ps' = POk tt ps'.
Proof.
  intros G R. destruct (N.eq_dec (h_size H) 0) as [Z|Z].
  - eexists. split; [reflexivity|]. split; [reflexivity|]. intros ps' _. unfold p_access. rewrite Z. reflexivity.
  - destruct (R Z) as (n & S & L). destruct (to_ptr_sees ps a n G ltac:(lia) S) as (id & al & T & B).
    exists (a, Some id). split; [exact T|]. split; [reflexivity|]. intros ps' Inc. unfold p_access, reaches. cbn [fst snd].
    assert (X : existsb (fun b => Nat.eqb (fst b) id && block_contains a (h_size H) (snd b)) (p_blocks ps') = true).
    { apply existsb_exists. eexists. split; [exact (Inc _ B)|]. cbn [fst snd]. unfold block_contains. cbn [b_base b_size].
      rewrite Nat.eqb_refl, N.leb_refl. cbn [andb]. apply N.leb_le. lia. }
    rewrite X, orb_true_r. reflexivity.
Qed.

Lemma read_state H a s : match read_at H a s with Ok _ s' => s' = s | Panicked _ _ => False | UB _ => True end.
Proof.
  unfold read_at, bind. pose proof (ProvenanceFacts.check_blocks H a s) as C. destruct (check_access H a s); [|contradiction|exact Logic.I].
  subst s0. destruct (read_fields (bytes s) a (h_fields H)); [reflexivity|exact Logic.I].
Qed.

Lemma write_state H a v s : match write_at H a v s with Ok _ s' => blocks s' = blocks s | Panicked _ _ => False | UB _ => True end.
Proof.
  unfold write_at, bind. pose proof (ProvenanceFacts.check_blocks H a s) as C. destruct (check_access H a s); [|contradiction|exact Logic.I].
  subst s0. reflexivity.
Qed.

Lemma fol_read ps a H : good ps -> readable ps a H ->
  follows_ eq (pbind (to_ptr false a) (fun p => p_read H p)) (read_at H a) ps.
Proof.
  intros G R. destruct (access_sees ps a H G R) as (p & T & <- & A). unfold follows_.
  pose proof (read_state H (fst p) (p_mem ps)) as S. destruct (read_at H (fst p) (p_mem ps)) as [v s'|q s'|u] eqn:Rd; [|contradiction|exact Logic.I].
  subst s'. exists ps. split; [|auto]. unfold pbind at 1. rewrite T. unfold p_read, pbind. rewrite (A ps (incl_refl _)).
  unfold under. rewrite Rd, mem_id. reflexivity.
Qed.

(** Changing a value in place. *)
Lemma fol_modify ps E w U f : good ps -> readable ps (tp_as_ptr (tgt E) w) U ->
  follows_ made (p_modify E false U w f) (tb_modify E U w f) ps.
Proof.
  intros G R. unfold tb_modify, p_modify. change (tp_mut_ref_addr (tgt E) w) with (tp_as_ptr (tgt E) w).
  destruct (access_sees ps _ U G R) as (p & T & Hp & A). rewrite <- Hp in *.
  assert (X : follows_ made (pbind (p_read U p) (fun v => p_write U p (f v)))
                (bind (read_at U (fst p)) (fun v => write_at U (fst p) (f v))) ps).
  { apply fol_bind; [exact made_trans| |].
    - eapply fol_weak; [exact eq_made|]. unfold follows_. pose proof (read_state U (fst p) (p_mem ps)) as S.
      destruct (read_at U (fst p) (p_mem ps)) as [v s'|q s'|u] eqn:Rd; [|contradiction|exact Logic.I]. subst s'. exists ps.
      split; [|auto]. unfold p_read, pbind. rewrite (A ps (incl_refl _)). unfold under. rewrite Rd, mem_id. reflexivity.
    - intros v ps' _ M. destruct (M G) as (_ & Inc & _). pose proof (fol_under (write_at U (fst p) (f v)) ps') as Q.
      unfold follows_, p_write, pbind. rewrite (A ps' Inc). apply Q. pose proof (write_state U (fst p) (f v) (p_mem ps')) as W.
      destruct (write_at U (fst p) (f v) (p_mem ps')); [exact W|contradiction|exact Logic.I]. }
  eapply fol_same; [|reflexivity|exact X]. unfold pbind at 1. rewrite T. reflexivity.
Qed.

Lemma fol_assign ps E w U val : good ps -> readable ps (tp_as_ptr (tgt E) w) U ->
  follows_ made (pbind (to_ptr false (tp_mut_ref_addr (tgt E) w)) (fun p => p_assign U p val)) (tb_assign E U w val) ps.
Proof.
  intros G R. unfold tb_assign. change (tp_mut_ref_addr (tgt E) w) with (tp_as_ptr (tgt E) w).
  destruct (access_sees ps _ U G R) as (p & T & Hp & A). rewrite <- Hp in *.
  assert (X : follows_ made (p_assign U p val)
                (bind (read_at U (fst p)) (fun old => bind (drop_hval U old) (fun _ => write_at U (fst p) val))) ps).
  { unfold p_assign. apply fol_bind; [exact made_trans| |].
    - eapply fol_weak; [exact eq_made|]. unfold follows_. pose proof (read_state U (fst p) (p_mem ps)) as S.
      destruct (read_at U (fst p) (p_mem ps)) as [v s'|q s'|u] eqn:Rd; [|contradiction|exact Logic.I]. subst s'. exists ps.
      split; [|auto]. unfold p_read, pbind. rewrite (A ps (incl_refl _)). unfold under. rewrite Rd, mem_id. reflexivity.
    - intros v ps1 _ M1. apply fol_bind; [exact made_trans|apply fol_under; reflexivity|]. intros _ ps' _ M2.
      destruct (M1 G) as (G1 & Inc1 & _). destruct (M2 G1) as (_ & Inc2 & _).
      pose proof (fol_under (write_at U (fst p) val) ps') as Q.
      unfold follows_, p_write, pbind. rewrite (A ps' (incl_tran Inc1 Inc2)). apply Q. pose proof (write_state U (fst p) val (p_mem ps')) as W.
      destruct (write_at U (fst p) val (p_mem ps')); [exact W|contradiction|exact Logic.I]. }
  eapply fol_same; [|reflexivity|exact X]. unfold pbind at 1. rewrite T. reflexivity.
Qed.

(** Making a box. *)
Lemma fol_new ps E U val d : alloc_ok E -> layout_legal U -> follows_ made (p_new E U val d) (tb_new E U val d) ps.
Proof.
  intros Ha Hl. unfold p_new, tb_new. destruct (N.eqb_spec (h_size U) 0) as [Z|Z].
  - apply fol_bind; [exact made_trans|apply fol_under; reflexivity|]. intros _ ps' _ _. apply fol_ret, made_refl.
  - unfold follows_. destruct (alloc_fn E (p_mem ps) (h_size U) (h_align U)) as [a|] eqn:Al.
    + set (s1 := St (undef_range (bytes (p_mem ps)) a (h_size U)) (Block a (h_size U) (h_align U) :: blocks (p_mem ps))
                 (events (p_mem ps) ++ [EvAlloc a (h_size U) (h_align U)])).
      set (ps2 := PSt s1 ((p_next ps, Block a (h_size U) (h_align U)) :: p_blocks ps) (p_next ps :: p_exposed ps) (S (p_next ps))).
      assert (M : made ps ps2).
      { intros [[N1 N2 N3] [T1 T2]].
        destruct (Ha (p_mem ps) (h_size U) (h_align U) a ltac:(lia) (ll_align U Hl) Al) as (_ & _ & _ & K).
        split; [split|cbn [p_blocks p_exposed ps2]; split; [|split]].
        - constructor; cbn [p_blocks p_mem p_next ps2 s1 blocks map fst snd].
          + rewrite N1. reflexivity.
          + constructor; [|exact N2]. intros F. apply in_map_iff in F as (q & F1 & F2). specialize (N3 q F2). lia.
          + intros q [<-|Q]; cbn [fst]; [lia|]. specialize (N3 q Q). lia.
        - cbn [ps2 p_mem s1 blocks]. constructor; constructor; auto. apply Forall_forall. intros b Hb. apply (K b Hb).
        - intros q Q. right. exact Q.
        - intros q Q. right. exact Q.
        - intros q [<-|Q]; [right; left; reflexivity|auto]. }
      assert (W : follows_ made (pbind (p_write U (a, Some (p_next ps)) val)
                    (fun _ => pbind (to_int (a, Some (p_next ps))) (fun a0 => under (of_outcome (tp_new (tgt E) a0 d)))))
                  (bind (write_at U a val) (fun _ => of_outcome (tp_new (tgt E) a d))) ps2).
      { apply fol_bind; [exact made_trans| |].
        - pose proof (fol_under (write_at U a val) ps2) as Q. unfold follows_, p_write, pbind.
          assert (Acc : p_access U (a, Some (p_next ps)) ps2 = POk tt ps2).
          { unfold p_access, reaches. cbn [fst snd ps2 p_blocks existsb]. rewrite Nat.eqb_refl. unfold block_contains at 1.
            cbn [b_base b_size]. rewrite !N.leb_refl. cbn [andb orb]. rewrite orb_true_r. reflexivity. }
          rewrite Acc. apply Q. pose proof (write_state U a val (p_mem ps2)) as W.
          destruct (write_at U a val (p_mem ps2)); [exact W|contradiction|exact Logic.I].
        - intros _ ps3 _ M3.
          set (ps4 := PSt (p_mem ps3) (p_blocks ps3) (p_next ps :: p_exposed ps3) (p_next ps3)).
          assert (M4 : made ps3 ps4).
          { intros [[N1 N2 N3] T]. split; [split; [constructor; assumption|exact T]|]. cbn [ps4 p_blocks p_exposed].
            split; [apply incl_refl|]. split; [intros q Q; right; exact Q|]. intros q Q. left. exact Q. }
          pose proof (fol_under (of_outcome (tp_new (tgt E) a d)) ps4) as Q.
          assert (Q' : follows_ made (under (of_outcome (tp_new (tgt E) a d))) (of_outcome (tp_new (tgt E) a d)) ps4)
            by (apply Q; destruct (tp_new (tgt E) a d); reflexivity).
          unfold follows_ in *. unfold pbind, to_int. cbn [fst snd]. fold ps4. change (p_mem ps4) with (p_mem ps3) in Q'.
          destruct (of_outcome (tp_new (tgt E) a d) (p_mem ps3)) as [b s'|q s'|u]; [| |exact Logic.I];
            destruct Q' as (ps5 & Q1 & Q2 & Q3); exists ps5; eauto using made_trans. }
      match goal with |- match ?m with _ => _ end =>
        assert (Em : m = bind (write_at U a val) (fun _ => of_outcome (tp_new (tgt E) a d)) s1)
          by (unfold bind, alloc; rewrite Al; reflexivity); rewrite Em; clear Em end.
      assert (Ep : pbind (p_alloc (alloc_fn E) (h_size U) (h_align U)) (fun p => match p with
          | Some ptr => pbind (to_int ptr) (fun _ => pbind (p_write U ptr val) (fun _ => pbind (to_int ptr) (fun a0 => under (of_outcome (tp_new (tgt E) a0 d)))))
          | None => pbind (under (drop_hval U val)) (fun _ => under (raise PanicNullAlloc)) end) ps =
        pbind (p_write U (a, Some (p_next ps)) val)
          (fun _ => pbind (to_int (a, Some (p_next ps))) (fun a0 => under (of_outcome (tp_new (tgt E) a0 d)))) ps2)
        by (unfold pbind at 1, p_alloc, alloc; rewrite Al; reflexivity).
      unfold follows_ in W. change (p_mem ps2) with s1 in W.
      destruct (bind (write_at U a val) (fun _ => of_outcome (tp_new (tgt E) a d)) s1) as [b s'|q s'|u]; [| |exact Logic.I];
        destruct W as (ps5 & Q1 & Q2 & Q3); exists ps5; (split; [exact (eq_trans Ep Q1)|]); eauto using made_trans.
    + eapply (fol_same made _ (pbind (under (drop_hval U val)) (fun _ => under (raise PanicNullAlloc))) _
        (bind (drop_hval U val) (fun _ => raise PanicNullAlloc))).
      * unfold pbind at 1, p_alloc, alloc. rewrite Al, mem_id. reflexivity.
      * unfold bind at 1, alloc. rewrite Al. reflexivity.
      * apply fol_bind; [exact made_trans|apply fol_under; reflexivity|]. intros _ ps' _ _. eapply fol_weak; [exact eq_made|apply fol_raise].
Qed.

(** ** User code *)

Lemma tidy_nodup l : tidy l -> NoDup l.
Proof.
  intros [S A]. induction l as [|b l IH]; [constructor|]. inversion S as [|? ? S1 S2]; subst. inversion A as [|? ? A1 A2]; subst.
  constructor; [|apply IH; assumption]. intros F. rewrite Forall_forall in A1. specialize (A1 b F). lia.
Qed.

Lemma renumber_spec old n bs l n' : renumber old n bs = (l, n') ->
  map snd l = bs /\ (n <= n')%nat /\ (forall q, In q l -> In q old \/ (n <= fst q < n')%nat).
Proof.
  revert n l n'. induction bs as [|b bs IH]; intros n l n' H; cbn [renumber] in H.
  - injection H as <- <-. split; [reflexivity|]. split; [lia|intros q []].
  - destruct (find _ old) as [q0|] eqn:F.
    + destruct (renumber old n bs) as [r m] eqn:Rn. injection H as <- <-. destruct (IH _ _ _ Rn) as (A & B & C).
      apply find_some in F as [F1 F2]. apply block_eqb_eq in F2. split; [cbn; congruence|]. split; [lia|].
      intros q [<-|Q]; [|auto]. left. rewrite <- F2. destruct q0. exact F1.
    + destruct (renumber old (S n) bs) as [r m] eqn:Rn. injection H as <- <-. destruct (IH _ _ _ Rn) as (A & B & C).
      split; [cbn; congruence|]. split; [lia|]. intros q [<-|Q]; [right; cbn [fst]; lia|]. destruct (C q Q); [auto|right; lia].
Qed.

Lemma renumber_once old n bs l n' : NoDup (map fst old) -> (forall q, In q old -> (fst q < n)%nat) -> NoDup bs ->
  renumber old n bs = (l, n') -> NoDup (map fst l).
Proof.
  intros N1. revert n l n'. induction bs as [|b bs IH]; intros n l n' N2 N3 H; cbn [renumber] in H.
  - injection H as <- <-. constructor.
  - inversion N3 as [|? ? K1 K2]; subst. destruct (find _ old) as [q0|] eqn:F.
    + destruct (renumber old n bs) as [r m] eqn:Rn. injection H as <- <-. cbn [map fst]. constructor; [|eapply IH; eassumption].
      apply find_some in F as [F1 F2]. apply block_eqb_eq in F2. intros X. apply in_map_iff in X as (q & X1 & X2).
      destruct (renumber_spec _ _ _ _ _ Rn) as (A & _ & C). destruct (C q X2) as [C'|C'].
      * assert (snd q = snd q0).
        { destruct q as [j b1], q0 as [j0 b0]. cbn [fst snd] in *. subst j0. exact (same_number _ _ _ _ N1 C' F1). }
        apply K1. rewrite <- F2, <- H, <- A. apply in_map, X2.
      * specialize (N2 q0 F1). lia.
    + destruct (renumber old (S n) bs) as [r m] eqn:Rn. injection H as <- <-. cbn [map fst].
      constructor; [|eapply IH; [|eassumption|eassumption]; intros q Q; specialize (N2 q Q); lia].
      intros X. apply in_map_iff in X as (q & X1 & X2). destruct (renumber_spec _ _ _ _ _ Rn) as (_ & _ & C).
      destruct (C q X2) as [C'|C']; [specialize (N2 q C'); lia|lia].
Qed.

Lemma renumber_keeps old n bs l n' q : (forall q1 q2, In q1 old -> In q2 old -> snd q1 = snd q2 -> q1 = q2) ->
  renumber old n bs = (l, n') -> In q old -> In (snd q) bs -> In q l.
Proof.
  intros U. revert n l n'. induction bs as [|b bs IH]; intros n l n' H Q Hb; cbn [renumber] in H; [destruct Hb|].
  destruct (find _ old) as [q0|] eqn:F.
  - destruct (renumber old n bs) as [r m] eqn:Rn. injection H as <- <-. apply find_some in F as [F1 F2]. apply block_eqb_eq in F2.
    destruct Hb as [Hb|Hb]; [|right; eapply IH; eassumption].
    assert (q0 = q) as -> by (apply U; [assumption|assumption|congruence]). left. rewrite <- F2. destruct q. reflexivity.
  - destruct (renumber old (S n) bs) as [r m] eqn:Rn. injection H as <- <-. destruct Hb as [Hb|Hb]; [|right; eapply IH; eassumption].
    pose proof (find_none _ _ F q Q) as K. cbv beta in K. rewrite (proj2 (block_eqb_eq _ _) (eq_sym Hb)) in K. discriminate K.
Qed.

Lemma grew_after ps m : separate (p_mem ps) m -> grew ps (p_after m ps).
Proof.
  intros [K S] G. pose proof G as [[N1 N2 N3] T]. unfold p_after. destruct (renumber (p_blocks ps) (p_next ps) (blocks m)) as [l n] eqn:R.
  destruct (renumber_spec _ _ _ _ _ R) as (A & B & C). specialize (S T). split; [split; [constructor|]|]; cbn [p_blocks p_mem p_next p_exposed].
  - exact A.
  - eapply renumber_once; [exact N2|exact N3|apply tidy_nodup, S|exact R].
  - intros q Q. destruct (C q Q) as [D|D]; [specialize (N3 q D)|]; lia.
  - exact S.
  - split; [|apply incl_refl]. intros q Q. eapply renumber_keeps; [|exact R|exact Q|].
    + intros q1 q2 Q1 Q2 Eq.
      assert (Z : b_size (snd q1) <> 0).
      { destruct T as [T _]. rewrite Forall_forall in T. apply T. rewrite <- N1. apply in_map, Q1. }
      apply (good_byte ps q1 q2 (b_base (snd q1)) G Q1 Q2); unfold has_byte; rewrite <- ?Eq; lia.
    + apply K. rewrite <- N1. apply in_map, Q.
Qed.

Lemma after_mem m ps : p_mem (p_after m ps) = m.
Proof. unfold p_after. destruct (renumber _ _ _). reflexivity. Qed.

Lemma fol_user {A} (m : M A) r ps : computes separate (p_mem ps) m r -> follows_ grew (p_user m) m ps.
Proof.
  intros (s' & C & S). unfold follows_, p_user. rewrite C. destruct r; cbn [ends]; exists (p_after s' ps);
    auto using after_mem, grew_after.
Qed.

Lemma fol_exit (G : pst -> pst -> Prop) {A} b ev (pm : PM A) m ps : (forall a b c, G a b -> made b c -> G a c) ->
  follows_ G pm m ps -> follows_ G (p_at_exit b ev pm) (at_exit b ev m) ps.
Proof.
  intros W. unfold follows_, p_at_exit, at_exit. destruct b; [|auto].
  destruct (m (p_mem ps)) as [a s'|q s'|u]; [| |auto]; intros (ps' & -> & <- & X); eexists; (split; [reflexivity|]); (split; [reflexivity|]);
    (eapply W; [exact X|apply made_mem; reflexivity]).
Qed.

(** ** The generated functions *)

Lemma gen_all_in {A} (g : string -> vkind -> option A) vs l a : gen_all g vs = Some l -> In a l ->
  exists v k, In (v, k) vs /\ g v k = Some a.
Proof.
  revert l. induction vs as [|[v k] vs IH]; intros l H Q; cbn [gen_all] in H.
  - injection H as <-. destruct Q.
  - destruct (g v k) as [b|] eqn:Eg; [|discriminate]. destruct (gen_all g vs) as [r|]; [|discriminate]. injection H as <-.
    destruct Q as [<-|Q]; [exists v, k; split; [left; reflexivity|exact Eg]|]. destruct (IH r eq_refl Q) as (v' & k' & H1 & H2).
    exists v', k'. split; [right|]; assumption.
Qed.

Lemma find_into_in v arms a : find_into v arms = Some a -> In a arms.
Proof.
  induction arms as [|b arms IH]; cbn [find_into]; [discriminate|]. destruct (String.eqb v (ia_variant b)); [|right; auto].
  intros H. injection H as <-. left. reflexivity.
Qed.

Definition body_legal (b : into_body) : Prop :=
  match b with
  | INewLeaf t _ => layout_legal (leaf_hty t)
  | INewTuple tys _ => layout_legal (reprC tys)
  | INewStruct ms _ => layout_legal (reprC (map snd ms))
  | IDangling => True
  end.

Lemma gen_into_legal v k a : Forall wf_ty (kind_types k) -> gen_into v k = Some a -> body_legal (ia_body a).
Proof.
  intros W H. destruct k as [|[|t [|t2 tys]]|ms]; cbn [gen_into] in H; try (injection H as <-; cbn [ia_body body_legal]; try exact Logic.I).
  - apply (storage_legal (KTuple [t]) _ W eq_refl).
  - destruct (find_arm _ _) as [[p q]|]; [|discriminate]. injection H as <-. cbn [ia_body body_legal].
    apply (storage_legal (KTuple (t :: t2 :: tys)) _ W eq_refl).
  - apply (storage_legal (KStruct ms) _ W eq_refl).
Qed.

Section Generated.
Variables (E : env) (def : edef) (x : expansion).
Hypothesis Hs : macro_setup E def x.

Let Hd : def_ok def := ms_def _ _ _ Hs.
Let Hx : expand def = Some x := ms_expand _ _ _ Hs.
Let H8 := setup_u8 _ _ _ Hs.
Let X := expand_inv _ _ Hx.

Lemma fol_resolve (G : pst -> pst -> Prop) {A B} (o : option A) (pk : A -> PM B) k ps :
  (forall a, o = Some a -> follows_ G (pk a) (k a) ps) -> follows_ G (pbind (under (resolved o)) pk) (bind (resolved o) k) ps.
Proof.
  intros H. destruct o as [a|]; [|exact Logic.I]. eapply fol_same; [| |exact (H a eq_refl)]; [|reflexivity].
  unfold pbind, under, resolved, ret. rewrite mem_id. reflexivity.
Qed.

Lemma fol_into v ps : follows_ made (pk_into E x v) (macro_into E x v) ps.
Proof.
  pose proof (eo_alloc _ (ms_env _ _ _ Hs)) as Ha.
  unfold pk_into, macro_into. apply fol_exit; [exact made_trans|]. apply fol_resolve. intros a Fa. apply fol_resolve. intros binds _.
  apply fol_resolve. intros tag _. apply find_into_in in Fa. destruct (gen_all_in _ _ _ _ (xp_into _ _ X) Fa) as (n & k & Hin & Ga).
  apply (gen_into_legal n k a (kind_types_wf _ _ _ Hd Hin)) in Ga. destruct (ia_body a) as [t arg|tys args|ms lit|]; cbn [pk_into_body run_into_body body_legal] in *.
  - apply fol_resolve. intros vs _. apply fol_new; assumption.
  - apply fol_resolve. intros vs _. apply fol_new; assumption.
  - apply fol_resolve. intros vals _. apply fol_resolve. intros vs _. apply fol_new; assumption.
  - apply fol_ret, made_refl.
Qed.

(** The arm taken. *)
Fixpoint hit (d : N) (arms : list read_arm) : option read_arm :=
  match arms with
  | [] => None
  | a :: r => match eval_tag x (ra_tag a) with Some t => if d =? t then Some a else hit d r | None => None end
  end.

Lemma hit_runs d arms s o : match_disc x d arms (fun a => ret (Some a)) (ret None) s = Ok o s -> hit d arms = o.
Proof.
  induction arms as [|a arms IH]; cbn [match_disc hit]; [intros H; injection H as <-; reflexivity|].
  unfold bind at 1. destruct (eval_tag x (ra_tag a)) as [t|]; cbn [resolved ret]; [|intros H; discriminate H].
  destruct (d =? t); [intros H; injection H as <-; reflexivity|exact IH].
Qed.

Lemma hit_gen g arms w a : (forall v k a, g v k = Some a -> ra_tag a = tag_of v /\ ra_variant a = v) ->
  gen_all g (e_variants def) = Some arms -> hit (tb_discriminant E w) arms = Some a ->
  exists v k, nth_error (e_variants def) (N.to_nat (tb_discriminant E w)) = Some (v, k) /\ g v k = Some a.
Proof.
  intros Hg Ga Hh.
  pose proof (match_disc_nth def x Hd Hx g arms (fun a => ret (Some a)) (ret None) (tb_discriminant E w) (St (fun _ => Undef) [] []) Hg Ga
    (disc_u8 E w H8)) as Mn.
  assert (Hn : hit (tb_discriminant E w) arms = nth_error arms (N.to_nat (tb_discriminant E w))).
  { apply (hit_runs _ _ (St (fun _ => Undef) [] [])). rewrite Mn. destruct (nth_error arms _); reflexivity. }
  rewrite Hh in Hn. destruct (gen_all_nth _ _ _ Ga) as [_ Nt]. specialize (Nt (N.to_nat (tb_discriminant E w))).
  destruct (nth_error (e_variants def) _) as [[v k]|]; [|congruence]. destruct Nt as (b & B1 & B2). exists v, k. split; [reflexivity|congruence].
Qed.

Lemma fol_match (G : pst -> pst -> Prop) {A} d arms (pb : read_arm -> PM A) b pd df ps :
  (forall a, hit d arms = Some a -> follows_ G (pb a) (b a) ps) -> follows_ G pd df ps ->
  follows_ G (pk_match x d arms pb pd) (match_disc x d arms b df) ps.
Proof.
  intros Hb Hdf. revert Hb. induction arms as [|a arms IH]; intros Hb; cbn [pk_match match_disc]; [exact Hdf|].
  apply fol_resolve. intros t Ht. cbn [hit] in Hb. rewrite Ht in Hb. destruct (d =? t); auto.
Qed.

Definition build_type (b : build) : option hty :=
  match b with
  | BUnit | BEmpty => None
  | BLeaf t => Some (leaf_hty t)
  | BReprC tys _ => Some (reprC tys)
  | BTuple tys _ => Some (tuple_layout E tys)
  | BStruct ms _ _ => Some (reprC (map snd ms))
  end.

Lemma fol_build prd rd v b ps : (forall H, build_type b = Some H -> follows_ eq (prd H) (rd H) ps) ->
  follows_ eq (pk_build E x prd v b) (run_build E x rd v b) ps.
Proof.
  intros Hr. destruct b as [| |t|tys idx|tys idx|ms pat lit]; cbn [pk_build run_build build_type] in *; try (apply fol_ret; reflexivity);
    (apply fol_bind; [exact eq_trans3|apply Hr; reflexivity|]); intros vs ps' _ <-.
  - apply fol_ret. reflexivity.
  - apply fol_resolve. intros l _. apply fol_ret. reflexivity.
  - apply fol_resolve. intros l _. apply fol_ret. reflexivity.
  - apply fol_resolve. intros l1 _. apply fol_resolve. intros l2 _. apply fol_resolve. intros l3 _. apply fol_ret. reflexivity.
Qed.

Lemma inner_type v k a : gen_inner v k = Some a -> build_type (ra_build a) = storage k.
Proof.
  destruct k as [|[|t [|t2 tys]]|ms]; cbn [gen_inner]; intros H; try (injection H as <-; reflexivity).
  destruct (expand_tuple _); [|discriminate H]. injection H as <-. reflexivity.
Qed.
Lemma ref_type v k a : gen_ref v k = Some a -> build_type (ra_build a) = storage k.
Proof.
  destruct k as [|[|t [|t2 tys]]|ms]; cbn [gen_ref]; intros H; try (injection H as <-; reflexivity).
  destruct (expand_tuple _); [|discriminate H]. injection H as <-. reflexivity.
Qed.
Lemma from_type v k a : gen_from v k = Some a -> build_type (ra_build a) = from_storage E k.
Proof.
  destruct k as [|[|t [|t2 tys]]|ms]; cbn [gen_from]; intros H; try (injection H as <-; reflexivity).
  destruct (expand_tuple _); [|discriminate H]. injection H as <-. reflexivity.
Qed.

(** The block of a container is live and exposed. *)
Definition kown (ps : pst) (w : tagged_ptr) : Prop := forall v k U,
  nth_error (e_variants def) (N.to_nat (tb_discriminant E w)) = Some (v, k) -> storage k = Some U -> h_size U <> 0 ->
  sees ps (tb_as_ptr E w) (h_size U).

Lemma kown_grew ps ps' w : good ps -> grew ps ps' -> kown ps w -> kown ps' w.
Proof. intros G H K v k U A B C. eapply grew_sees; [exact G|exact H|]. eapply K; eassumption. Qed.

Lemma kown_readable ps w v k U : kown ps w -> nth_error (e_variants def) (N.to_nat (tb_discriminant E w)) = Some (v, k) ->
  storage k = Some U -> readable ps (tb_as_ptr E w) U.
Proof. intros K A B Z. exists (h_size U). split; [eapply K; eassumption|lia]. Qed.

Lemma fol_inner w ps : good ps -> kown ps w -> follows_ eq (pk_into_inner E x false w) (macro_into_inner E x w) ps.
Proof.
  intros G K. unfold pk_into_inner, macro_into_inner. apply fol_match; [|apply fol_raise]. intros a Ha.
  destruct (hit_gen gen_inner _ w a gen_inner_tag (xp_inner _ _ X) Ha) as (v & k & Hn & Ga). apply fol_build. intros H Ht.
  rewrite (inner_type v k a Ga) in Ht. apply fol_read; [exact G|]. exact (kown_readable ps w v k H K Hn Ht).
Qed.

Lemma fol_from w ps : good ps -> kown ps w ->
  (forall v k, nth_error (e_variants def) (N.to_nat (tb_discriminant E w)) = Some (v, k) -> several_fields k ->
     readable_as (reprC (kind_types k)) (tuple_layout E (kind_types k))) ->
  follows_ eq (pk_from E x false w) (macro_from E x w) ps.
Proof.
  intros G K L. unfold pk_from, macro_from. apply fol_match; [|apply fol_raise]. intros a Ha.
  destruct (hit_gen gen_from _ w a gen_from_tag (xp_from _ _ X) Ha) as (v & k & Hn & Ga). apply fol_build. intros H Ht.
  rewrite (from_type v k a Ga) in Ht. apply fol_read; [exact G|].
  destruct k as [|[|t [|t2 tys]]|ms]; cbn [from_storage] in Ht; try (exact (kown_readable ps w v _ H K Hn Ht)).
  injection Ht as <-. intros Z. specialize (L v _ Hn). cbn [several_fields kind_types List.length] in L.
  destruct L as (_ & _ & L); [lia|]. exists (h_size (reprC (t :: t2 :: tys))). split; [|exact L].
  eapply K; [exact Hn|reflexivity|lia].
Qed.

Lemma fol_pure (G : pst -> pst -> Prop) {A B} (pm : PM A) m (pk : A -> PM B) k ps : G ps ps -> follows_ eq pm m ps ->
  (forall a, m (p_mem ps) = Ok a (p_mem ps) -> follows_ G (pk a) (k a) ps) -> follows_ G (pbind pm pk) (bind m k) ps.
Proof.
  unfold follows_, pbind, bind. intros T H1 H2. destruct (m (p_mem ps)) as [a s'|q s'|u].
  - destruct H1 as (ps' & -> & <- & <-). exact (H2 a eq_refl).
  - destruct H1 as (ps' & -> & H & <-). exists ps. auto.
  - exact Logic.I.
Qed.

Lemma hit_body {A} d arms (b : read_arm -> M A) df a s : hit d arms = Some a -> match_disc x d arms b df s = b a s.
Proof.
  induction arms as [|c arms IH]; cbn [hit match_disc]; [discriminate|]. unfold bind at 1.
  destruct (eval_tag x (ra_tag c)) as [t|]; [|discriminate]. cbn [resolved ret]. destruct (d =? t); [|exact IH].
  intros H. injection H as <-. reflexivity.
Qed.

Lemma fol_ref {A} w v (pcb : evalue -> A -> PM A) cb c ps : good ps -> kown ps w -> boxed E def (p_mem ps) w v -> evalue_ok def v ->
  follows_ grew (pcb v c) (cb v c) ps -> follows_ grew (pk_ref E x false w pcb c) (macro_ref E x A w cb c) ps.
Proof.
  intros G K B V F.
  destruct (view_runs E def x Hs (p_mem ps) w v (option evalue) (fun u _ => ret (Some u)) None (Done (Some v)) (p_mem ps) B V eq_refl) as (s2 & Vw & _).
  unfold pk_ref, macro_ref. apply fol_match; [|eapply fol_weak; [|apply fol_raise]; intros a b <-; apply grew_refl]. intros a Ha.
  unfold macro_ref in Vw. rewrite (hit_body _ _ _ _ a _ Ha) in Vw.
  destruct (hit_gen gen_ref _ w a gen_ref_tag (xp_ref _ _ X) Ha) as (n & k & Hn & Ga).
  apply fol_pure; [apply grew_refl| |].
  - apply fol_build. intros H Ht. rewrite (ref_type n k a Ga) in Ht. apply fol_read; [exact G|]. exact (kown_readable ps w n k H K Hn Ht).
  - intros u Ru. unfold bind in Vw. rewrite Ru in Vw. assert (u = v) as ->.
    { unfold at_exit, ret in Vw. cbn [ends] in Vw. destruct (x_drop x && negb (ra_guarded a)); congruence. }
    apply fol_exit; [intros b b' b'' Q1 Q2; eapply grew_trans; [exact Q1|apply made_grew, Q2]|exact F].
Qed.

(** A new container. *)
Lemma kown_new ps ps1 v k w : good ps -> made ps ps1 -> In (ev_variant v, k) (e_variants def) -> boxed E def (p_mem ps1) w v ->
  own_block E (p_mem ps) (p_mem ps1) k w -> kown ps1 w.
Proof.
  intros G M Hin B O n k' U Hn Hu Z. destruct (M G) as ([[N1 _ _] _] & _ & _ & M4).
  destruct B as (i & k1 & Hi & Ht & _). rewrite Ht, Nat2N.id, Hi in Hn. injection Hn as <- <-.
  assert (k1 = k) as -> by (pose proof (assoc_in _ _ _ (do_names _ Hd) Hin); pose proof (assoc_in _ _ _ (do_names _ Hd) (nth_error_In _ _ Hi)); congruence).
  unfold own_block in O. rewrite Hu in O. destruct (N.eqb_spec (h_size U) 0) as [|_]; [contradiction|]. destruct O as [O1 O2].
  assert (Hb : In (Block (tb_as_ptr E w) (h_size U) (h_align U)) (map snd (p_blocks ps1))) by (rewrite N1, O1; left; reflexivity).
  apply in_map_iff in Hb as ([id b] & Hb & Q). cbn [snd] in Hb. subst b. exists id, (h_align U). split; [exact Q|].
  destruct (M4 _ Q) as [K|K]; [|exact K]. exfalso. destruct G as [[N0 _ _] _].
  assert (Hb : In (Block (tb_as_ptr E w) (h_size U) (h_align U)) (blocks (p_mem ps)))
    by (rewrite <- N0; apply (in_map snd) in K; exact K).
  specialize (O2 _ Hb). cbn [b_base b_size] in O2. lia.
Qed.

(** ** One step *)

Definition cells_ok (ps : pst) (c : list kcell) : Prop := forall i w, nth_error c i = Some (KBox w) -> kown ps w.

Lemma cells_put ps c i y : cells_ok ps c -> (forall w, y = KBox w -> kown ps w) -> cells_ok ps (put i y c).
Proof. intros H Hy j w Hj. apply put_nth in Hj as [[_ Hj]|[_ Hj]]; [apply Hy; congruence|exact (H j w Hj)]. Qed.
Lemma cells_add ps c y : cells_ok ps c -> (forall w, y = KBox w -> kown ps w) -> cells_ok ps (c ++ [y]).
Proof. intros H Hy j w Hj. apply nth_add in Hj as [Hj|[_ Hj]]; [exact (H j w Hj)|apply Hy; congruence]. Qed.
Lemma cells_grew ps ps' c : good ps -> grew ps ps' -> cells_ok ps c -> cells_ok ps' c.
Proof. intros G M H i w Hi. eapply kown_grew; [exact G|exact M|exact (H i w Hi)]. Qed.

Variables (I : impls) (F : st -> meaning).
Hypothesis HI : implements separate def I F.

(** What a step has to do. *)
Definition pk_ok (o : kop) (c : list kcell) (ps : pst) (pm : PM (kobs * list kcell)) (m : M (kobs * list kcell)) : Prop :=
  match m (p_mem ps) with
  | Ok (r, c') s' => exists ps', pm ps = POk (r, c') ps' /\ p_mem ps' = s' /\ good ps' /\ cells_ok ps' c'
  | Panicked q s' => exists ps', pm ps = PPanic q ps' /\ p_mem ps' = s' /\ good ps' /\ cells_ok ps' (kafter_panic o c)
  | UB _ => True
  end.

Lemma after_ok ps o c : cells_ok ps c -> cells_ok ps (kafter_panic o c).
Proof.
  intros H. destruct o; cbn [kafter_panic]; try exact H; try (apply cells_put; [exact H|intros w0 Hw; discriminate Hw]);
    apply cells_add; try exact H; intros w0 Hw; discriminate Hw.
Qed.

(** No new container. *)
Lemma ok_plain {A} o c ps (pm : PM A) m (f : A -> kobs * list kcell) : good ps -> cells_ok ps c -> follows_ grew pm m ps ->
  (forall a ps', cells_ok ps' c -> cells_ok ps' (snd (f a))) ->
  pk_ok o c ps (pbind pm (fun a => pret (f a))) (bind m (fun a => ret (f a))).
Proof.
  intros G C H Hf. unfold pk_ok, follows_, pbind, bind, pret, ret in *. destruct (m (p_mem ps)) as [a s'|q s'|u]; [| |exact Logic.I];
    destruct H as (ps' & -> & <- & Gr); destruct (Gr G) as (G' & _).
  - specialize (Hf a ps' (cells_grew _ _ _ G Gr C)). destruct (f a) as [r c']. exists ps'. auto.
  - exists ps'. split; [reflexivity|]. split; [reflexivity|]. split; [exact G'|]. apply after_ok. exact (cells_grew _ _ _ G Gr C).
Qed.

(** A new container. *)
Definition fresh_box (ps : pst) (pm : PM tagged_ptr) (m : M tagged_ptr) : Prop :=
  match m (p_mem ps) with
  | Ok w s' => exists ps', pm ps = POk w ps' /\ p_mem ps' = s' /\ grew ps ps' /\ kown ps' w
  | Panicked q s' => exists ps', pm ps = PPanic q ps' /\ p_mem ps' = s' /\ grew ps ps'
  | UB _ => True
  end.

Lemma ok_fresh o c ps pm m (f : tagged_ptr -> kobs * list kcell) : good ps -> cells_ok ps c -> fresh_box ps pm m ->
  (forall w ps', cells_ok ps' c -> kown ps' w -> cells_ok ps' (snd (f w))) ->
  pk_ok o c ps (pbind pm (fun a => pret (f a))) (bind m (fun a => ret (f a))).
Proof.
  intros G C H Hf. unfold pk_ok, fresh_box, pbind, bind, pret, ret in *. destruct (m (p_mem ps)) as [w s'|q s'|u]; [| |exact Logic.I].
  - destruct H as (ps' & -> & <- & Gr & Kn). destruct (Gr G) as (G' & _).
    specialize (Hf w ps' (cells_grew _ _ _ G Gr C) Kn). destruct (f w) as [r c']. exists ps'. auto.
  - destruct H as (ps' & -> & <- & Gr). destruct (Gr G) as (G' & _).
    exists ps'. split; [reflexivity|]. split; [reflexivity|]. split; [exact G'|]. apply after_ok. exact (cells_grew _ _ _ G Gr C).
Qed.

Lemma fresh_made ps v pm m : good ps -> evalue_ok def v -> tag_fits E def (ev_variant v) -> follows_ made pm m ps ->
  m (p_mem ps) = container_from E x v (p_mem ps) -> fresh_box ps pm m.
Proof.
  intros G (k & Hin & Ht) Hf H Hm. unfold fresh_box. unfold follows_ in H. rewrite Hm in *.
  destruct (container_from_fresh E def x v k (p_mem ps) Hs Hin Ht Hf) as [(w & s3 & R & _ & B & O & _)|(U & s3 & _ & _ & _ & R & _)];
    rewrite R in *; destruct H as (ps' & H1 & H2 & H3); exists ps'; split; auto using made_grew; split; auto using made_grew.
  subst s3. split; [apply made_grew, H3|]. eapply kown_new; eassumption.
Qed.

Lemma fresh_into ps v : good ps -> evalue_ok def v -> tag_fits E def (ev_variant v) ->
  fresh_box ps (pk_into E x v) (container_from E x v).
Proof. intros G V Hf. apply (fresh_made ps v); [exact G|exact V|exact Hf|exact (fol_into v ps)|reflexivity]. Qed.

Lemma kown_leaf ps s w v t : kown ps w -> boxed E def s w v -> In (ev_variant v, KTuple [t]) (e_variants def) ->
  readable ps (tb_as_ptr E w) (leaf_hty t).
Proof.
  intros K (i & k & Hi & Ht & _) Hin.
  assert (k = KTuple [t]) as -> by (pose proof (assoc_in _ _ _ (do_names _ Hd) Hin); pose proof (assoc_in _ _ _ (do_names _ Hd) (nth_error_In _ _ Hi)); congruence).
  eapply kown_readable; [exact K|rewrite Ht, Nat2N.id; exact Hi|reflexivity].
Qed.

Lemma ok_same o c ps pm pm' m : pm ps = pm' ps -> pk_ok o c ps pm' m -> pk_ok o c ps pm m.
Proof. unfold pk_ok. intros ->. auto. Qed.

Lemma fresh_after (G1 : pst -> pst -> Prop) {A} ps (pm : PM A) m pk k : good ps -> (forall a b, G1 a b -> grew a b) -> follows_ G1 pm m ps ->
  (forall a ps', m (p_mem ps) = Ok a (p_mem ps') -> good ps' -> fresh_box ps' (pk a) (k a)) ->
  fresh_box ps (pbind pm pk) (bind m k).
Proof.
  unfold follows_, fresh_box, pbind, bind. intros G W H1 H2. destruct (m (p_mem ps)) as [a s'|q s'|u]; [| |exact Logic.I].
  - destruct H1 as (ps' & -> & <- & X1). apply W in X1. destruct (X1 G) as (G' & _). specialize (H2 a ps' eq_refl G').
    destruct (k a (p_mem ps')) as [w s2|q s2|u]; [| |exact Logic.I].
    + destruct H2 as (ps2 & -> & <- & Gr & Kn). exists ps2. split; [reflexivity|]. split; [reflexivity|]. split; [|exact Kn]. eapply grew_trans; eassumption.
    + destruct H2 as (ps2 & -> & <- & Gr). exists ps2. split; [reflexivity|]. split; [reflexivity|]. eapply grew_trans; eassumption.
  - destruct H1 as (ps' & -> & <- & X1). exists ps'. auto.
Qed.

Theorem pk_step_sim s0 ps c a o : kinv E def s0 (p_mem ps) c a -> kcontract E def (F (p_mem ps)) a o ->
  kastep def (F (p_mem ps)) false o a <> None -> good ps -> cells_ok ps c ->
  exists pm m, pk_step E x false I o c = Some pm /\ kstep E x I o c = Some m /\ pk_ok o c ps pm m.
Proof.
  intros H Hc Hn G C.
  assert (Ge : forall a b : pst, a = b -> grew a b) by (intros u u' <-; apply grew_refl).
  assert (Box : forall i id loc v, nth_error (kcells a) i = Some (KABox id loc v) ->
    exists w, nth_error c i = Some (KBox w) /\ boxed E def (p_mem ps) w v /\ evalue_ok def v /\ kown ps w).
  { intros i id loc v Hy. destruct (Forall2_nth _ _ _ _ _ (ki_rel _ _ _ _ _ _ H) Hy) as ([w|v'|] & Hz & Rz); cbn [krel] in Rz; try contradiction.
    destruct Rz as (B & V & _). exists w. split; [exact Hz|]. split; [exact B|]. split; [exact V|exact (C i w Hz)]. }
  assert (Val : forall i id v, nth_error (kcells a) i = Some (KAVal id v) -> nth_error c i = Some (KVal v) /\ evalue_ok def v).
  { intros i id v Hy. destruct (Forall2_nth _ _ _ _ _ (ki_rel _ _ _ _ _ _ H) Hy) as ([w|v'|] & Hz & Rz); cbn [krel] in Rz; try contradiction.
    destruct Rz as (-> & V). auto. }
  destruct o as [v|i|src vals|i|i|i j|i j|i j|i o out|i o out|i o out|i|i|i n f|i n val|i|i|i|i]; cbn [kastep] in Hn; cbn [kstep pk_step].
  - (* KNew *)
    do 2 eexists. split; [reflexivity|]. split; [reflexivity|]. exists ps. split; [reflexivity|]. split; [reflexivity|]. split; [exact G|].
    apply cells_add; [exact C|intros w0 Hw; discriminate Hw].
  - (* KFrom *)
    destruct (nth_error (kcells a) i) as [[id loc v|id v|]|] eqn:Hy; try contradiction. destruct (Val _ _ _ Hy) as [Hz V]. rewrite Hz.
    do 2 eexists. split; [reflexivity|]. split; [reflexivity|]. apply ok_fresh; [exact G|exact C|apply fresh_into; [exact G|exact V|exact (Hc id v Hy)]|].
    intros w ps' C' Kn. apply cells_put; [exact C'|intros w0 Hw; injection Hw as <-; exact Kn].
  - (* KFromPayload *)
    destruct (payload_variant def src) as [n|] eqn:Pv; [|contradiction]. cbn [kcontract] in Hc. rewrite Pv in Hc.
    destruct (payload_found E def x Hs src n vals Pv (proj1 Hc)) as (f & Ff & Hf). rewrite Ff.
    do 2 eexists. split; [reflexivity|]. split; [reflexivity|]. apply ok_fresh; [exact G|exact C| |].
    2:{ intros w ps' C' Kn. apply cells_add; [exact C'|intros w0 Hw; injection Hw as <-; exact Kn]. }
    apply (fresh_made ps (EV n vals)); [exact G|exact (proj1 Hc)|exact (proj2 Hc)| |apply Hf].
    destruct f as [t n'|tys n' idx]; cbn [pk_from_payload container_from_payload]; [apply fol_into|].
    apply fol_resolve. intros vs _. apply fol_into.
  - (* KClone *)
    destruct (nth_error (kcells a) i) as [[id loc v|id v|]|] eqn:Hy; try contradiction. destruct (Box _ _ _ _ Hy) as (w & Hz & B & V & Kw). rewrite Hz.
    do 2 eexists. split; [reflexivity|]. split; [reflexivity|]. apply ok_fresh; [exact G|exact C| |].
    2:{ intros w' ps' C' Kn. apply cells_add; [exact C'|intros w0 Hw; injection Hw as <-; exact Kn]. }
    unfold pk_clone, tb_clone. cbn [ref_from_tagged_box macro_taggable into_tagged_box].
    destruct (im_clone _ _ _ _ HI (p_mem ps) v V) as [Cc Vc].
    apply (fresh_after grew); [exact G|auto| |].
    + eapply fol_ref; [exact G|exact Kw|exact B|exact V|]. apply fol_bind; [exact grew_trans|eapply fol_user; exact Cc|].
      intros u ps' _ _. apply fol_ret, grew_refl.
    + intros out ps' R1 G'.
      assert (Cs : computes separate (p_mem ps) (bind (i_clone I v) (fun c0 => ret (Some c0)))
                     (match m_clone (F (p_mem ps)) v with Done c0 => Done (Some c0) | Panics p => Panics p end)).
      { destruct Cc as (s1 & C1 & S1). exists s1. unfold bind. rewrite C1. destruct (m_clone (F (p_mem ps)) v); auto. }
      destruct (view_one E def x separate Hs (p_mem ps) w v (fun this (_ : option evalue) => bind (i_clone I this) (fun c0 => ret (Some c0))) None _ B V Cs)
        as (s1 & V1 & _).
      rewrite R1 in V1. destruct (m_clone (F (p_mem ps)) v) as [cv|p] eqn:Mc; cbn [ends] in V1; [|discriminate V1].
      injection V1 as -> _. apply fresh_into; [exact G'|exact (Vc cv eq_refl)|exact (Hc id loc v cv Hy Mc)].
  - (* KCopy *)
    destruct (nth_error (kcells a) i) as [[id loc v|id v|]|] eqn:Hy; try contradiction. destruct (e_copy def) eqn:Ec; [|contradiction].
    destruct (Box _ _ _ _ Hy) as (w & Hz & B & V & Kw). rewrite (xp_copy _ _ X), Ec, Hz.
    do 2 eexists. split; [reflexivity|]. split; [reflexivity|]. exists ps. split; [reflexivity|]. split; [reflexivity|]. split; [exact G|].
    apply cells_add; [exact C|intros w0 Hw; unfold tb_copy in Hw; injection Hw as <-; exact Kw].
  - (* KEq *)
    destruct (nth_error (kcells a) i) as [[id1 loc1 v1|id1 v1|]|] eqn:Hy1; try contradiction.
    destruct (nth_error (kcells a) j) as [[id2 loc2 v2|id2 v2|]|] eqn:Hy2; try contradiction.
    destruct (Box _ _ _ _ Hy1) as (w1 & Hz1 & B1 & V1 & K1). destruct (Box _ _ _ _ Hy2) as (w2 & Hz2 & B2 & V2 & K2). rewrite Hz1, Hz2.
    do 2 eexists. split; [reflexivity|]. split; [reflexivity|]. apply ok_plain; [exact G|exact C| |auto].
    unfold pk_both, tb_eq. cbn [ref_from_tagged_box macro_taggable].
    eapply fol_ref; [exact G|exact K1|exact B1|exact V1|]. eapply fol_ref; [exact G|exact K2|exact B2|exact V2|].
    eapply fol_user. exact (im_eq _ _ _ _ HI (p_mem ps) v1 v2 V1 V2).
  - (* KPartialCmp *)
    destruct (nth_error (kcells a) i) as [[id1 loc1 v1|id1 v1|]|] eqn:Hy1; try contradiction.
    destruct (nth_error (kcells a) j) as [[id2 loc2 v2|id2 v2|]|] eqn:Hy2; try contradiction.
    destruct (Box _ _ _ _ Hy1) as (w1 & Hz1 & B1 & V1 & K1). destruct (Box _ _ _ _ Hy2) as (w2 & Hz2 & B2 & V2 & K2). rewrite Hz1, Hz2.
    do 2 eexists. split; [reflexivity|]. split; [reflexivity|]. apply ok_plain; [exact G|exact C| |auto].
    unfold pk_both, tb_partial_cmp. cbn [ref_from_tagged_box macro_taggable].
    eapply fol_ref; [exact G|exact K1|exact B1|exact V1|]. eapply fol_ref; [exact G|exact K2|exact B2|exact V2|].
    eapply fol_user. exact (im_pcmp _ _ _ _ HI (p_mem ps) v1 v2 V1 V2).
  - (* KCmp *)
    destruct (nth_error (kcells a) i) as [[id1 loc1 v1|id1 v1|]|] eqn:Hy1; try contradiction.
    destruct (nth_error (kcells a) j) as [[id2 loc2 v2|id2 v2|]|] eqn:Hy2; try contradiction.
    destruct (Box _ _ _ _ Hy1) as (w1 & Hz1 & B1 & V1 & K1). destruct (Box _ _ _ _ Hy2) as (w2 & Hz2 & B2 & V2 & K2). rewrite Hz1, Hz2.
    do 2 eexists. split; [reflexivity|]. split; [reflexivity|]. apply ok_plain; [exact G|exact C| |auto].
    unfold pk_both, tb_cmp. cbn [ref_from_tagged_box macro_taggable].
    eapply fol_ref; [exact G|exact K1|exact B1|exact V1|]. eapply fol_ref; [exact G|exact K2|exact B2|exact V2|].
    eapply fol_user. exact (im_cmp _ _ _ _ HI (p_mem ps) v1 v2 V1 V2).
  - (* KDebug *)
    destruct (nth_error (kcells a) i) as [[id loc v|id v|]|] eqn:Hy; try contradiction. destruct (Box _ _ _ _ Hy) as (w & Hz & B & V & Kw). rewrite Hz.
    do 2 eexists. split; [reflexivity|]. split; [reflexivity|]. apply ok_plain; [exact G|exact C| |auto].
    unfold pk_debug, container_debug. apply fol_bind; [exact grew_trans| |].
    + unfold pk_fmt, tb_debug. cbn [ref_from_tagged_box macro_taggable]. eapply fol_ref; [exact G|exact Kw|exact B|exact V|].
      eapply fol_user. exact (im_debug _ _ _ _ HI (p_mem ps) v default_opts _ V).
    + intros r ps' _ _. destruct (derived_debug o (x_container x) "value" r) as [text ok]. apply fol_ret, grew_refl.
  - (* KDebugValue *)
    destruct (nth_error (kcells a) i) as [[id loc v|id v|]|] eqn:Hy; try contradiction. destruct (Box _ _ _ _ Hy) as (w & Hz & B & V & Kw). rewrite Hz.
    do 2 eexists. split; [reflexivity|]. split; [reflexivity|]. apply ok_plain; [exact G|exact C| |auto].
    unfold pk_fmt, tb_debug. cbn [ref_from_tagged_box macro_taggable]. eapply fol_ref; [exact G|exact Kw|exact B|exact V|].
    eapply fol_user. exact (im_debug _ _ _ _ HI (p_mem ps) v default_opts _ V).
  - (* KDisplay *)
    destruct (nth_error (kcells a) i) as [[id loc v|id v|]|] eqn:Hy; try contradiction. destruct (Box _ _ _ _ Hy) as (w & Hz & B & V & Kw). rewrite Hz.
    do 2 eexists. split; [reflexivity|]. split; [reflexivity|]. apply ok_plain; [exact G|exact C| |auto].
    unfold pk_fmt, tb_display. cbn [ref_from_tagged_box macro_taggable]. eapply fol_ref; [exact G|exact Kw|exact B|exact V|].
    eapply fol_user. exact (im_display _ _ _ _ HI (p_mem ps) v default_opts _ V).
  - (* KView *)
    destruct (nth_error (kcells a) i) as [[id loc v|id v|]|] eqn:Hy; try contradiction. destruct (Box _ _ _ _ Hy) as (w & Hz & B & V & Kw). rewrite Hz.
    do 2 eexists. split; [reflexivity|]. split; [reflexivity|]. apply ok_plain; [exact G|exact C| |auto].
    eapply fol_ref; [exact G|exact Kw|exact B|exact V|]. apply fol_ret, grew_refl.
  - (* KTag *)
    destruct (nth_error (kcells a) i) as [[id loc v|id v|]|] eqn:Hy; try contradiction. destruct (Box _ _ _ _ Hy) as (w & Hz & B & V & Kw). rewrite Hz.
    do 2 eexists. split; [reflexivity|]. split; [reflexivity|]. exists ps. auto.
  - (* KModify *)
    destruct (nth_error (kcells a) i) as [[id loc v|id v|]|] eqn:Hy; try contradiction. destruct (Box _ _ _ _ Hy) as (w & Hz & B & V & Kw). rewrite Hz.
    destruct (only_field def n) as [t|] eqn:Of; [|contradiction]. destruct (only_field_leaf E def x Hs n t Of) as [Hin Lt']. rewrite Lt'.
    do 2 eexists. split; [reflexivity|]. split; [reflexivity|]. apply ok_plain; [exact G|exact C| |auto].
    eapply fol_weak; [exact made_grew|]. apply fol_modify; [exact G|].
    destruct (Hc id loc v Hy) as [Ev _]. rewrite <- Ev in Hin. exact (kown_leaf ps _ w v t Kw B Hin).
  - (* KAssign *)
    destruct (nth_error (kcells a) i) as [[id loc v|id v|]|] eqn:Hy; try contradiction. destruct (Box _ _ _ _ Hy) as (w & Hz & B & V & Kw). rewrite Hz.
    destruct (only_field def n) as [t|] eqn:Of; [|contradiction]. destruct (only_field_leaf E def x Hs n t Of) as [Hin Lt']. rewrite Lt'.
    do 2 eexists. split; [reflexivity|]. split; [reflexivity|].
    apply (ok_same _ _ _ _ (pbind (pbind (to_ptr false (tp_mut_ref_addr (tgt E) w)) (fun p => p_assign (leaf_hty t) p [val])) (fun _ => pret (KNothing, c)))).
    { unfold pbind. destruct (to_ptr false (tp_mut_ref_addr (tgt E) w) ps); reflexivity. }
    apply (ok_plain (KAssign i n val) c ps (pbind (to_ptr false (tp_mut_ref_addr (tgt E) w)) (fun p => p_assign (leaf_hty t) p [val]))
             (tb_assign E (leaf_hty t) w [val]) (fun _ => (KNothing, c))); [exact G|exact C| |auto].
    eapply fol_weak; [exact made_grew|]. apply fol_assign; [exact G|].
    destruct (Hc id loc v Hy) as [Ev _]. rewrite <- Ev in Hin. exact (kown_leaf ps _ w v t Kw B Hin).
  - (* KIntoInner *)
    destruct (nth_error (kcells a) i) as [[id loc v|id v|]|] eqn:Hy; try contradiction. destruct (Box _ _ _ _ Hy) as (w & Hz & B & V & Kw). rewrite Hz.
    do 2 eexists. split; [reflexivity|]. split; [reflexivity|]. apply ok_plain; [exact G|exact C| |].
    + eapply fol_weak; [exact Ge|]. apply fol_inner; assumption.
    + intros u ps' C'. apply cells_put; [exact C'|intros w0 Hw; discriminate Hw].
  - (* KFromTagged *)
    destruct (nth_error (kcells a) i) as [[id loc v|id v|]|] eqn:Hy; try contradiction. destruct (Box _ _ _ _ Hy) as (w & Hz & B & V & Kw). rewrite Hz.
    do 2 eexists. split; [reflexivity|]. split; [reflexivity|]. apply ok_plain; [exact G|exact C| |].
    + eapply fol_weak; [exact Ge|]. apply fol_from; [exact G|exact Kw|]. intros n k Hk.
      destruct B as (i0 & k0 & Hi & Ht & _). rewrite Ht, Nat2N.id, Hi in Hk. injection Hk as <- <-.
      exact (Hc id loc v k0 Hy (nth_error_In _ _ Hi)).
    + intros u ps' C'. apply cells_put; [exact C'|intros w0 Hw; discriminate Hw].
  - (* KDrop *)
    destruct (nth_error (kcells a) i) as [[id loc v|id v|]|] eqn:Hy; try contradiction. destruct (Box _ _ _ _ Hy) as (w & Hz & B & V & Kw). rewrite Hz.
    do 2 eexists. split; [reflexivity|]. split; [reflexivity|]. exists ps. split; [reflexivity|]. split; [reflexivity|]. split; [exact G|].
    apply cells_put; [exact C|intros w0 Hw; discriminate Hw].
  - (* KDropVal *)
    destruct (nth_error (kcells a) i) as [[id loc v|id v|]|] eqn:Hy; try contradiction. destruct (Val _ _ _ Hy) as [Hz V]. rewrite Hz.
    do 2 eexists. split; [reflexivity|]. split; [reflexivity|]. apply ok_plain; [exact G|exact C| |].
    + eapply fol_weak; [exact made_grew|]. apply fol_under. reflexivity.
    + intros u ps' C'. apply cells_put; [exact C'|intros w0 Hw; discriminate Hw].
Qed.

End Generated.
