(** The invariant behind property C68: every variable's block is live, exposed, and the only one at its address. *)
From Coq Require Import Arith NArith String Bool List Lia.
From Verif Require Import Words Config Spec ConfigFacts Pointer PointerFacts Mem SpecMem MemFacts Box BoxFacts
  Props_Pointer Props_Box Session SpecSession SessionFacts Provenance SpecProvenance.
Import ListNotations.
Local Open Scope N_scope.

(** Block [id] is the one for a [U] at [a]; its number is exposed and no other live block has that byte. *)
Definition own (ps : pst) (U : hty) (a : N) (id : nat) : Prop :=
  In (id, Block a (h_size U) (h_align U)) (p_blocks ps) /\ In id (p_exposed ps) /\
  forall q, In q (p_blocks ps) -> b_base (snd q) <= a < b_base (snd q) + b_size (snd q) -> fst q = id.

Definition cell_ok (E : env) (ps : pst) (x : pcell) : Prop :=
  match x with
  | PBox U w => h_size U <> 0 -> exists id, own ps U (tp_as_ptr (tgt E) w) id
  | PRaw U p | PRust U p => h_size U <> 0 -> exists id, snd p = Some id /\ own ps U (fst p) id
  | _ => True
  end.

Definition cells_ok (E : env) (ps : pst) (pc : list pcell) : Prop :=
  forall i x, nth_error pc i = Some x -> cell_ok E ps x.

(** Only contents of memory changed, or more was exposed. *)
Record ext (ps ps' : pst) : Prop := {
  ex_blocks : p_blocks ps' = p_blocks ps;
  ex_mem : blocks (p_mem ps') = blocks (p_mem ps);
  ex_next : p_next ps' = p_next ps;
  ex_exposed : incl (p_exposed ps) (p_exposed ps')
}.

Lemma ext_refl ps : ext ps ps.
Proof. constructor; try reflexivity. apply incl_refl. Qed.

Lemma ext_trans a b c : ext a b -> ext b c -> ext a c.
Proof. intros [A1 A2 A3 A4] [B1 B2 B3 B4]. constructor; try congruence. eapply incl_tran; eassumption. Qed.

Lemma ext_numbered ps ps' : ext ps ps' -> numbered ps -> numbered ps'.
Proof. intros [A1 A2 A3 A4] [B1 B2 B3]. constructor; rewrite ?A1, ?A2, ?A3; assumption. Qed.

Lemma ext_own ps ps' U a id : ext ps ps' -> own ps U a id -> own ps' U a id.
Proof. intros [A1 A2 A3 A4] (B1 & B2 & B3). unfold own. rewrite A1. auto. Qed.

Lemma ext_cell E ps ps' x : ext ps ps' -> cell_ok E ps x -> cell_ok E ps' x.
Proof.
  intros X. destruct x; cbn [cell_ok]; auto; intros H Z; destruct (H Z) as [id G]; exists id.
  - eapply ext_own; eassumption.
  - destruct G. split; [assumption|]. eapply ext_own; eassumption.
  - destruct G. split; [assumption|]. eapply ext_own; eassumption.
Qed.

Lemma ext_cells E ps ps' pc : ext ps ps' -> cells_ok E ps pc -> cells_ok E ps' pc.
Proof. intros X H i x Hx. eapply ext_cell; eauto. Qed.

Lemma cells_put E ps pc i x : cells_ok E ps pc -> cell_ok E ps x -> cells_ok E ps (put i x pc).
Proof. intros H Hx j y Hy. apply put_nth in Hy as [[_ ->]|[_ Hy]]; eauto. Qed.

Lemma cells_add E ps pc x : cells_ok E ps pc -> cell_ok E ps x -> cells_ok E ps (pc ++ [x]).
Proof.
  intros H Hx j y Hy. destruct (Nat.lt_ge_cases j (List.length pc)) as [L|L].
  - rewrite nth_error_app1 in Hy by lia. eauto.
  - rewrite nth_error_app2 in Hy by lia. destruct (j - List.length pc)%nat as [|k]; [|destruct k; discriminate Hy].
    cbn in Hy. injection Hy as <-. exact Hx.
Qed.

Lemma map_put i x pc : map erase (put i x pc) = put i (erase x) (map erase pc).
Proof. revert i. induction pc as [|y pc IH]; intros [|i]; cbn; try reflexivity. rewrite IH. reflexivity. Qed.

(** ** Code that makes and frees no blocks *)

(** [pm] does what [m] does, and may go on where [m] may. *)
Definition quiet {A B} (pm : PM A) (m : M B) (g : A -> B) (ps : pst) : Prop :=
  match m (p_mem ps) with
  | Ok b s' => exists a ps', pm ps = POk a ps' /\ g a = b /\ p_mem ps' = s' /\ ext ps ps'
  | Panicked q s' => exists ps', pm ps = PPanic q ps' /\ p_mem ps' = s' /\ ext ps ps'
  | UB _ => True
  end.

Lemma quiet_bind {A B C D} (pm : PM A) (m : M B) g (pk : A -> PM C) (k : B -> M D) h ps :
  quiet pm m g ps -> (forall a ps', ext ps ps' -> quiet (pk a) (k (g a)) h ps') ->
  quiet (pbind pm pk) (bind m k) h ps.
Proof.
  unfold quiet, pbind, bind. intros H1 H2. destruct (m (p_mem ps)) as [b s'|q s'|u].
  - destruct H1 as (a & ps' & -> & <- & <- & X). specialize (H2 a ps' X).
    destruct (k (g a) (p_mem ps')) as [d s2|q s2|u].
    + destruct H2 as (c & ps2 & H & G1 & G2 & X2). exists c, ps2. eauto using ext_trans.
    + destruct H2 as (ps2 & H & G2 & X2). exists ps2. eauto using ext_trans.
    + exact Logic.I.
  - destruct H1 as (ps' & -> & H & X). exists ps'. auto.
  - exact Logic.I.
Qed.

Lemma quiet_ret {A B} (a : A) (g : A -> B) ps : quiet (pret a) (ret (g a)) g ps.
Proof. exists a, ps. repeat split; auto using incl_refl. Qed.

Lemma quiet_under {A} (m : M A) ps :
  (forall a s', m (p_mem ps) = Ok a s' -> blocks s' = blocks (p_mem ps)) ->
  (forall q s', m (p_mem ps) = Panicked q s' -> blocks s' = blocks (p_mem ps)) ->
  quiet (under m) m (fun a => a) ps.
Proof.
  unfold quiet, under. intros H1 H2. destruct (m (p_mem ps)) as [a s'|q s'|u].
  - exists a, (PSt s' (p_blocks ps) (p_exposed ps) (p_next ps)). repeat split; cbn; eauto using incl_refl.
  - exists (PSt s' (p_blocks ps) (p_exposed ps) (p_next ps)). repeat split; cbn; eauto using incl_refl.
  - exact Logic.I.
Qed.

Lemma quiet_drop U v ps : quiet (under (drop_hval U v)) (drop_hval U v) (fun a => a) ps.
Proof. apply quiet_under; [intros a s' H; injection H as <- <-; reflexivity|intros q s' H; discriminate H]. Qed.

Lemma quiet_outcome {A} (o : outcome A) ps : quiet (under (of_outcome o)) (of_outcome o) (fun a => a) ps.
Proof. apply quiet_under; destruct o; intros ? ? H; try discriminate H; injection H as <- <-; reflexivity. Qed.

Lemma check_blocks H a s : match check_access H a s with Ok _ s' => s' = s | Panicked _ _ => False | UB _ => True end.
Proof. unfold check_access. repeat match goal with |- context [if ?b then _ else _] => destruct b end; auto. Qed.

(** The pointer is for the block at its address. *)
Definition holds (ps : pst) (U : hty) (p : pptr) : Prop :=
  h_size U <> 0 -> exists id, snd p = Some id /\ In (id, Block (fst p) (h_size U) (h_align U)) (p_blocks ps).

Lemma ext_holds ps ps' U p : ext ps ps' -> holds ps U p -> holds ps' U p.
Proof. intros X H Z. rewrite (ex_blocks _ _ X). auto. Qed.

Lemma holds_access ps U p : holds ps U p -> p_access U p ps = POk tt ps.
Proof.
  intros H. unfold p_access. destruct (N.eqb_spec (h_size U) 0) as [Z|Z]; [reflexivity|]. cbn [orb].
  destruct (H Z) as (id & Hp & B). unfold reaches. rewrite Hp.
  assert (X : existsb (fun b => Nat.eqb (fst b) id && block_contains (fst p) (h_size U) (snd b)) (p_blocks ps) = true).
  { apply existsb_exists. eexists. split; [exact B|]. cbn [fst snd]. unfold block_contains. cbn [b_base b_size].
    rewrite Nat.eqb_refl, !N.leb_refl. reflexivity. }
  rewrite X. reflexivity.
Qed.

Lemma quiet_read ps U p : holds ps U p -> quiet (p_read U p) (read_at U (fst p)) (fun v => v) ps.
Proof.
  intros H. unfold p_read, pbind, quiet. rewrite (holds_access _ _ _ H).
  apply (quiet_under (read_at U (fst p)) ps); unfold read_at, bind; pose proof (check_blocks U (fst p) (p_mem ps)) as C;
    destruct (check_access U (fst p) (p_mem ps)) as [[] s1|q1 s1|u]; intros x s' G; try contradiction; try discriminate G;
    subst s1; destruct (read_fields (bytes (p_mem ps)) (fst p) (h_fields U)); try discriminate G; injection G as <- <-; reflexivity.
Qed.

Lemma quiet_write ps U p v : holds ps U p -> quiet (p_write U p v) (write_at U (fst p) v) (fun x => x) ps.
Proof.
  intros H. unfold p_write, pbind, quiet. rewrite (holds_access _ _ _ H).
  apply (quiet_under (write_at U (fst p) v) ps); unfold write_at, bind; pose proof (check_blocks U (fst p) (p_mem ps)) as C;
    destruct (check_access U (fst p) (p_mem ps)) as [[] s1|q1 s1|u]; intros x s' G; try contradiction; try discriminate G;
    subst s1; injection G as <- <-; reflexivity.
Qed.

Lemma quiet_assign ps U p v : holds ps U p -> quiet (p_assign U p v) (assign_at U (fst p) v) (fun x => x) ps.
Proof.
  intros H. unfold p_assign, assign_at. eapply quiet_bind; [apply quiet_read, H|]. intros old ps1 X1.
  eapply quiet_bind; [apply quiet_drop|]. intros _ ps2 X2. apply quiet_write.
  eapply ext_holds, ext_holds, H; eassumption.
Qed.

(** Pointers made from the integers in boxes. *)
Lemma to_ptr_own ps U a id : NoDup (map fst (p_blocks ps)) -> h_size U <> 0 -> own ps U a id -> to_ptr false a ps = POk (a, Some id) ps.
Proof.
  intros Hn Z (B & X & S). unfold to_ptr. f_equal. f_equal.
  destruct (find _ (p_blocks ps)) as [q|] eqn:F.
  - apply find_some in F as [F1 F2]. cbn [option_map]. f_equal. apply S; [exact F1|].
    apply andb_true_iff in F2 as [F2 _]. apply andb_true_iff in F2 as [F2 F3].
    apply N.leb_le in F2. apply N.ltb_lt in F3. lia.
  - pose proof (find_none _ _ F _ B) as G. cbn [fst snd b_base b_size] in G. rewrite N.leb_refl in G.
    replace (a <? a + h_size U) with true in G by (symmetry; apply N.ltb_lt; lia). cbn [andb] in G.
    assert (Y : existsb (Nat.eqb id) (p_exposed ps) = true) by (apply existsb_exists; exists id; rewrite Nat.eqb_refl; auto).
    rewrite Y in G. discriminate G.
Qed.

(** The pointer a cast of the address gives is good for the variable's value. *)
Lemma to_ptr_box E ps U w : numbered ps -> cell_ok E ps (PBox U w) ->
  exists p, to_ptr false (tp_as_ptr (tgt E) w) ps = POk p ps /\ fst p = tp_as_ptr (tgt E) w /\
    cell_ok E ps (PRaw U p) /\ holds ps U p.
Proof.
  intros Hn H. destruct (N.eq_dec (h_size U) 0) as [Z|Z].
  - eexists. split; [reflexivity|]. split; [reflexivity|]. split; [intros Z'|intros Z']; contradiction.
  - destruct (H Z) as [id O]. exists (tp_as_ptr (tgt E) w, Some id).
    split; [apply (to_ptr_own ps U); auto; apply nb_once, Hn|]. split; [reflexivity|].
    split; intros _; exists id; cbn [fst snd]; split; auto. apply O.
Qed.

Lemma raw_holds E ps U p : cell_ok E ps (PRaw U p) -> holds ps U p.
Proof. intros H Z. destruct (H Z) as (id & A & B & _). eauto. Qed.

(** ** One step *)

Lemma erase_box pc i U w : nth_error (map erase pc) i = Some (CBox U w) -> nth_error pc i = Some (PBox U w).
Proof.
  rewrite nth_error_map. destruct (nth_error pc i) as [[]|]; cbn; intros H; try discriminate H. injection H as -> ->. reflexivity.
Qed.
Lemma erase_raw pc i U a : nth_error (map erase pc) i = Some (CRaw U a) -> exists p, nth_error pc i = Some (PRaw U p) /\ a = fst p.
Proof.
  rewrite nth_error_map. destruct (nth_error pc i) as [[]|]; cbn; intros H; try discriminate H. injection H as -> <-. eauto.
Qed.
Lemma erase_rust pc i U a : nth_error (map erase pc) i = Some (CRust U a) -> exists p, nth_error pc i = Some (PRust U p) /\ a = fst p.
Proof.
  rewrite nth_error_map. destruct (nth_error pc i) as [[]|]; cbn; intros H; try discriminate H. injection H as -> <-. eauto.
Qed.
Lemma erase_val pc i U v : nth_error (map erase pc) i = Some (CVal U v) -> nth_error pc i = Some (PVal U v).
Proof.
  rewrite nth_error_map. destruct (nth_error pc i) as [[]|]; cbn; intros H; try discriminate H. injection H as -> ->. reflexivity.
Qed.

(** The step [pm] from [ps] does what [m] does. *)
Definition mirrors (E : env) (o : op) (pc : list pcell) (pm : PM (obs * list pcell)) (m : M (obs * list cell)) (ps : pst) : Prop :=
  match m (p_mem ps) with
  | Ok (x, c') s' => exists pc' ps', pm ps = POk (x, pc') ps' /\ map erase pc' = c' /\ p_mem ps' = s' /\
      numbered ps' /\ cells_ok E ps' pc'
  | Panicked q s' => exists ps', pm ps = PPanic q ps' /\ p_mem ps' = s' /\ numbered ps' /\ cells_ok E ps' (p_after_panic o pc)
  | UB _ => True
  end.

Definition hide (x : obs * list pcell) : obs * list cell := (fst x, map erase (snd x)).

Lemma mirrors_quiet E o pc pm m ps : numbered ps -> cells_ok E ps pc -> p_after_panic o pc = pc ->
  quiet pm m hide ps -> (forall x ps', pm ps = POk x ps' -> ext ps ps' -> cells_ok E ps' (snd x)) -> mirrors E o pc pm m ps.
Proof.
  unfold quiet, mirrors. intros Hn Hc Ho H G. destruct (m (p_mem ps)) as [[x c'] s'|q s'|u]; [| |exact Logic.I].
  - destruct H as ([y pc'] & ps' & H & A & B & X). injection A as -> A. exists pc', ps'.
    split; [exact H|]. split; [exact A|]. split; [exact B|]. split; [eapply ext_numbered; eassumption|]. exact (G _ _ H X).
  - destruct H as (ps' & H & B & X). exists ps'. rewrite Ho. split; [exact H|]. split; [exact B|].
    split; [eapply ext_numbered|eapply ext_cells]; eassumption.
Qed.

Lemma pbind_done {A B} (m : PM A) (f : A -> PM B) s b s' : pbind m f s = POk b s' ->
  exists a s1, m s = POk a s1 /\ f a s1 = POk b s'.
Proof. unfold pbind. destruct (m s) as [a s1|q s1|u]; intros H; try discriminate H. eauto. Qed.

(** Steps that use a pointer and leave the variables alone, or change variable [i]. *)
Lemma mirrors_use {A} E o pc (pm : PM A) (m : M A) (r : A -> obs * list pcell) ps : numbered ps -> cells_ok E ps pc ->
  p_after_panic o pc = pc -> quiet pm m (fun v => v) ps -> (forall v ps', cells_ok E ps' pc -> cells_ok E ps' (snd (r v))) ->
  mirrors E o pc (pbind pm (fun v => pret (r v))) (bind m (fun v => ret (hide (r v)))) ps.
Proof.
  intros Hn Hc Ho Q G. apply mirrors_quiet; try assumption.
  - eapply quiet_bind; [exact Q|]. intros v ps' X. apply (quiet_ret (r v) hide).
  - intros x ps' H X. apply pbind_done in H as (v & s1 & _ & H). injection H as <- <-. apply G. eapply ext_cells; eassumption.
Qed.

(** The same through a pointer made from a box. *)
Lemma mirrors_box {A} E o pc U w (pm : pptr -> PM A) (m : M A) (r : A -> obs * list pcell) ps : numbered ps -> cells_ok E ps pc ->
  p_after_panic o pc = pc -> cell_ok E ps (PBox U w) ->
  (forall p, fst p = tp_as_ptr (tgt E) w -> holds ps U p -> quiet (pm p) m (fun v => v) ps) ->
  (forall v ps', cells_ok E ps' pc -> cells_ok E ps' (snd (r v))) ->
  mirrors E o pc (pbind (to_ptr false (tp_as_ptr (tgt E) w)) (fun p => pbind (pm p) (fun v => pret (r v))))
    (bind m (fun v => ret (hide (r v)))) ps.
Proof.
  intros Hn Hc Ho Hw Q G. destruct (to_ptr_box E ps U w Hn Hw) as (p & P1 & P2 & P3 & P4).
  assert (X : pbind (to_ptr false (tp_as_ptr (tgt E) w)) (fun p => pbind (pm p) (fun v => pret (r v))) ps =
              pbind (pm p) (fun v => pret (r v)) ps) by (unfold pbind at 1; rewrite P1; reflexivity).
  pose proof (mirrors_use E o pc (pm p) m r ps Hn Hc Ho (Q p P2 P4) G) as K.
  unfold mirrors in *. rewrite X. exact K.
Qed.

Lemma assoc {A B C} (m : PM A) (f : A -> PM B) (g : B -> PM C) ps : pbind (pbind m f) g ps = pbind m (fun x => pbind (f x) g) ps.
Proof. unfold pbind. destruct (m ps); reflexivity. Qed.

(** ** Freeing *)

Lemma remove_map id b l : In (id, b) l -> NoDup (map fst l) -> (forall q, In q l -> snd q = b -> fst q = id) ->
  map snd (filter (fun q => negb (Nat.eqb (fst q) id)) l) = remove_block b (map snd l).
Proof.
  induction l as [|[j x] l IH]; intros Hi Hd Ho; [destruct Hi|]. cbn [map fst snd filter remove_block] in *. inversion Hd as [|? ? N1 N2]; subst.
  destruct (block_eqb x b) eqn:B.
  - apply block_eqb_eq in B. subst x. assert (j = id) by (apply (Ho (j, b)); [left|]; reflexivity). subst j.
    rewrite Nat.eqb_refl. cbn [negb]. clear - N1. induction l as [|[k y] l IH]; [reflexivity|]. cbn [filter map fst snd In] in *.
    destruct (Nat.eqb_spec k id) as [->|N]; [tauto|]. cbn [negb map snd]. rewrite IH by tauto. reflexivity.
  - destruct Hi as [Hi|Hi].
    + injection Hi as -> ->. rewrite (proj2 (block_eqb_eq b b) eq_refl) in B. discriminate B.
    + destruct (Nat.eqb_spec j id) as [->|N].
      * exfalso. apply N1. apply in_map_iff. exists (id, b). auto.
      * cbn [negb map snd]. rewrite IH; auto. intros q Q. apply Ho. right. exact Q.
Qed.

Lemma nodup_fst (l : list (nat * block)) f : NoDup (map fst l) -> NoDup (map fst (filter f l)).
Proof.
  induction l as [|x l IH]; cbn [map filter]; [auto|]. intros H. inversion H as [|? ? N1 N2]; subst.
  destruct (f x); [|auto]. cbn [map]. constructor; [|auto]. intros G. apply N1.
  apply in_map_iff in G as (y & <- & G). apply filter_In in G as [G _]. apply in_map, G.
Qed.

Lemma same_number (l : list (nat * block)) id b b' : NoDup (map fst l) -> In (id, b) l -> In (id, b') l -> b = b'.
Proof.
  induction l as [|[j x] l IH]; cbn [map fst In]; [tauto|]. intros H. inversion H as [|? ? N1 N2]; subst.
  intros [A|A] [B|B].
  - congruence.
  - injection A as -> ->. destruct N1. apply in_map_iff. exists (id, b'). auto.
  - injection B as -> ->. destruct N1. apply in_map_iff. exists (id, b). auto.
  - auto.
Qed.

(** Freeing the block of [p], which is at no other variable's address. *)
Lemma free_spec E ps U p pc : numbered ps -> h_size U <> 0 -> cell_ok E ps (PRust U p) ->
  cells_ok E ps pc -> (forall i x, nth_error pc i = Some x -> clear_of (Some (fst p, h_size U)) (place E (erase x))) ->
  exists ps', p_dealloc p (h_size U) (h_align U) ps = POk tt ps' /\
    dealloc (fst p) (h_size U) (h_align U) (p_mem ps) = Ok tt (p_mem ps') /\ numbered ps' /\ cells_ok E ps' pc.
Proof.
  intros [N1 N2 N3] Z H Hc Ha. destruct (H Z) as (id & Hp & B & X & S).
  assert (Bm : In (Block (fst p) (h_size U) (h_align U)) (blocks (p_mem ps))).
  { rewrite <- N1. apply in_map_iff. eexists. split; [|exact B]. reflexivity. }
  assert (Y : existsb (fun b => Nat.eqb (fst b) id && block_eqb (snd b) (Block (fst p) (h_size U) (h_align U))) (p_blocks ps) = true).
  { apply existsb_exists. eexists. split; [exact B|]. cbn [fst snd]. rewrite Nat.eqb_refl. apply block_eqb_eq. reflexivity. }
  pose proof (dealloc_ok (p_mem ps) (fst p) (h_size U) (h_align U) Bm) as D.
  eexists. unfold p_dealloc. rewrite Hp, Y, D. split; [reflexivity|]. split; [reflexivity|]. split.
  - constructor; cbn [p_blocks p_mem p_next blocks].
    + rewrite <- N1. apply remove_map; [exact B|exact N2|]. intros q Q E1. apply S; [exact Q|]. rewrite E1. cbn. lia.
    + apply nodup_fst, N2.
    + intros q Q. apply filter_In in Q as [Q _]. auto.
  - intros i x Hx. specialize (Ha i x Hx). specialize (Hc i x Hx).
    assert (G : forall V a, h_size V <> 0 -> clear_of (Some (fst p, h_size U)) (Some (a, h_size V)) -> forall j, own ps V a j ->
      own (PSt (St (bytes (p_mem ps)) (remove_block (Block (fst p) (h_size U) (h_align U)) (blocks (p_mem ps)))
           (events (p_mem ps) ++ [EvDealloc (fst p) (h_size U) (h_align U)]))
           (filter (fun b => negb (Nat.eqb (fst b) id)) (p_blocks ps)) (p_exposed ps) (p_next ps)) V a j).
    { intros V a ZV C j (O1 & O2 & O3). unfold own. cbn [p_blocks p_exposed].
      split; [|split; [exact O2|]].
      - apply filter_In. split; [exact O1|]. cbn [fst]. destruct (Nat.eqb_spec j id) as [->|]; [|reflexivity].
        exfalso. pose proof (same_number _ _ _ _ N2 B O1) as E1. injection E1 as E1 E2 E3. cbn in C. lia.
      - intros q Q. apply filter_In in Q as [Q _]. auto. }
    destruct x; cbn [cell_ok erase place] in *; auto; intros ZV; destruct (Hc ZV) as [j O]; exists j;
      (destruct (N.eqb_spec (h_size U0) 0); [contradiction|]).
    + apply G; auto.
    + destruct O. split; auto.
    + destruct O. split; auto.
Qed.

Section Step.
Variable E : env.
Hypothesis HE : env_ok E.

Lemma quiet_chain {A B} (m : M A) (pm : PM A) (k : A -> M B) (pk : A -> PM B) ps :
  quiet pm m (fun v => v) ps -> (forall v ps', ext ps ps' -> quiet (pk v) (k v) (fun v => v) ps') ->
  quiet (pbind pm pk) (bind m k) (fun v => v) ps.
Proof. intros H G. exact (quiet_bind pm m (fun v => v) pk k (fun v => v) ps H G). Qed.

Lemma mirrors_eq o pc pm pm' m m' ps : pm ps = pm' ps -> m (p_mem ps) = m' (p_mem ps) ->
  mirrors E o pc pm' m' ps -> mirrors E o pc pm m ps.
Proof. intros A B H. unfold mirrors. rewrite A, B. exact H. Qed.

(** Making a box. *)
Lemma mirrors_new ps pc u U val d : numbered ps -> cells_ok E ps pc ->
  layout_legal U -> hval_ok U val -> d <= max_discriminant (cfg (tgt E)) ->
  mirrors E (NewBox u U val d) pc (pbind (p_new E U val d) (fun w => pret (SawNothing, pc ++ [PBox U w])))
    (bind (tb_new E U val d) (fun w => ret (SawNothing, map erase pc ++ [CBox U w]))) ps.
Proof.
  intros Hn Hc Hl Hv Hd. destruct HE as [Ht Ha Hf _].
  destruct (tb_new_spec E Ht Ha U val d (p_mem ps) Hf Hl Hv Hd)
    as [(Hs & w & H1 & H2 & A & _ & H3)|[(Hs & Hp & H1)|(Hs & a & w & Hp & H1 & H2 & A & _ & H3)]];
    unfold mirrors; unfold bind at 1; rewrite H1.
  - cbn [ret]. unfold pbind, p_new. unfold tb_new in H1.
    rewrite Hs in *. cbn [N.eqb] in *. unfold bind, ret, drop_hval in H1. injection H1 as E1.
    do 2 eexists. split; [unfold pbind, under, drop_hval, pret; reflexivity|].
    rewrite E1. split; [rewrite map_app; reflexivity|]. split; [reflexivity|].
    assert (X : ext ps (PSt (dropped U val (p_mem ps)) (p_blocks ps) (p_exposed ps) (p_next ps)))
      by (constructor; cbn; auto using incl_refl).
    split; [exact (ext_numbered _ _ X Hn)|]. apply cells_add; [exact (ext_cells _ _ _ _ X Hc)|]. intros Z. destruct (Z Hs).
  - unfold pbind, p_new, p_alloc, alloc. destruct (N.eqb_spec (h_size U) 0) as [Z|_]; [contradiction|]. unfold pbind. rewrite Hp.
    eexists. split; [unfold pbind, under, drop_hval, raise; reflexivity|]. split; [reflexivity|].
    assert (X : ext ps (PSt (dropped U val (p_mem ps)) (p_blocks ps) (p_exposed ps) (p_next ps)))
      by (constructor; cbn; auto using incl_refl).
    split; [exact (ext_numbered _ _ X Hn)|]. apply cells_add; [exact (ext_cells _ _ _ _ X Hc)|exact Logic.I].
  - assert (Hs' : 0 < h_size U) by lia.
    destruct (Ha _ _ _ a Hs' (ll_align U Hl) Hp) as (K1 & K2 & K3 & K4).
    set (s1 := St (undef_range (bytes (p_mem ps)) a (h_size U)) (Block a (h_size U) (h_align U) :: blocks (p_mem ps))
                 (events (p_mem ps) ++ [EvAlloc a (h_size U) (h_align U)])).
    set (ps1 := PSt s1 ((p_next ps, Block a (h_size U) (h_align U)) :: p_blocks ps) (p_exposed ps) (S (p_next ps))).
    set (ps2 := PSt s1 (p_blocks ps1) (p_next ps :: p_exposed ps) (p_next ps1)).
    assert (O : holds ps2 U (a, Some (p_next ps))) by (intros _; eexists; split; [reflexivity|left; reflexivity]).
    assert (Q : quiet (pbind (p_write U (a, Some (p_next ps)) val) (fun _ =>
                  pbind (to_int (a, Some (p_next ps))) (fun a => under (of_outcome (tp_new (tgt E) a d)))))
                 (bind (write_at U a val) (fun _ => of_outcome (tp_new (tgt E) a d))) (fun w => w) ps2).
    { apply quiet_chain; [exact (quiet_write ps2 U (a, Some (p_next ps)) val O)|]. intros _ ps3 X.
      pose proof (quiet_outcome (tp_new (tgt E) a d)
        (PSt (p_mem ps3) (p_blocks ps3) (p_next ps :: p_exposed ps3) (p_next ps3))) as W.
      assert (X4 : ext ps3 (PSt (p_mem ps3) (p_blocks ps3) (p_next ps :: p_exposed ps3) (p_next ps3)))
        by (constructor; cbn; auto; intros z Zz; right; exact Zz).
      unfold quiet in *. cbn [p_mem] in W. unfold pbind, to_int. cbn [fst snd].
      destruct (of_outcome (tp_new (tgt E) a d) (p_mem ps3)) as [w3 s3|q3 s3|u3]; [| |exact Logic.I].
      - destruct W as (w4 & ps4 & W1 & W2 & W3 & W4). exists w4, ps4. eauto using ext_trans.
      - destruct W as (ps4 & W1 & W3 & W4). exists ps4. eauto using ext_trans. }
    assert (B : bind (write_at U a val) (fun _ => of_outcome (tp_new (tgt E) a d)) s1 = Ok w (stored U a val (p_mem ps))).
    { rewrite <- H1. unfold tb_new. destruct (N.eqb_spec (h_size U) 0) as [Z|_]; [contradiction|].
      unfold alloc, bind at 2. rewrite Hp. reflexivity. }
    unfold quiet in Q. change (p_mem ps2) with s1 in Q. rewrite B in Q. destruct Q as (w' & ps3 & Q1 & -> & Q3 & X).
    cbn [ret]. exists (pc ++ [PBox U w]), ps3.
    split.
    { unfold pbind at 1. unfold p_new. destruct (N.eqb_spec (h_size U) 0) as [Z|_]; [contradiction|].
      unfold pbind at 1. unfold p_alloc, alloc. rewrite Hp. unfold pbind at 1. unfold to_int at 1. cbn [fst snd].
      fold s1. cbn [p_mem p_blocks p_exposed p_next]. change (PSt s1 _ _ _) with ps2. rewrite Q1. reflexivity. }
    split; [rewrite map_app; reflexivity|]. split; [exact Q3|].
    assert (N2 : numbered ps2).
    { destruct Hn as [N1 N2 N3]. constructor; cbn [ps2 ps1 s1 p_blocks p_mem blocks p_next map fst snd].
      - rewrite N1. reflexivity.
      - constructor; [|exact N2]. intros G. apply in_map_iff in G as (q & G1 & G2). specialize (N3 q G2). lia.
      - intros q [<-|G]; [cbn; lia|]. specialize (N3 q G). lia. }
    split; [exact (ext_numbered _ _ X N2)|].
    apply (ext_cells E _ _ _ X). clear X Q1 Q3 ps3.
    assert (Ob : forall q, In q (p_blocks ps) -> a + h_size U <= b_base (snd q) \/ b_base (snd q) + b_size (snd q) <= a).
    { intros q G. apply K4. rewrite <- (nb_blocks _ Hn). apply in_map, G. }
    apply cells_add.
    + intros i x Hx. specialize (Hc i x Hx).
      assert (G : forall V b j, h_size V <> 0 -> own ps V b j -> own ps2 V b j).
      { intros V b j ZV (O1 & O2 & O3). split; [right; exact O1|]. split; [right; exact O2|].
        intros q [<-|G]; [|apply O3, G]. cbn [fst snd b_base b_size]. intros C. specialize (Ob _ O1). cbn in Ob. lia. }
      destruct x; cbn [cell_ok] in *; auto; intros ZV; destruct (Hc ZV) as [j O']; exists j; [auto|..];
        destruct O'; split; auto.
    + intros _. exists (p_next ps). rewrite A. split; [left; reflexivity|]. split; [left; reflexivity|].
      intros q [<-|G]; [reflexivity|]. intros C. specialize (Ob q G). lia.
Qed.

(** A Rust [Box] is freed. *)
Lemma mirrors_free {A} s0 a o ps pc i U p (pm1 : PM A) (m1 : M A) (r : A -> obs * pcell) :
  inv E s0 (p_mem ps) (map erase pc) a -> numbered ps -> cells_ok E ps pc -> p_after_panic o pc = pc ->
  nth_error pc i = Some (PRust U p) -> quiet pm1 m1 (fun v => v) ps ->
  (forall v, place E (erase (snd (r v))) = None /\ forall ps', cell_ok E ps' (snd (r v))) ->
  mirrors E o pc
    (pbind pm1 (fun v => pbind (if h_size U =? 0 then pret tt else p_dealloc p (h_size U) (h_align U)) (fun _ =>
       pret (fst (r v), put i (snd (r v)) pc))))
    (bind m1 (fun v => bind (if h_size U =? 0 then ret tt else dealloc (fst p) (h_size U) (h_align U)) (fun _ =>
       ret (fst (r v), put i (erase (snd (r v))) (map erase pc))))) ps.
Proof.
  intros I Hn Hc Ho Hx Q Hr. unfold mirrors, quiet in *. unfold bind at 1.
  destruct (m1 (p_mem ps)) as [v s1|q s1|u].
  - destruct Q as (v1 & ps1 & Q & -> & <- & X). unfold pbind at 1. rewrite Q. destruct (Hr v) as [Rp Rc].
    pose proof (ext_numbered _ _ X Hn) as Hn1. pose proof (ext_cells _ _ _ _ X Hc) as Hc1.
    assert (Hc2 : cells_ok E ps1 (put i (snd (r v)) pc)) by (apply cells_put; auto).
    destruct (N.eqb_spec (h_size U) 0) as [Z|Z].
    + do 2 eexists. split; [reflexivity|]. rewrite map_put. auto.
    + destruct (free_spec E ps1 U p (put i (snd (r v)) pc) Hn1 Z (Hc1 i _ Hx) Hc2) as (ps2 & F1 & F2 & F3 & F4).
      { intros j y Hj. apply put_nth in Hj as [[-> ->]|[Nj Hj]]; [rewrite Rp; exact Logic.I|].
        pose proof (iv_apart _ _ _ _ _ I i j (CRust U (fst p)) (erase y) (not_eq_sym Nj)) as C.
        rewrite !nth_error_map, Hx, Hj in C. specialize (C eq_refl eq_refl). cbn [place] in C.
        destruct (N.eqb_spec (h_size U) 0); [contradiction|]. exact C. }
      unfold bind, pbind. rewrite F1, F2. do 2 eexists. split; [reflexivity|]. rewrite map_put. auto.
  - destruct Q as (ps1 & Q & <- & X). exists ps1. unfold pbind at 1. rewrite Q. rewrite Ho. split; [reflexivity|]. split; [reflexivity|].
    split; [eapply ext_numbered|eapply ext_cells]; eassumption.
  - exact Logic.I.
Qed.

Theorem pstep_sim s0 ps pc a o : inv E s0 (p_mem ps) (map erase pc) a -> numbered ps -> cells_ok E ps pc ->
  contract E a o -> astep false o a <> None ->
  exists m pm, step E o (map erase pc) = Some m /\ p_step E false o pc = Some pm /\ mirrors E o pc pm m ps.
Proof.
  intros I Hnb Hck Hc Hn. destruct o as [u U val d|i|i|i|i f|i val|i|i|i d|i|i|i|i|i|i|i|i val|i|i val].
  { destruct Hc as (Hl & Hv & Hd). do 2 eexists. split; [reflexivity|]. split; [reflexivity|].
    eapply mirrors_eq; [reflexivity| |exact (mirrors_new ps pc u U val d Hnb Hck Hl Hv Hd)]. destruct u; reflexivity. }
  all: cbn [astep contract] in *;
    destruct (nth_error (cells a) i) as [y|] eqn:Hy; try contradiction;
    destruct y as [U id v d0|U id v|U id v|U id v|]; try contradiction;
    destruct (inv_get E s0 (p_mem ps) (map erase pc) a i _ I Hy) as (x & Hx & R);
    destruct x as [U' w|U' p0|U' p0|U' v'|]; cbn [rel] in R; try contradiction.
  all: cbn [step p_step]; rewrite Hx.
  all: try (pose proof (erase_box _ _ _ _ Hx) as Px; rewrite Px; pose proof (Hck i _ Px) as Cx; destruct R as (-> & Rd & Rh)).
  all: try (destruct (erase_raw _ _ _ _ Hx) as (p & Px & ->); rewrite Px; pose proof (Hck i _ Px) as Cx; destruct R as (-> & Rh)).
  all: try (destruct (erase_rust _ _ _ _ Hx) as (p & Px & ->); rewrite Px; pose proof (Hck i _ Px) as Cx; destruct R as (-> & Rh)).
  all: try (pose proof (erase_val _ _ _ _ Hx) as Px; rewrite Px; destruct R as (-> & ->)).
  all: do 2 eexists; split; [reflexivity|]; split; [reflexivity|].
  - (* Read *)
    eapply mirrors_eq; [apply assoc|reflexivity|].
    apply (mirrors_box E (Read i) pc U w (p_read U) _ (fun v => (SawValue v, pc))); auto.
    intros p Hp Ho. unfold tb_as_ref. change (tp_ref_addr (tgt E) w) with (tp_as_ptr (tgt E) w). rewrite <- Hp. apply quiet_read, Ho.
  - (* ReadPtr *)
    apply (mirrors_box E (ReadPtr i) pc U w (p_read U) _ (fun v => (SawValue v, pc))); auto.
    intros p Hp Ho. unfold tb_as_ptr. rewrite <- Hp. apply quiet_read, Ho.
  - (* Tag *)
    apply mirrors_quiet; auto; [apply (quiet_ret (SawTag (tb_discriminant E w), pc) hide)|].
    intros x ps' H X. injection H as <- <-. exact Hck.
  - (* Modify *)
    eapply mirrors_eq; [apply assoc|reflexivity|].
    apply (mirrors_box E (Modify i f) pc U w (fun p => pbind (p_read U p) (fun v => p_write U p (f v))) _ (fun _ => (SawNothing, pc))); auto.
    intros p Hp Ho. unfold tb_modify. change (tp_mut_ref_addr (tgt E) w) with (tp_as_ptr (tgt E) w). rewrite <- Hp.
    apply quiet_chain; [apply quiet_read, Ho|]. intros x ps' X. apply quiet_write. eapply ext_holds; eassumption.
  - (* Assign *)
    apply (mirrors_box E (Assign i val) pc U w (fun p => p_assign U p val) _ (fun _ => (SawNothing, pc))); auto.
    intros p Hp Ho. change (tb_assign E U w val) with (assign_at U (tp_as_ptr (tgt E) w) val). rewrite <- Hp. apply quiet_assign, Ho.
  - (* IntoInner *)
    eapply mirrors_eq; [apply assoc| |apply (mirrors_box E (IntoInner i) pc U w (p_read U) (tb_into_inner E U w) (fun v => (SawValue v, put i (PVal U v) pc))); auto].
    + unfold bind. destruct (tb_into_inner E U w (p_mem ps)); [|reflexivity..]. unfold hide. cbn [fst snd]. rewrite map_put. reflexivity.
    + intros p Hp Ho. unfold tb_into_inner, tb_as_mut_ptr. change (tp_as_mut_ptr (tgt E) w) with (tp_as_ptr (tgt E) w).
      rewrite <- Hp. apply quiet_read, Ho.
    + intros v' ps' H. apply cells_put; [exact H|exact Logic.I].
  - (* IntoRaw *)
    destruct (to_ptr_box E ps U w Hnb Cx) as (p & P1 & P2 & P3 & _). unfold mirrors, ret.
    exists (put i (PRaw U p) pc), ps. split.
    { unfold pbind, p_into_raw. change (tp_as_mut_ptr (tgt E) w) with (tp_as_ptr (tgt E) w). rewrite P1. reflexivity. }
    rewrite map_put. cbn [erase]. rewrite P2. auto using cells_put.
  - (* FromRaw *)
    destruct (C16_into_from E (fst p) d (p_mem ps) (eo_target E HE) (hm_width _ _ _ _ _ Rh) (hm_addr _ _ _ _ _ Rh) Hc) as (w & W1 & W2 & W3).
    unfold mirrors, bind. rewrite W1. unfold tb_from_raw in W1.
    set (ps1 := PSt (p_mem ps) (p_blocks ps) (match snd p with Some id => id :: p_exposed ps | None => p_exposed ps end) (p_next ps)).
    assert (X : ext ps ps1) by (constructor; cbn; auto; destruct (snd p); [apply incl_tl|]; apply incl_refl).
    exists (put i (PBox U w) pc), ps1. split.
    { unfold pbind, p_from_raw, to_int, pbind, under. cbn [p_mem p_blocks p_exposed p_next]. rewrite W1. reflexivity. }
    rewrite map_put. split; [reflexivity|]. split; [reflexivity|]. split; [exact (ext_numbered _ _ X Hnb)|].
    apply cells_put; [exact (ext_cells _ _ _ _ X Hck)|]. apply (ext_cell E ps); [exact X|].
    intros Z. destruct (Cx Z) as (j & _ & O). exists j. assert (W2' : tp_as_ptr (tgt E) w = fst p) by exact W2. rewrite W2'. exact O.
  - (* IntoBox *)
    destruct (to_ptr_box E ps U w Hnb Cx) as (p & P1 & P2 & P3 & _). unfold mirrors, ret.
    exists (put i (PRust U p) pc), ps. split.
    { unfold pbind, p_into_raw. change (tp_as_mut_ptr (tgt E) w) with (tp_as_ptr (tgt E) w). rewrite P1. reflexivity. }
    rewrite map_put. cbn [erase]. rewrite P2. auto using cells_put.
  - (* RawToBox *)
    unfold mirrors, ret. exists (put i (PRust U p) pc), ps. split; [reflexivity|]. rewrite map_put. auto using cells_put.
  - (* RustRead *)
    apply (mirrors_use E (RustRead i) pc _ _ (fun v => (SawValue v, pc))); auto. apply quiet_read. exact (raw_holds E ps U p Cx).
  - (* RustDrop *)
    eapply mirrors_eq; [| |eapply (mirrors_free s0 a (RustDrop i) ps pc i U p (pbind (p_read U p) (fun v => under (drop_hval U v)))
      (bind (read_at U (fst p)) (fun v => drop_hval U v)) (fun _ => (SawNothing, PGone))); [exact I|exact Hnb|exact Hck|reflexivity|exact Px|..]].
    + unfold p_rbox_drop, pbind. destruct (p_read U p ps) as [v1 s1|q1 s1|u1]; [|reflexivity..].
      destruct (under (drop_hval U v1) s1); reflexivity.
    + unfold rbox_drop, bind. destruct (read_at U (fst p) (p_mem ps)) as [v1 s1|q1 s1|u1]; [|reflexivity..].
      destruct (drop_hval U v1 s1); reflexivity.
    + apply quiet_chain; [apply quiet_read; exact (raw_holds E ps U p Cx)|]. intros v1 ps1 X. apply quiet_drop.
    + intros _. split; [reflexivity|]. intros ps'. exact Logic.I.
  - (* RustUnbox *)
    eapply mirrors_eq; [| |eapply (mirrors_free s0 a (RustUnbox i) ps pc i U p (p_read U p)
      (read_at U (fst p)) (fun v => (SawValue v, PVal U v))); [exact I|exact Hnb|exact Hck|reflexivity|exact Px|..]].
    + unfold p_rbox_unbox, pbind. destruct (p_read U p ps) as [v1 s1|q1 s1|u1]; [|reflexivity..].
      destruct (h_size U =? 0); [reflexivity|]. destruct (p_dealloc p (h_size U) (h_align U) s1); reflexivity.
    + unfold rbox_unbox, bind. destruct (read_at U (fst p) (p_mem ps)) as [v1 s1|q1 s1|u1]; [|reflexivity..].
      destruct (h_size U =? 0); [reflexivity|]. destruct (dealloc (fst p) (h_size U) (h_align U) s1); reflexivity.
    + apply quiet_read; exact (raw_holds E ps U p Cx).
    + intros v1. split; [reflexivity|]. intros ps'. exact Logic.I.
  - (* DropBox *)
    unfold mirrors, bind, tb_drop, ret. exists (put i PGone pc), ps. split; [reflexivity|]. rewrite map_put.
    split; [reflexivity|]. split; [reflexivity|]. split; [exact Hnb|]. apply cells_put; [exact Hck|exact Logic.I].
  - (* DropValue *)
    eapply mirrors_eq; [reflexivity| |apply (mirrors_use E (DropValue i) pc _ (drop_hval U v) (fun _ => (SawNothing, put i PGone pc))); auto].
    + unfold bind, drop_hval, ret, hide. cbn [fst snd]. rewrite map_put. reflexivity.
    + apply quiet_drop.
    + intros x ps' H. apply cells_put; [exact H|exact Logic.I].
  - (* AssignPtr *)
    apply (mirrors_box E (AssignPtr i val) pc U w (fun p => p_assign U p val) _ (fun _ => (SawNothing, pc))); auto.
    intros p Hp Ho. change (tb_as_mut_ptr E w) with (tp_as_ptr (tgt E) w). rewrite <- Hp. apply quiet_assign, Ho.
  - (* RawRead *)
    apply (mirrors_use E (RawRead i) pc _ _ (fun v => (SawValue v, pc))); auto. apply quiet_read. exact (raw_holds E ps U p Cx).
  - (* RawAssign *)
    apply (mirrors_use E (RawAssign i val) pc _ _ (fun _ => (SawNothing, pc))); auto. apply quiet_assign. exact (raw_holds E ps U p Cx).
Qed.

End Step.
