(** Proofs about [TaggedBox] functions. *)
From Coq Require Import NArith String Bool List Lia.
From Verif Require Import Words Config Spec SpecMem ConfigFacts Pointer PointerFacts Mem MemFacts Box.
Import ListNotations.
Local Open Scope N_scope.

(** ** Event logs *)

Lemma allocations_app a b : allocations (a ++ b) = allocations a ++ allocations b.
Proof. induction a as [|[] a IH]; cbn; rewrite ?IH; reflexivity. Qed.
Lemma deallocations_app a b : deallocations (a ++ b) = deallocations a ++ deallocations b.
Proof. induction a as [|[] a IH]; cbn; rewrite ?IH; reflexivity. Qed.
Lemma destroyed_app a b : destroyed (a ++ b) = destroyed a ++ destroyed b.
Proof. induction a as [|[] a IH]; cbn; rewrite ?IH; reflexivity. Qed.

Lemma drop_events_spec tys : forall vs,
  destroyed (drop_events tys vs) =
    map (fun x => (ty_name (fst x), snd x)) (filter (fun x => ty_drop (fst x)) (combine tys vs)) /\
  allocations (drop_events tys vs) = [] /\ deallocations (drop_events tys vs) = [].
Proof.
  induction tys as [|t tys IH]; intros [|v vs]; cbn [drop_events combine filter map]; auto.
  destruct (IH vs) as (I1 & I2 & I3). rewrite destroyed_app, allocations_app, deallocations_app, I1, I2, I3.
  cbn [fst]. destruct (ty_drop t); auto.
Qed.

Lemma destroyed_drop H vs : destroyed (drop_events (h_types H) vs) = destructors H vs.
Proof. apply drop_events_spec. Qed.

(** ** new *)

(** The state after a successful allocation and write. *)
Definition stored (U : hty) (p : N) (val : hval) (s : st) : st :=
  St (write_mem U p val (undef_range (bytes s) p (h_size U)))
     (Block p (h_size U) (h_align U) :: blocks s)
     (events s ++ [EvAlloc p (h_size U) (h_align U)]).

(** The state after destroying a value. *)
Definition dropped (U : hty) (val : hval) (s : st) : st :=
  St (bytes s) (blocks s) (events s ++ drop_events (h_types U) val).

Section New.
Variable E : env.
Let t := tgt E.
Hypothesis Ht : target_ok t.
Hypothesis Ha : alloc_ok E.

Lemma tb_new_zst U val d s : h_size U = 0 ->
  tb_new E U val d s = Ok (tp_dangling t (h_align U) d) (dropped U val s).
Proof. intros Hs. unfold tb_new. rewrite Hs. reflexivity. Qed.

Lemma tb_new_null U val d s : h_size U <> 0 -> alloc_fn E s (h_size U) (h_align U) = None ->
  tb_new E U val d s = Panicked PanicNullAlloc (dropped U val s).
Proof.
  intros Hs Hn. unfold tb_new. destruct (N.eqb_spec (h_size U) 0); [contradiction|].
  unfold bind, alloc. rewrite Hn. reflexivity.
Qed.

Lemma can_access_stored U p val s : layout_legal U -> h_size U <> 0 ->
  alloc_fn E s (h_size U) (h_align U) = Some p -> can_access (stored U p val s) U p.
Proof.
  intros Hl Hs Hp. destruct (Ha s (h_size U) (h_align U) p ltac:(lia) (ll_align U Hl) Hp) as (H1 & H2 & _).
  split; [exact H1|]. split; [exact H2|]. unfold accessible, stored. cbn [blocks existsb].
  unfold block_contains at 1. cbn [b_base b_size]. rewrite !N.leb_refl. apply orb_true_r.
Qed.

Lemma tb_new_some U val d s p : layout_legal U -> h_size U <> 0 ->
  alloc_fn E s (h_size U) (h_align U) = Some p ->
  tb_new E U val d s =
    match tp_new t p d with Done w => Ok w (stored U p val s) | Panics m => Panicked m (stored U p val s) end.
Proof.
  intros Hl Hs Hp. unfold tb_new. destruct (N.eqb_spec (h_size U) 0); [contradiction|].
  unfold bind, alloc. rewrite Hp. rewrite write_at_eq.
  - cbn [bytes blocks events]. fold (stored U p val s). fold t. destruct (tp_new t p d); reflexivity.
  - destruct (can_access_stored U p val s Hl Hs Hp) as (H1 & H2 & H3). split; [exact H1|]. split; [exact H2|].
    exact H3.
Qed.

Lemma stored_keeps U p val s : layout_legal U -> hval_ok U val -> h_size U <> 0 ->
  alloc_fn E s (h_size U) (h_align U) = Some p -> keeps s (stored U p val s).
Proof.
  intros Hl Hv Hs Hp. unfold stored. eapply (alloc_keeps E); [exact Ha|lia|apply ll_align, Hl|exact Hp|].
  intros x Hx. rewrite write_mem_other by assumption. unfold undef_range.
  destruct (N.leb_spec p x), (N.ltb_spec x (p + h_size U)); cbn; try reflexivity. lia.
Qed.

Lemma stored_read U p val s : layout_legal U -> hval_ok U val -> h_size U <> 0 ->
  alloc_fn E s (h_size U) (h_align U) = Some p -> read_at U p (stored U p val s) = Ok val (stored U p val s).
Proof.
  intros Hl Hv Hs Hp. rewrite read_at_eq by (apply can_access_stored; assumption).
  unfold stored at 1. cbn [bytes]. rewrite read_write_mem by assumption. reflexivity.
Qed.

(** The address part of a word packed from an address of the target. *)
Lemma addr_of_pack p d : p < 2 ^ pointer_width (cfg t) -> p < 2 ^ ptr_bits t ->
  tp_as_ptr t (store_discriminant t p d) = p /\ tp_as_mut_ptr t (store_discriminant t p d) = p /\
  tp_ref_addr t (store_discriminant t p d) = p /\ tp_mut_ref_addr t (store_discriminant t p d) = p.
Proof.
  intros H1 H2. unfold tp_as_ptr, tp_as_mut_ptr, tp_ref_addr, tp_mut_ref_addr.
  rewrite strip_store_in by assumption. rewrite cast_ptr_id by assumption. auto.
Qed.

Lemma pow2_small a : power_of_two a -> a < 2 ^ pointer_width (cfg t) /\ a < 2 ^ ptr_bits t.
Proof.
  intros (k & Hk & ->). split; (apply N.pow_lt_mono_r; [lia|]).
  - destruct (row_facts _ (proj1 Ht)) as (_&_&Hw&_). lia.
  - destruct (proj2 Ht) as [-> | ->]; lia.
Qed.

Lemma alloc_lt s sz al p : 0 < sz -> power_of_two al -> alloc_fn E s sz al = Some p -> p < 2 ^ ptr_bits t.
Proof. intros H1 H2 H3. destruct (Ha s sz al p H1 H2 H3) as (_ & _ & H & _). unfold t. lia. Qed.

(** A value of a zero-sized type can be read at any non-null aligned address. *)
Lemma zst_read U p val s : layout_legal U -> hval_ok U val -> h_size U = 0 -> p <> 0 -> p mod h_align U = 0 ->
  read_at U p s = Ok val s.
Proof.
  intros Hl Hv Hs Hp Hal. rewrite read_at_eq.
  - rewrite (read_fields_ext _ (bytes s) (write_mem U p val (bytes s))).
    + rewrite read_write_mem by assumption. reflexivity.
    + intros f x Hf Hx. pose proof (ll_inside U Hl) as Hi. rewrite Forall_forall in Hi. specialize (Hi f Hf).
      unfold in_field in Hx. lia.
  - split; [exact Hp|]. split; [exact Hal|]. unfold accessible. rewrite Hs. reflexivity.
Qed.

Lemma box_holds_addr U w p v s : layout_legal U ->
  tp_as_ptr t w = p -> read_at U p s = Ok v s -> box_holds E s U w v.
Proof.
  intros Hl Hp Hr. unfold box_holds, tb_as_ref, tb_into_inner, tb_as_ptr, tb_as_mut_ptr. fold t.
  change (tp_ref_addr t w) with (tp_as_ptr t w). change (tp_as_mut_ptr t w) with (tp_as_ptr t w).
  rewrite Hp. auto.
Qed.

Lemma box_holds_inv U w v s : box_holds E s U w v -> read_at U (tp_as_ptr t w) s = Ok v s.
Proof. intros (_ & H & _). exact H. Qed.

Lemma box_holds_keeps U w v s s' : layout_legal U -> keeps s s' ->
  box_holds E s U w v -> box_holds E s' U w v.
Proof.
  intros Hl Hk H. eapply box_holds_addr; [assumption|reflexivity|].
  eapply read_at_keeps; [assumption|exact Hk|]. apply box_holds_inv, H.
Qed.

(** Everything about [new] with an in-range tag. *)
Lemma tb_new_spec U val d s : alloc_fits E -> layout_legal U -> hval_ok U val ->
  d <= max_discriminant (cfg t) ->
  (h_size U = 0 /\ exists w, tb_new E U val d s = Ok w (dropped U val s) /\
     tp_discriminant t w = d /\ tp_as_ptr t w = h_align U /\ w = pack (pointer_width (cfg t)) (h_align U) d /\
     box_holds E (dropped U val s) U w val) \/
  (h_size U <> 0 /\ alloc_fn E s (h_size U) (h_align U) = None /\
     tb_new E U val d s = Panicked PanicNullAlloc (dropped U val s)) \/
  (h_size U <> 0 /\ exists p w, alloc_fn E s (h_size U) (h_align U) = Some p /\
     tb_new E U val d s = Ok w (stored U p val s) /\
     tp_discriminant t w = d /\ tp_as_ptr t w = p /\ w = pack (pointer_width (cfg t)) p d /\
     box_holds E (stored U p val s) U w val).
Proof.
  intros Hf Hl Hv Hd. pose proof (max_disc_lt t Ht d Hd) as Hd'.
  destruct (N.eq_dec (h_size U) 0) as [Hs|Hs]; [left|right].
  - split; [exact Hs|]. exists (tp_dangling t (h_align U) d). rewrite tb_new_zst by exact Hs.
    destruct (pow2_small _ (ll_align U Hl)) as [L1 L2].
    destruct (addr_of_pack (h_align U) d L1 L2) as (A1 & _). unfold tp_dangling.
    split; [reflexivity|]. split; [apply fetch_store_in; assumption|]. split; [exact A1|].
    split; [apply store_in_range; assumption|].
    eapply box_holds_addr; [assumption|exact A1|]. pose proof (power_of_two_nz _ (ll_align U Hl)).
    apply zst_read; auto using N.mod_same.
  - destruct (alloc_fn E s (h_size U) (h_align U)) as [p|] eqn:Hp; [right|left].
    + split; [exact Hs|]. assert (Hs' : 0 < h_size U) by lia.
      pose proof (Hf s _ _ p Hs' (ll_align U Hl) Hp) as Hw. apply (max_ptr_eq t Ht) in Hw.
      pose proof (alloc_lt s _ _ p Hs' (ll_align U Hl) Hp) as Hb.
      exists p, (store_discriminant t p d). split; [reflexivity|].
      rewrite (tb_new_some U val d s p Hl Hs Hp), tp_new_ok by assumption.
      rewrite store_in_range by assumption. split; [reflexivity|].
      rewrite <- (store_in_range t Ht p d Hw Hd').
      destruct (addr_of_pack p d Hw Hb) as (A1 & _).
      split; [apply fetch_store_in; assumption|]. split; [exact A1|].
      split; [apply store_in_range; assumption|].
      eapply box_holds_addr; [assumption|exact A1|]. apply stored_read; assumption.
    + split; [exact Hs|]. split; [reflexivity|]. apply tb_new_null; assumption.
Qed.

End New.

(** ** Blocks *)

Lemma block_eqb_eq x y : block_eqb x y = true <-> x = y.
Proof.
  destruct x as [x1 x2 x3], y as [y1 y2 y3]. unfold block_eqb. cbn [b_base b_size b_align].
  rewrite !andb_true_iff, !N.eqb_eq. split; [intros [[-> ->] ->]; reflexivity|].
  intros H. injection H as -> -> ->. auto.
Qed.

Lemma dealloc_ok s p sz al : In (Block p sz al) (blocks s) ->
  dealloc p sz al s = Ok tt (St (bytes s) (remove_block (Block p sz al) (blocks s)) (events s ++ [EvDealloc p sz al])).
Proof.
  intros H. unfold dealloc.
  assert (E : existsb (fun x => block_eqb x (Block p sz al)) (blocks s) = true).
  { apply existsb_exists. exists (Block p sz al). split; [exact H|]. apply block_eqb_eq. reflexivity. }
  rewrite E. reflexivity.
Qed.

Lemma remove_block_head b l : remove_block b (b :: l) = l.
Proof. cbn [remove_block]. rewrite (proj2 (block_eqb_eq b b) eq_refl). reflexivity. Qed.
