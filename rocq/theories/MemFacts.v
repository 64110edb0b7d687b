(** Proofs about memory, layouts and the allocator. *)
From Coq Require Import NArith String Bool List Lia.
From Verif Require Import Words Config Spec SpecMem ConfigFacts Pointer PointerFacts Mem Box.
Import ListNotations.
Local Open Scope N_scope.

(** ** Alignment arithmetic *)

Lemma power_of_two_pos a : power_of_two a -> 0 < a.
Proof. intros (k & _ & ->). apply pow2_pos. Qed.

Lemma power_of_two_nz a : power_of_two a -> a <> 0.
Proof. intros H. apply power_of_two_pos in H. lia. Qed.

Lemma power_of_two_divides a b : power_of_two a -> power_of_two b -> a <= b -> b mod a = 0.
Proof.
  intros (j & Hj & ->) (k & Hk & ->) H.
  destruct (N.le_gt_cases j k) as [L|L].
  - replace k with (k - j + j) by lia. rewrite N.pow_add_r. apply N.mod_mul, N.pow_nonzero. discriminate.
  - apply N.pow_lt_mono_r with (a := 2) in L; lia.
Qed.

Lemma power_of_two_max a b : power_of_two a -> power_of_two b -> power_of_two (N.max a b).
Proof. intros Ha Hb. destruct (N.max_spec a b) as [[_ ->]|[_ ->]]; assumption. Qed.

Lemma align_up_ge x a : 0 < a -> x <= align_up x a.
Proof.
  intros Ha. unfold align_up. pose proof (N.div_mod (x + a - 1) a ltac:(lia)).
  pose proof (N.mod_lt (x + a - 1) a ltac:(lia)). lia.
Qed.

Lemma align_up_mod x a : 0 < a -> align_up x a mod a = 0.
Proof. intros Ha. unfold align_up. apply N.mod_mul. lia. Qed.

(** ** Bytes *)

Lemma store_other l : forall m a x, x < a \/ a + N.of_nat (List.length l) <= x -> store m a l x = m x.
Proof.
  induction l as [|b l IH]; intros m a x H; cbn [store List.length] in *; [reflexivity|].
  rewrite Nat2N.inj_succ in H. destruct (N.eqb_spec x a); [lia|]. apply IH. lia.
Qed.

Lemma load_ext n : forall m m' a, (forall x, a <= x < a + N.of_nat n -> m x = m' x) ->
  load m a n = load m' a n.
Proof.
  induction n as [|n IH]; intros m m' a H; cbn [load]; [reflexivity|].
  rewrite Nat2N.inj_succ in H. f_equal; [apply H; lia|]. apply IH. intros x Hx. apply H. lia.
Qed.

Lemma load_store_same l : forall m a, load (store m a l) a (List.length l) = l.
Proof.
  induction l as [|b l IH]; intros m a; cbn [load store List.length]; [reflexivity|].
  rewrite N.eqb_refl. f_equal. rewrite <- (IH m (a + 1)) at 2. apply load_ext.
  intros x Hx. destruct (N.eqb_spec x a); [lia|reflexivity].
Qed.

Lemma load_length n : forall m a, List.length (load m a n) = n.
Proof. induction n; intros; cbn; auto. Qed.

(** ** Fields *)

Definition in_field (p x : N) (f : N * rty) : Prop := p + fst f <= x < p + fst f + ty_size (snd f).

Lemma write_fields_other fs : forall vs m p x,
  Forall2 has_type (map snd fs) vs -> Forall (fun f => ~ in_field p x f) fs ->
  write_fields m p fs vs x = m x.
Proof.
  induction fs as [|[off t] fs IH]; intros vs m p x Hv Hx; inversion Hv; subst; cbn [write_fields]; [reflexivity|].
  inversion Hx as [|? ? Hn Hr]; subst. rewrite IH by assumption.
  apply store_other. match goal with H : has_type _ _ |- _ => destruct H as [Hl _] end.
  unfold in_field in Hn. cbn [fst snd] in Hn. rewrite Hl, N2Nat.id. lia.
Qed.

Lemma read_fields_ext fs : forall m m' p,
  (forall f x, In f fs -> in_field p x f -> m x = m' x) -> read_fields m p fs = read_fields m' p fs.
Proof.
  induction fs as [|[off t] fs IH]; intros m m' p H; cbn [read_fields]; [reflexivity|].
  rewrite (load_ext _ m m').
  - rewrite (IH m m') by (intros; eapply H; [right|]; eassumption). reflexivity.
  - intros x Hx. eapply H; [left; reflexivity|]. unfold in_field. cbn [fst snd]. rewrite N2Nat.id in Hx. lia.
Qed.

Lemma read_write_fields fs : forall vs m p,
  Forall2 has_type (map snd fs) vs -> ForallOrdPairs apart fs ->
  read_fields (write_fields m p fs vs) p fs = Some vs.
Proof.
  induction fs as [|[off t] fs IH]; intros vs m p Hv Ha; inversion Hv; subst; cbn [write_fields read_fields]; [reflexivity|].
  inversion Ha as [|? ? Hf Hr]; subst.
  match goal with H : has_type _ ?v |- _ => rename v into w; destruct H as [Hl Hval] end.
  assert (E : load (write_fields (store m (p + off) w) p fs l') (p + off) (N.to_nat (ty_size t)) = w).
  { rewrite <- (load_store_same w m (p + off)) at 2. rewrite Hl. apply load_ext. intros x Hx.
    apply write_fields_other; [assumption|]. rewrite Forall_forall in *. intros g Hg Hin.
    specialize (Hf g Hg). unfold apart, in_field in *. cbn [fst snd] in *. rewrite N2Nat.id in Hx. lia. }
  rewrite E, Hval, IH by assumption. reflexivity.
Qed.

Lemma read_fields_types fs : forall m p vs, read_fields m p fs = Some vs -> Forall2 has_type (map snd fs) vs.
Proof.
  induction fs as [|[off t] fs IH]; intros m p vs; cbn [read_fields map snd].
  - intros E. injection E as <-. constructor.
  - destruct (ty_valid t _) eqn:V; [|discriminate]. destruct (read_fields m p fs) eqn:R; [|discriminate].
    intros E. injection E as <-. constructor; [|eapply IH; eassumption]. split; [apply load_length|exact V].
Qed.

(** ** Whole values *)

Lemma write_mem_other H p vs m x : hval_ok H vs -> layout_legal H -> ~ (p <= x < p + h_size H) ->
  write_mem H p vs m x = m x.
Proof.
  intros Hv Hl Hx. unfold write_mem. rewrite write_fields_other.
  - unfold undef_range. destruct (N.leb_spec p x), (N.ltb_spec x (p + h_size H)); cbn; try reflexivity. lia.
  - exact Hv.
  - pose proof (ll_inside H Hl) as Hi. rewrite Forall_forall in *. intros f Hf Hin. specialize (Hi f Hf).
    unfold in_field in Hin. lia.
Qed.

Lemma read_write_mem H p vs m : hval_ok H vs -> layout_legal H ->
  read_fields (write_mem H p vs m) p (h_fields H) = Some vs.
Proof. intros Hv Hl. apply read_write_fields; [exact Hv|apply ll_apart, Hl]. Qed.

(** What a successful access check means. *)
Definition can_access (s : st) (H : hty) (p : N) : Prop :=
  p <> 0 /\ p mod h_align H = 0 /\ accessible s p (h_size H) = true.

Lemma check_access_ok s H p : can_access s H p -> check_access H p s = Ok tt s.
Proof.
  intros (H1 & H2 & H3). unfold check_access.
  destruct (N.eqb_spec p 0); [contradiction|]. rewrite H2, H3. reflexivity.
Qed.

Lemma check_access_inv s H p r s' : check_access H p s = Ok r s' -> s' = s /\ can_access s H p.
Proof.
  unfold check_access, can_access. destruct (N.eqb_spec p 0); [discriminate|].
  destruct (N.eqb_spec (p mod h_align H) 0); cbn [negb]; [|discriminate].
  destruct (accessible s p (h_size H)); cbn [negb]; [|discriminate]. intros E. injection E as _ <-. auto.
Qed.

Lemma read_at_eq s H p : can_access s H p ->
  read_at H p s = match read_fields (bytes s) p (h_fields H) with Some vs => Ok vs s | None => UB UbInvalidValue end.
Proof. intros Hc. unfold read_at, bind. rewrite check_access_ok by assumption. reflexivity. Qed.

Lemma read_at_inv s H p v s' : read_at H p s = Ok v s' ->
  s' = s /\ can_access s H p /\ read_fields (bytes s) p (h_fields H) = Some v.
Proof.
  unfold read_at, bind. destruct (check_access H p s) eqn:C; try discriminate.
  apply check_access_inv in C as [-> Hc]. destruct (read_fields _ _ _); [|discriminate].
  intros E. injection E as <- <-. auto.
Qed.

Lemma write_at_eq s H p vs : can_access s H p ->
  write_at H p vs s = Ok tt (St (write_mem H p vs (bytes s)) (blocks s) (events s)).
Proof. intros Hc. unfold write_at, bind. rewrite check_access_ok by assumption. reflexivity. Qed.

Lemma accessible_incl s s' p n : incl (blocks s) (blocks s') ->
  accessible s p n = true -> accessible s' p n = true.
Proof.
  unfold accessible. intros Hi H. apply orb_true_iff in H as [->|H]; [reflexivity|].
  apply orb_true_iff. right. apply existsb_exists in H as (b & Hb & Hc). apply existsb_exists. eauto.
Qed.

Lemma keeps_refl s : keeps s s.
Proof. intros b Hb. auto. Qed.

Lemma keeps_trans a b c : keeps a b -> keeps b c -> keeps a c.
Proof.
  intros H1 H2 x Hx. destruct (H1 x Hx) as [I1 E1]. destruct (H2 x I1) as [I2 E2].
  split; [exact I2|]. intros y Hy. rewrite E2, E1 by assumption. reflexivity.
Qed.

Lemma keeps_same s s' : bytes s' = bytes s -> blocks s' = blocks s -> keeps s s'.
Proof. intros H1 H2 b Hb. rewrite H1, H2. auto. Qed.

(** Reading is stable while the live blocks keep their contents. *)
Lemma read_at_keeps s s' H p v : layout_legal H -> keeps s s' ->
  read_at H p s = Ok v s -> read_at H p s' = Ok v s'.
Proof.
  intros Hl Hk Hr. apply read_at_inv in Hr as (_ & (Hz & Ha & Hacc) & Hv).
  rewrite read_at_eq.
  - rewrite (read_fields_ext _ (bytes s') (bytes s)); [rewrite Hv; reflexivity|].
    intros f x Hf Hx. pose proof (ll_inside H Hl) as Hi. rewrite Forall_forall in Hi. specialize (Hi f Hf).
    unfold in_field in Hx. unfold accessible in Hacc. apply orb_true_iff in Hacc as [Hacc|Hacc].
    + apply N.eqb_eq in Hacc. lia.
    + apply existsb_exists in Hacc as (b & Hb & Hc). unfold block_contains in Hc.
      apply andb_true_iff in Hc as [C1 C2]. apply N.leb_le in C1, C2. apply (Hk b Hb). lia.
  - split; [exact Hz|]. split; [exact Ha|]. eapply accessible_incl; [|exact Hacc].
    intros b Hb. apply (Hk b Hb).
Qed.

Lemma read_at_types s H p v s' : read_at H p s = Ok v s' -> hval_ok H v.
Proof. intros Hr. apply read_at_inv in Hr as (_ & _ & Hv). eapply read_fields_types, Hv. Qed.

(** ** Layouts *)

Lemma leaf_legal t : wf_ty t -> layout_legal (leaf_hty t).
Proof.
  intros [Ha Hs]. constructor; cbn [leaf_hty h_align h_size h_fields]; try assumption;
    repeat constructor; cbn [fst snd]; lia.
Qed.

Lemma leaf_types t : h_types (leaf_hty t) = [t].
Proof. reflexivity. Qed.

Lemma max_align_pow tys : Forall wf_ty tys -> power_of_two (max_align tys).
Proof.
  induction 1 as [|t tys [Ha _] _ IH]; cbn [max_align fold_right].
  - exists 0. split; [lia|reflexivity].
  - apply power_of_two_max; assumption.
Qed.

Lemma reprC_fields_spec tys : Forall wf_ty tys -> forall cur fs e, reprC_fields cur tys = (fs, e) ->
  map snd fs = tys /\ cur <= e /\
  Forall (fun f => cur <= fst f /\ fst f + ty_size (snd f) <= e /\ fst f mod ty_align (snd f) = 0) fs /\
  ForallOrdPairs apart fs.
Proof.
  induction 1 as [|t tys [Ha _] _ IH]; intros cur fs e; cbn [reprC_fields].
  - intros E. injection E as <- <-. repeat split; try constructor. lia.
  - destruct (reprC_fields (align_up cur (ty_align t) + ty_size t) tys) as [fs' e'] eqn:R.
    intros E. injection E as <- <-. destruct (IH _ _ _ R) as (I1 & I2 & I3 & I4).
    pose proof (power_of_two_pos _ Ha) as Hp. pose proof (align_up_ge cur _ Hp).
    pose proof (align_up_mod cur _ Hp). repeat split.
    + cbn. now rewrite I1.
    + lia.
    + constructor; [cbn [fst snd]; repeat split; [lia|lia|assumption]|].
      eapply Forall_impl; [|exact I3]. cbn beta. intros f Hf. repeat split; [lia|lia|apply Hf].
    + constructor; [|exact I4]. eapply Forall_impl; [|exact I3]. cbn beta. intros f Hf.
      left. cbn [fst snd]. lia.
Qed.

Lemma max_align_ge tys t : In t tys -> ty_align t <= max_align tys.
Proof.
  induction tys as [|a tys IH]; cbn [In max_align fold_right]; [tauto|]. fold (max_align tys).
  intros [->|H]; [|specialize (IH H)]; lia.
Qed.

Lemma reprC_types tys : Forall wf_ty tys -> h_types (reprC tys) = tys.
Proof.
  intros H. unfold h_types, reprC. destruct (reprC_fields 0 tys) as [fs e] eqn:R.
  exact (proj1 (reprC_fields_spec tys H _ _ _ R)).
Qed.

Lemma reprC_legal tys : Forall wf_ty tys -> layout_legal (reprC tys).
Proof.
  intros H. pose proof (max_align_pow tys H) as Hm. pose proof (power_of_two_pos _ Hm) as Hp.
  unfold reprC. destruct (reprC_fields 0 tys) as [fs e] eqn:R.
  destruct (reprC_fields_spec tys H _ _ _ R) as (I1 & I2 & I3 & I4).
  pose proof (align_up_ge e _ Hp). pose proof (align_up_mod e _ Hp).
  constructor; cbn [h_align h_size h_fields]; try assumption.
  - eapply Forall_impl; [|exact I3]. cbn beta. intros f Hf. lia.
  - eapply Forall_impl; [|exact I3]. cbn beta. intros f Hf. apply Hf.
  - rewrite Forall_forall. intros f Hf. apply max_align_ge. rewrite <- I1. apply in_map, Hf.
Qed.

(** ** Allocation *)

Lemma alloc_keeps E s size align p : alloc_ok E -> 0 < size -> power_of_two align ->
  alloc_fn E s size align = Some p -> forall m' ev,
  (forall x, ~ (p <= x < p + size) -> m' x = bytes s x) ->
  keeps s (St m' (Block p size align :: blocks s) ev).
Proof.
  intros Ha Hs Hal E1 m' ev Hm b Hb. cbn [blocks bytes]. split; [right; exact Hb|].
  intros x Hx. apply Hm. destruct (Ha s size align p Hs Hal E1) as (_ & _ & _ & Hd).
  specialize (Hd b Hb). lia.
Qed.
