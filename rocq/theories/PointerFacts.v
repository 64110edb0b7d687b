(** Arithmetic reading of the bit operations of [TaggedPointer]. *)
From Coq Require Import NArith List String Bool Lia.
From Verif Require Import Words Config ConfigFacts Pointer.
Import ListNotations.
Local Open Scope N_scope.

Lemma pow2_pos n : 0 < 2 ^ n.
Proof. assert (2 ^ n <> 0) by (apply N.pow_nonzero; discriminate). lia. Qed.

Lemma shl64_arith d w b : w + b = 64 -> shl64 d w = (d mod 2 ^ b) * 2 ^ w.
Proof.
  intros H. unfold shl64. rewrite N.shiftl_mul_pow2, <- H, N.pow_add_r, (N.mul_comm (2 ^ w)).
  apply N.mul_mod_distr_r; apply N.pow_nonzero; discriminate.
Qed.

(** [lor] with a left-shifted number: low part and high part do not meet. *)
Lemma lor_split p w k :
  N.lor p (k * 2 ^ w) mod 2 ^ w = p mod 2 ^ w /\ N.lor p (k * 2 ^ w) / 2 ^ w = N.lor (p / 2 ^ w) k.
Proof.
  split.
  - apply N.bits_inj. intro i. destruct (N.lt_ge_cases i w) as [Hi|Hi].
    + rewrite !N.mod_pow2_bits_low, N.lor_spec, <- N.shiftl_mul_pow2, N.shiftl_spec_low by assumption.
      apply orb_false_r.
    + rewrite !N.mod_pow2_bits_high by assumption. reflexivity.
  - rewrite <- !N.shiftr_div_pow2, <- N.shiftl_mul_pow2, N.shiftr_lor.
    f_equal. rewrite N.shiftr_shiftl_l, N.sub_diag by lia. apply N.shiftl_0_r.
Qed.

Lemma lor_disjoint_add p w k : p < 2 ^ w -> N.lor p (k * 2 ^ w) = p + k * 2 ^ w.
Proof.
  intros Hp. destruct (lor_split p w k) as [H1 H2].
  rewrite (N.div_small p) in H2 by assumption. rewrite (N.mod_small p) in H1 by assumption.
  rewrite N.lor_0_l in H2.
  assert (E : 2 ^ w <> 0) by (apply N.pow_nonzero; discriminate).
  rewrite (N.div_mod (N.lor p (k * 2 ^ w)) (2 ^ w)) by exact E. rewrite H1, H2. lia.
Qed.

Section Facts.
Variable t : target.
Hypothesis Ht : target_ok t.
Notation w := (pointer_width (cfg t)).
Notation b := (discriminant_bits (cfg t)).
Notation tb := (disc_ty_bits (cfg t)).

Lemma wb64 : w + b = 64.
Proof. apply row_facts, Ht. Qed.

Lemma store_eq p d : store_discriminant t p d = N.lor p ((d mod 2 ^ b) * 2 ^ w).
Proof. unfold store_discriminant. rewrite (shl64_arith _ _ _ wb64). reflexivity. Qed.

Lemma strip_eq x : strip_discriminant t x = x mod 2 ^ w.
Proof.
  unfold strip_discriminant. destruct (row_facts _ (proj1 Ht)) as (_&_&_&_&_&_&_&_&_&E). rewrite E.
  apply N.land_ones.
Qed.

Lemma fetch_eq x : x < 2 ^ 64 -> fetch_discriminant t x = x / 2 ^ w.
Proof.
  intros Hx. unfold fetch_discriminant, cast, shr64. rewrite N.shiftr_div_pow2.
  apply N.mod_small. destruct (row_facts _ (proj1 Ht)) as (H64&_&_&_&Hb&_).
  apply N.lt_le_trans with (2 ^ b).
  - apply N.div_lt_upper_bound; [apply N.pow_nonzero; discriminate|].
    rewrite <- N.pow_add_r, H64. exact Hx.
  - apply N.pow_le_mono_r; [discriminate|exact Hb].
Qed.

Lemma store_lt p d : p < 2 ^ 64 -> store_discriminant t p d < 2 ^ 64.
Proof.
  intros Hp. rewrite store_eq.
  assert (Hd : d mod 2 ^ b * 2 ^ w < 2 ^ 64).
  { rewrite <- wb64, N.add_comm, N.pow_add_r.
    apply N.mul_lt_mono_pos_r; [apply pow2_pos|]. apply N.mod_lt, N.pow_nonzero; discriminate. }
  set (q := d mod 2 ^ b * 2 ^ w) in *. clearbody q.
  rewrite <- (N.mod_small p (2 ^ 64) Hp), <- (N.mod_small q (2 ^ 64) Hd).
  rewrite <- !N.land_ones, <- N.land_lor_distr_l, N.land_ones. apply N.mod_lt. discriminate.
Qed.

Lemma strip_store p d : strip_discriminant t (store_discriminant t p d) = p mod 2 ^ w.
Proof. rewrite strip_eq, store_eq. apply lor_split. Qed.

Lemma fetch_store p d : p < 2 ^ 64 ->
  fetch_discriminant t (store_discriminant t p d) = N.lor (p / 2 ^ w) (d mod 2 ^ b).
Proof. intros Hp. rewrite (fetch_eq _ (store_lt p d Hp)), store_eq. apply lor_split. Qed.

Lemma store_in_range p d : p < 2 ^ w -> d < 2 ^ b -> store_discriminant t p d = p + d * 2 ^ w.
Proof. intros Hp Hd. rewrite store_eq, (N.mod_small d) by assumption. apply lor_disjoint_add, Hp. Qed.

Lemma w_le_64 : 2 ^ w <= 2 ^ 64.
Proof. apply N.pow_le_mono_r; [discriminate|]. pose proof wb64. lia. Qed.

Lemma strip_store_in p d : p < 2 ^ w -> strip_discriminant t (store_discriminant t p d) = p.
Proof. intros. rewrite strip_store. now apply N.mod_small. Qed.

Lemma fetch_store_in p d : p < 2 ^ w -> d < 2 ^ b -> fetch_discriminant t (store_discriminant t p d) = d.
Proof.
  intros Hp Hd. rewrite fetch_store by (pose proof w_le_64; lia).
  rewrite N.div_small, N.mod_small by assumption. apply N.lor_0_l.
Qed.

Lemma store_parts x : x < 2 ^ 64 ->
  store_discriminant t (strip_discriminant t x) (fetch_discriminant t x) = x.
Proof.
  intros Hx. rewrite strip_eq, fetch_eq by assumption. rewrite store_in_range.
  - rewrite (N.div_mod x (2 ^ w)) at 3 by (apply N.pow_nonzero; discriminate). lia.
  - apply N.mod_lt, N.pow_nonzero; discriminate.
  - apply N.div_lt_upper_bound; [apply N.pow_nonzero; discriminate|].
    rewrite <- N.pow_add_r, wb64. exact Hx.
Qed.

Lemma max_ptr_eq p : p <= max_pointer_value (cfg t) <-> p < 2 ^ w.
Proof.
  destruct (row_facts _ (proj1 Ht)) as (_&_&_&_&_&_&_&_&E&_). rewrite E.
  pose proof (pow2_pos w). lia.
Qed.

Lemma max_disc_lt d : d <= max_discriminant (cfg t) -> d < 2 ^ b.
Proof. destruct (row_facts _ (proj1 Ht)) as (_&_&_&_&_&H&_). lia. Qed.

Lemma disc_bits_le_ty : 2 ^ b <= 2 ^ tb.
Proof. apply N.pow_le_mono_r; [discriminate|]. apply row_facts, Ht. Qed.

(** Casting an in-range address of the target to a pointer loses nothing. *)
Lemma cast_ptr_id a : a < 2 ^ ptr_bits t -> cast (ptr_bits t) a = a.
Proof. unfold cast. apply N.mod_small. Qed.

Lemma ptr32_in_range a : ptr_bits t = 32 -> a < 2 ^ ptr_bits t -> a < 2 ^ w.
Proof.
  intros E H. rewrite E in H. eapply N.lt_le_trans; [exact H|].
  apply N.pow_le_mono_r; [discriminate|]. destruct (row_facts _ (proj1 Ht)) as (_&_&Hw&_). lia.
Qed.

Lemma tp_new_cases p d :
  tp_new t p d =
  if debug_assertions t then
    if d <=? max_discriminant (cfg t) then
      if p <=? max_pointer_value (cfg t) then Done (store_discriminant t p d)
      else Panics (PanicPointer w (w + 1))
    else Panics (PanicDiscriminant d (max_discriminant (cfg t)))
  else Done (store_discriminant t p d).
Proof.
  unfold tp_new. destruct (debug_assertions t); cbn [andb]; [|reflexivity].
  destruct (d <=? _); cbn [negb]; [|reflexivity]. destruct (p <=? _); reflexivity.
Qed.

Lemma tp_new_ok p d : p < 2 ^ w -> d <= max_discriminant (cfg t) ->
  tp_new t p d = Done (p + d * 2 ^ w).
Proof.
  intros Hp Hd. rewrite tp_new_cases, (proj2 (N.leb_le _ _) Hd), (proj2 (N.leb_le _ _) (proj2 (max_ptr_eq p) Hp)).
  rewrite store_in_range by (auto using max_disc_lt). destruct (debug_assertions t); reflexivity.
Qed.

End Facts.
