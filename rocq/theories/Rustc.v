(** One concrete layout of Rust tuples: the field reordering of rustc around version 1.42 (the
    compiler of the crate's time), as the author of this model knows it: zero-sized fields first, then by
    decreasing alignment, stable; the last field of a tuple stays last. It is only used as an
    instance of the arbitrary layout [tuple_layout]. *)
From Coq Require Import Arith NArith String Bool List Lia Permutation.
From Verif Require Import Words Config Spec SpecMem Mem MemFacts Box.
Import ListNotations.
Local Open Scope N_scope.

(** [sort_by_key(|f| (!f.is_zst(), Reverse(f.align)))]: may [a] stand before [b]?
    rustc, not the repository. For the tuples of [/repo/src/tagged_box_macro/mod.rs:290-304]. *)
Definition before (a b : rty) : bool :=
  let za := ty_size a =? 0 in let zb := ty_size b =? 0 in
  if Bool.eqb za zb then ty_align b <=? ty_align a else za.

(** Stable insertion. rustc, not the repository. For the tuples of [/repo/src/tagged_box_macro/mod.rs:290-304]. *)
Fixpoint insert_field (f : nat * rty) (l : list (nat * rty)) : list (nat * rty) :=
  match l with
  | [] => [f]
  | g :: r => if before (snd f) (snd g) then f :: g :: r else g :: insert_field f r
  end.

(** rustc, not the repository. For the tuples of [/repo/src/tagged_box_macro/mod.rs:290-304]. *)
Definition sort_fields (l : list (nat * rty)) : list (nat * rty) := fold_right insert_field [] l.

(** Fields numbered in declaration order, in memory order.
    rustc, not the repository. For the tuples of [/repo/src/tagged_box_macro/mod.rs:290-304]. *)
Definition memory_order (tys : list rty) : list (nat * rty) :=
  let l := combine (seq 0 (length tys)) tys in
  sort_fields (removelast l) ++ skipn (length l - 1) l.

(** Auxiliary: the field of this number. For the tuples of [/repo/src/tagged_box_macro/mod.rs:290-304]. *)
Fixpoint find_field (i : nat) (l : list (nat * (N * rty))) : option (N * rty) :=
  match l with
  | [] => None
  | (j, f) :: r => if Nat.eqb i j then Some f else find_field i r
  end.

(** Auxiliary. For the tuples of [/repo/src/tagged_box_macro/mod.rs:290-304]. *)
Fixpoint somes {A} (l : list (option A)) : list A :=
  match l with [] => [] | Some a :: r => a :: somes r | None :: r => somes r end.

(** The layout of a tuple, for [/repo/src/tagged_box_macro/mod.rs:290-304]. *)
Definition rustc_tuple (tys : list rty) : hty :=
  let order := memory_order tys in
  let (fs, e) := reprC_fields 0 (map snd order) in
  let placed := combine (map fst order) fs in
  Hty (align_up e (max_align tys)) (max_align tys)
      (somes (map (fun i => find_field i placed) (seq 0 (length tys)))).

(** ** It is a legal layout *)

Lemma insert_perm f l : Permutation (insert_field f l) (f :: l).
Proof.
  induction l as [|g l IH]; cbn [insert_field]; [reflexivity|]. destruct (before _ _); [reflexivity|].
  rewrite IH. apply perm_swap.
Qed.

Lemma sort_perm l : Permutation (sort_fields l) l.
Proof. induction l as [|f l IH]; [reflexivity|]. cbn. rewrite insert_perm, IH. reflexivity. Qed.

Lemma removelast_skipn {A} (l : list A) : removelast l ++ skipn (length l - 1) l = l.
Proof.
  destruct l as [|a l] using rev_ind; [reflexivity|]. rewrite removelast_last, app_length, Nat.add_sub.
  rewrite skipn_app, skipn_all, Nat.sub_diag. reflexivity.
Qed.

Lemma order_perm tys : Permutation (memory_order tys) (combine (seq 0 (length tys)) tys).
Proof. unfold memory_order. rewrite sort_perm, removelast_skipn. reflexivity. Qed.

Lemma combine_fst {A B} (l : list A) : forall (m : list B), length l = length m -> map fst (combine l m) = l.
Proof. induction l; intros [|]; cbn; try discriminate; intros; f_equal; auto. Qed.
Lemma combine_snd {A B} (l : list A) : forall (m : list B), length l = length m -> map snd (combine l m) = m.
Proof. induction l; intros [|]; cbn; try discriminate; intros; f_equal; auto. Qed.

Lemma find_field_in l i f : find_field i l = Some f -> In (i, f) l.
Proof.
  induction l as [|[j g] l IH]; cbn [find_field In]; [discriminate|].
  destruct (Nat.eqb_spec i j) as [->|]; [|auto]. intros E. injection E as ->. auto.
Qed.

Lemma find_field_some l i f : NoDup (map fst l) -> In (i, f) l -> find_field i l = Some f.
Proof.
  induction l as [|[j g] l IH]; cbn [find_field In map fst]; [tauto|]. intros N [E|H].
  - injection E as -> ->. rewrite Nat.eqb_refl. reflexivity.
  - inversion N; subst. destruct (Nat.eqb_spec i j) as [->|]; [|auto]. apply (in_map fst) in H. contradiction.
Qed.

Lemma apart_sym f g : apart f g -> apart g f.
Proof. unfold apart. tauto. Qed.

(** Pairs of different positions of a pairwise relation. *)
Lemma pairs_nth {A} (R : A -> A -> Prop) (Hsym : forall a b, R a b -> R b a) l : ForallOrdPairs R l ->
  forall i j a b, i <> j -> nth_error l i = Some a -> nth_error l j = Some b -> R a b.
Proof.
  induction 1 as [|a l Ha Hl IH]; intros i j x y Hij Hi Hj; [destruct i; discriminate|].
  rewrite Forall_forall in Ha. destruct i as [|i], j as [|j]; cbn in *.
  - congruence.
  - injection Hi as <-. apply Ha. eapply nth_error_In, Hj.
  - injection Hj as <-. apply Hsym, Ha. eapply nth_error_In, Hi.
  - eapply IH; [|exact Hi|exact Hj]. congruence.
Qed.

Lemma pairs_of_nth {A} (R : A -> A -> Prop) l :
  (forall i j a b, i <> j -> nth_error l i = Some a -> nth_error l j = Some b -> R a b) -> ForallOrdPairs R l.
Proof.
  induction l as [|a l IH]; intros H; constructor.
  - apply Forall_forall. intros b Hb. apply In_nth_error in Hb as [j Hj]. apply (H 0%nat (S j)); auto.
  - apply IH. intros i j x y Hij Hi Hj. apply (H (S i) (S j)); auto.
Qed.

Lemma somes_nth {A} (f : nat -> option A) n : (forall i, (i < n)%nat -> f i <> None) -> forall k m, (k + m = n)%nat ->
  (forall i, (i < m)%nat -> nth_error (somes (map f (seq k m))) i = f (k + i)%nat) /\ length (somes (map f (seq k m))) = m.
Proof.
  intros H k m. revert k. induction m as [|m IH]; intros k E; cbn [seq map somes].
  - split; [intros; lia|reflexivity].
  - destruct (f k) as [a|] eqn:Fk; [|exfalso; apply (H k); [lia|exact Fk]].
    destruct (IH (S k)) as [I1 I2]; [lia|]. cbn [length]. split; [|lia].
    intros [|i] Hi; cbn [nth_error]; [rewrite Nat.add_0_r; auto|].
    rewrite I1 by lia. f_equal. lia.
Qed.

Lemma reprC_fields_len tys : forall cur, length (fst (reprC_fields cur tys)) = length tys.
Proof.
  induction tys as [|t r IH]; intros cur; cbn [reprC_fields]; [reflexivity|].
  specialize (IH (align_up cur (ty_align t) + ty_size t)). destruct (reprC_fields _ r). cbn in *. lia.
Qed.

Lemma nth_error_combine {A B} (l : list A) : forall (m : list B) i a b,
  nth_error (combine l m) i = Some (a, b) -> nth_error l i = Some a /\ nth_error m i = Some b.
Proof.
  induction l as [|x l IH]; intros [|y m] [|i] a b; cbn; try discriminate; auto.
  intros E. injection E as -> ->. auto.
Qed.

Section Legal.
Variable tys : list rty.
Hypothesis Hw : Forall wf_ty tys.
Let n := length tys.
Let order := memory_order tys.
Let fs := fst (reprC_fields 0 (map snd order)).
Let e := snd (reprC_fields 0 (map snd order)).
Let placed := combine (map fst order) fs.

Lemma rustc_tuple_unfold : rustc_tuple tys =
  Hty (align_up e (max_align tys)) (max_align tys) (somes (map (fun i => find_field i placed) (seq 0 n))).
Proof.
  unfold rustc_tuple, placed, fs, e, order, n. destruct (reprC_fields 0 (map snd (memory_order tys))). reflexivity.
Qed.

Lemma order_tys : Permutation (map snd order) tys.
Proof.
  unfold order. rewrite order_perm, combine_snd by (rewrite seq_length; reflexivity). reflexivity.
Qed.

Lemma order_idx : Permutation (map fst order) (seq 0 n).
Proof.
  unfold order. rewrite order_perm, combine_fst by (rewrite seq_length; reflexivity). reflexivity.
Qed.

Lemma fs_facts : map snd fs = map snd order /\
  Forall (fun f => fst f + ty_size (snd f) <= e /\ fst f mod ty_align (snd f) = 0) fs /\ ForallOrdPairs apart fs.
Proof.
  assert (H : Forall wf_ty (map snd order)) by (eapply Permutation_Forall; [symmetry; apply order_tys|exact Hw]).
  unfold fs, e. destruct (reprC_fields 0 (map snd order)) as [f0 e0] eqn:R.
  destruct (reprC_fields_spec _ H _ _ _ R) as (I1 & I2 & I3 & I4). cbn [fst snd]. repeat split; auto.
  eapply Forall_impl; [|exact I3]. cbn beta. intros f Hf. split; apply Hf.
Qed.

Lemma fs_len : length (map fst order) = length fs.
Proof. unfold fs. rewrite reprC_fields_len, !map_length. reflexivity. Qed.

Lemma placed_fst : map fst placed = map fst order.
Proof. apply combine_fst, fs_len. Qed.

Lemma placed_nodup : NoDup (map fst placed).
Proof. rewrite placed_fst. eapply Permutation_NoDup; [symmetry; apply order_idx|]. apply seq_NoDup. Qed.

Lemma placed_all i : (i < n)%nat -> find_field i placed <> None.
Proof.
  intros Hi. assert (Hin : In i (map fst placed)).
  { rewrite placed_fst. eapply Permutation_in; [symmetry; apply order_idx|]. apply in_seq. lia. }
  apply in_map_iff in Hin as ([j f] & E & Hin). cbn in E. subst j.
  rewrite (find_field_some _ _ f placed_nodup Hin). discriminate.
Qed.

Let L := somes (map (fun i => find_field i placed) (seq 0 n)).

Lemma restored_nth i : (i < n)%nat -> nth_error L i = find_field i placed.
Proof. intros Hi. apply (proj1 (somes_nth _ n placed_all 0%nat n eq_refl) i Hi). Qed.

Lemma restored_len : length L = n.
Proof. apply (proj2 (somes_nth _ n placed_all 0%nat n eq_refl)). Qed.

Lemma restored_inv i f : nth_error L i = Some f ->
  (i < n)%nat /\ exists j, nth_error placed j = Some (i, f) /\ nth_error fs j = Some f /\ nth_error tys i = Some (snd f).
Proof.
  intros H. assert (Hi : (i < n)%nat) by (rewrite <- restored_len; apply nth_error_Some; congruence).
  split; [exact Hi|]. rewrite restored_nth in H by exact Hi. apply find_field_in in H.
  apply In_nth_error in H as [j Hj]. exists j. split; [exact Hj|].
  destruct (nth_error_combine _ _ _ _ _ Hj) as [N1 N2]. split; [exact N2|].
  assert (Hin : In (i, snd f) order).
  { assert (Et : nth_error (map snd fs) j = nth_error (map snd order) j) by (rewrite (proj1 fs_facts); reflexivity).
    rewrite !nth_error_map, N2 in Et. rewrite nth_error_map in N1.
    destruct (nth_error order j) as [[i' t']|] eqn:No; [|discriminate].
    cbn in N1, Et. injection N1 as <-. injection Et as ->. eapply nth_error_In, No. }
  apply (Permutation_in _ (order_perm tys)), In_nth_error in Hin as [k Hk].
  destruct (nth_error_combine _ _ _ _ _ Hk) as [K1 K2].
  assert (k = i); [|subst; exact K2].
  assert (Hk' : (k < n)%nat) by (unfold n; apply nth_error_Some; congruence).
  assert (E : nth_error (seq 0 n) k = Some (0 + k)%nat).
  { clear -Hk'. generalize 0%nat. revert k Hk'. induction n as [|m IH]; intros k Hk a; [lia|].
    destruct k as [|k]; cbn; [f_equal; lia|]. rewrite IH by lia. f_equal. lia. }
  fold n in K1. rewrite E in K1. injection K1 as K1. lia.
Qed.

Lemma rustc_legal : layout_legal (rustc_tuple tys) /\ h_types (rustc_tuple tys) = tys.
Proof.
  pose proof (max_align_pow tys Hw) as Hm. pose proof (power_of_two_pos _ Hm) as Hp.
  pose proof (align_up_ge e _ Hp). pose proof (align_up_mod e _ Hp).
  destruct fs_facts as (F1 & F2 & F3). rewrite Forall_forall in F2. rewrite rustc_tuple_unfold. fold L.
  assert (HL : forall f, In f L -> In f fs /\ In (snd f) tys).
  { intros f Hf. apply In_nth_error in Hf as [i Hi]. apply restored_inv in Hi as (_ & j & _ & N1 & N2).
    split; eapply nth_error_In; eassumption. }
  split.
  - constructor; cbn [h_align h_size h_fields]; try assumption.
    + apply Forall_forall. intros f Hf. destruct (F2 f (proj1 (HL f Hf))). lia.
    + apply Forall_forall. intros f Hf. apply (F2 f (proj1 (HL f Hf))).
    + apply Forall_forall. intros f Hf. apply max_align_ge, (HL f Hf).
    + apply pairs_of_nth. intros i j f g Hij Hi Hj.
      apply restored_inv in Hi as (_ & a & A1 & A2 & _). apply restored_inv in Hj as (_ & b & B1 & B2 & _).
      apply (pairs_nth apart apart_sym fs F3 a b); auto. intros ->. congruence.
  - unfold h_types. cbn [h_fields]. apply nth_ext with (d := Ty "" 0 0 (fun _ => true) false false)
      (d' := Ty "" 0 0 (fun _ => true) false false); [rewrite map_length; apply restored_len|].
    intros i Hi. rewrite map_length, restored_len in Hi.
    destruct (nth_error L i) as [f|] eqn:Ef.
    + apply restored_inv in Ef as Ef'. destruct Ef' as (_ & _ & _ & _ & Et).
      erewrite nth_error_nth by (rewrite nth_error_map, Ef; reflexivity).
      erewrite nth_error_nth by exact Et. reflexivity.
    + exfalso. apply nth_error_None in Ef. rewrite restored_len in Ef. lia.
Qed.

End Legal.
