(** Property C28: [from_tagged_box] and the layout of Rust tuples. *)
From Coq Require Import Arith NArith String Bool List Lia.
From Verif Require Import Words Config Spec SpecMem ConfigFacts Pointer PointerFacts Mem MemFacts Box BoxFacts Bump
  Arms Macro SpecMacro MacroFacts Rustc Props_Pointer Props_Macro.
Import ListNotations.
Local Open Scope N_scope.

Lemma read_at_readable U U' p v s : readable_as U U' -> read_at U p s = Ok v s -> read_at U' p s = Ok v s.
Proof.
  intros (Hf & Ha & Hsz) R. apply read_at_inv in R as (_ & (C1 & C2 & C3) & Rf).
  rewrite read_at_eq; [rewrite Hf, Rf; reflexivity|]. split; [exact C1|]. split; [rewrite Ha; exact C2|].
  unfold accessible in *. apply orb_true_iff in C3 as [C3|C3]; apply orb_true_iff.
  - left. apply N.eqb_eq in C3. apply N.eqb_eq. lia.
  - right. apply existsb_exists in C3 as (b & Hb & C). apply existsb_exists. exists b. split; [exact Hb|].
    unfold block_contains in *. apply andb_true_iff in C as [D1 D2]. rewrite D1. apply N.leb_le in D2. apply N.leb_le. lia.
Qed.

(** Reading a box that holds a value. *)
Lemma boxed_from E def x s w v k : macro_setup E def x -> boxed E def s w v ->
  In (ev_variant v, k) (e_variants def) ->
  (several_fields k -> readable_as (reprC (kind_types k)) (tuple_layout E (kind_types k))) ->
  macro_from E x w s = Ok v s.
Proof.
  intros Hs (i & k' & Hi & Hd & Hst) Hin Hlay.
  assert (k' = k); [|subst k'].
  { pose proof (assoc_in _ _ _ (do_names _ (ms_def _ _ _ Hs)) Hin) as A1.
    pose proof (assoc_in _ _ _ (do_names _ (ms_def _ _ _ Hs)) (nth_error_In _ _ Hi)) as A2. congruence. }
  rewrite (macro_from_eq E def x (ms_def _ _ _ Hs) (ms_expand _ _ _ Hs) w s (setup_u8 _ _ _ Hs) (eo_tuples _ (ms_env _ _ _ Hs))).
  rewrite Hd, Nnat.Nat2N.id, Hi. destruct v as [n vs]. cbn [ev_variant ev_fields] in *. unfold from_storage.
  destruct k as [|[|t [|t2 tys]]|ms]; cbn [storage kind_types] in *; try (subst vs; reflexivity).
  - destruct Hst as (_ & _ & Hst). unfold bind. rewrite Hst. reflexivity.
  - destruct Hst as (_ & _ & Hst). unfold tb_into_inner in *. unfold bind.
    rewrite (read_at_readable (reprC (t :: t2 :: tys)) _ _ vs s); [reflexivity| |exact Hst].
    apply Hlay. cbn. lia.
  - destruct Hst as (_ & _ & Hst). unfold bind. rewrite Hst. reflexivity.
Qed.

(** The inverse holds whenever the compiler lays the tuple out like the [repr(C)] struct; nothing is
    needed for the other kinds of variants. *)
Theorem C28_inverse E def x v k s w s1 s2 : macro_setup E def x ->
  In (ev_variant v, k) (e_variants def) -> Forall2 has_type (kind_types k) (ev_fields v) ->
  tag_fits E def (ev_variant v) ->
  (several_fields k -> readable_as (reprC (kind_types k)) (tuple_layout E (kind_types k))) ->
  container_from E x v s = Ok w s1 -> keeps s1 s2 ->
  macro_from E x w s2 = Ok v s2.
Proof.
  intros Hs Hin Ht Hfit Hlay R K.
  assert (Hv : evalue_fits E def v) by (split; [exists k; auto|exact Hfit]).
  destruct (container_from_cases E def x v s Hs Hv) as [(w' & s1' & R' & B & _) | (k' & U & s1' & H)].
  2: destruct H as (_ & _ & _ & _ & H & _); congruence.
  rewrite R in R'. injection R' as <- <-.
  apply (boxed_from E def x s2 w v k Hs); auto. eapply boxed_keeps; [apply (ms_def _ _ _ Hs)|exact K|exact B].
Qed.

Example C28_inverse_example : result (bind (container_from (bump_env dbg60) item_x v_many)
    (fun w => macro_from (bump_env dbg60) item_x w) st0) = Some v_many /\
  readable_as (reprC [ty_u8; ty_u32; ty_u8]) (tuple_layout (bump_env dbg60) [ty_u8; ty_u32; ty_u8]).
Proof. split; [vm_compute; reflexivity|]. repeat split; cbn; lia. Qed.

(** ** The layouts must agree *)

(** Types all of whose initialised byte strings are values (integers, floats, arrays of them). *)
Definition plain (t : rty) : Prop :=
  forall bs, length bs = N.to_nat (ty_size t) -> Forall (fun b => b = Byte 0 \/ b = Byte 1) bs -> ty_valid t bs = true.

(** All zero, except that field [j] starts with a one. *)
Definition zeros (t : rty) : leafval := repeat (Byte 0) (N.to_nat (ty_size t)).
Definition marked (t : rty) : leafval :=
  match N.to_nat (ty_size t) with O => [] | S k => Byte 1 :: repeat (Byte 0) k end.
Fixpoint mark (j : nat) (tys : list rty) : hval :=
  match tys, j with
  | [], _ => []
  | t :: r, O => marked t :: map zeros r
  | t :: r, S j => zeros t :: mark j r
  end.

Lemma repeat_forall (n : nat) : Forall (fun b => b = Byte 0 \/ b = Byte 1) (repeat (Byte 0) n).
Proof. apply Forall_forall. intros b Hb. apply repeat_spec in Hb. auto. Qed.

Lemma zeros_ok t : plain t -> has_type t (zeros t).
Proof. intros H. split; [apply repeat_length|]. apply H; [apply repeat_length|apply repeat_forall]. Qed.

Lemma marked_ok t : plain t -> has_type t (marked t).
Proof.
  intros H. assert (L : length (marked t) = N.to_nat (ty_size t)).
  { unfold marked. destruct (N.to_nat (ty_size t)); cbn; [|rewrite repeat_length]; reflexivity. }
  split; [exact L|]. apply H; [exact L|]. unfold marked. destruct (N.to_nat (ty_size t)); constructor; auto using repeat_forall.
Qed.

Lemma mark_ok j tys : Forall plain tys -> Forall2 has_type tys (mark j tys).
Proof.
  intros H. revert j. induction H as [|t r Ht Hr IH]; intros [|j]; cbn [mark]; constructor; auto using zeros_ok, marked_ok.
  clear IH. induction Hr; cbn; constructor; auto using zeros_ok.
Qed.

(** A one in the zeros-and-mark value. *)
Lemma mark_one j : forall tys i v q, nth_error (mark j tys) i = Some v -> nth_error v q = Some (Byte 1) -> i = j /\ q = O.
Proof.
  assert (Z : forall t q, nth_error (zeros t) q = Some (Byte 1) -> False).
  { intros t q H. apply nth_error_In, repeat_spec in H. discriminate. }
  induction j as [|j IH]; intros [|t r] i v q; cbn [mark]; try (destruct i; discriminate).
  - destruct i as [|i]; cbn [nth_error].
    + intros E. injection E as <-. unfold marked. destruct (N.to_nat (ty_size t)); [destruct q; discriminate|].
      destruct q as [|q]; cbn [nth_error]; [auto|]. intros H. apply nth_error_In, repeat_spec in H. discriminate.
    + intros E. rewrite nth_error_map in E. destruct (nth_error r i); [|discriminate]. injection E as <-.
      intros H. destruct (Z _ _ H).
  - destruct i as [|i]; cbn [nth_error].
    + intros E. injection E as <-. intros H. destruct (Z _ _ H).
    + intros E H. destruct (IH _ _ _ _ E H). auto.
Qed.

Lemma mark_nth j : forall tys t, nth_error tys j = Some t -> nth_error (mark j tys) j = Some (marked t).
Proof.
  induction j as [|j IH]; intros [|u r] t; cbn [mark nth_error]; try discriminate; auto.
  intros E. injection E as ->. reflexivity.
Qed.

(** Where a byte of memory comes from after writing the fields of a value. *)
Lemma store_cases l : forall m a y, store m a l y = m y \/
  exists q, nth_error l q = Some (store m a l y) /\ y = a + N.of_nat q.
Proof.
  induction l as [|b r IH]; intros m a y; cbn [store]; [auto|]. destruct (N.eqb_spec y a) as [->|].
  - right. exists O. split; [reflexivity|]. lia.
  - destruct (IH m (a + 1) y) as [H|(q & H1 & H2)]; [auto|]. right. exists (S q). split; [exact H1|]. lia.
Qed.

Lemma write_fields_cases fs : forall vs m p y, write_fields m p fs vs y = m y \/
  exists i f v q, nth_error fs i = Some f /\ nth_error vs i = Some v /\
    nth_error v q = Some (write_fields m p fs vs y) /\ y = p + fst f + N.of_nat q.
Proof.
  induction fs as [|[off t] fs IH]; intros [|v vs] m p y; cbn [write_fields]; auto.
  destruct (IH vs (store m (p + off) v) p y) as [-> | (i & f & v' & q & H)].
  - destruct (store_cases v m (p + off) y) as [H|(q & H1 & H2)]; [auto|]. right.
    exists O, (off, t), v, q. auto.
  - right. exists (S i), f, v', q. exact H.
Qed.

Lemma read_fields_nth fs : forall m p vs i off t, read_fields m p fs = Some vs -> nth_error fs i = Some (off, t) ->
  nth_error vs i = Some (load m (p + off) (N.to_nat (ty_size t))).
Proof.
  induction fs as [|[o u] fs IH]; intros m p vs [|i] off t; cbn [read_fields nth_error]; try discriminate;
    destruct (ty_valid u _); try discriminate; destruct (read_fields m p fs) eqn:R; try discriminate;
    intros E; injection E as <-.
  - intros E. injection E as -> ->. reflexivity.
  - intros E. cbn [nth_error]. eapply IH; eassumption.
Qed.

(** If a field of non-zero size lies at different places in the tuple and in the C struct, some value
    of the variant does not survive. *)
Theorem C28_layout_needed E def x v tys j off off' t s : macro_setup E def x ->
  In (v, KTuple tys) (e_variants def) -> tag_fits E def v -> (2 <= length tys)%nat -> Forall plain tys ->
  nth_error (h_fields (reprC tys)) j = Some (off, t) ->
  nth_error (h_fields (tuple_layout E tys)) j = Some (off', t) ->
  ty_size t <> 0 -> off <> off' ->
  alloc_fn E s (h_size (reprC tys)) (h_align (reprC tys)) <> None ->
  exists vs, Forall2 has_type tys vs /\ exists w s1, container_from E x (EV v vs) s = Ok w s1 /\
    forall s3, macro_from E x w s1 <> Ok (EV v vs) s3.
Proof.
  intros Hs Hin Hfit Hn Hpl Hc Hr Hsz Hne Hal. exists (mark j tys).
  pose proof (mark_ok j tys Hpl) as Ht. split; [exact Ht|].
  pose proof (setup_u8 _ _ _ Hs) as H8. pose proof (ms_env _ _ _ Hs) as He.
  pose proof (kind_types_wf _ _ _ (ms_def _ _ _ Hs) Hin) as Hw. cbn [kind_types] in Hw.
  assert (Est : storage (KTuple tys) = Some (reprC tys)) by (destruct tys as [|? [|]]; cbn in Hn; try lia; reflexivity).
  pose proof (reprC_legal tys Hw) as Hlc. destruct (eo_tuples _ He tys Hw) as [Hlt Htt].
  assert (Hts : nth_error tys j = Some t).
  { rewrite <- (reprC_types tys Hw). unfold h_types. rewrite nth_error_map, Hc. reflexivity. }
  assert (Hpos : h_size (reprC tys) <> 0).
  { pose proof (ll_inside _ Hlc) as Hi. rewrite Forall_forall in Hi. apply nth_error_In in Hc. specialize (Hi _ Hc).
    cbn in Hi. lia. }
  destruct (macro_into_spec E def x (ms_def _ _ _ Hs) (ms_expand _ _ _ Hs) H8 He
              (EV v (mark j tys)) (KTuple tys) s Hin Ht Hfit)
    as [(Hz & _) | [(U & A1 & A2 & A3 & R) | (U & p & w & A1 & A2 & A3 & R & Hp & B)]]; rewrite Est in *; try contradiction.
  { injection A1 as <-. contradiction. }
  injection A1 as <-. cbn [ev_fields ev_variant] in *. exists w. eexists. split; [exact R|]. intros s3 F.
  set (s1 := logged (exit_log def (mark j tys)) (stored (reprC tys) p (mark j tys) s)) in *.
  destruct B as (i & k & Hi & Hd & _). cbn [ev_variant] in Hi.
  assert (k = KTuple tys); [|subst k].
  { pose proof (assoc_in _ _ _ (do_names _ (ms_def _ _ _ Hs)) Hin) as B1.
    pose proof (assoc_in _ _ _ (do_names _ (ms_def _ _ _ Hs)) (nth_error_In _ _ Hi)) as B2. congruence. }
  rewrite (macro_from_eq E def x (ms_def _ _ _ Hs) (ms_expand _ _ _ Hs) w s1 H8 (eo_tuples _ He)) in F.
  rewrite Hd, Nnat.Nat2N.id, Hi in F.
  assert (Ef : from_storage E (KTuple tys) = Some (tuple_layout E tys)) by (destruct tys as [|? [|]]; cbn in Hn; try lia; reflexivity).
  rewrite Ef in F. unfold bind, tb_into_inner in F.
  change (tb_as_mut_ptr E w) with (tb_as_ptr E w) in F. rewrite Hp in F.
  destruct (read_at (tuple_layout E tys) p s1) as [vs s4| |] eqn:Rd; try discriminate.
  assert (vs = mark j tys) by (unfold ret in F; congruence). subst vs. clear F.
  apply read_at_inv in Rd as (_ & (_ & _ & Acc) & Rf).
  pose proof (read_fields_nth _ _ _ _ j off' t Rf Hr) as Nj. rewrite (mark_nth j tys t Hts) in Nj.
  injection Nj as Nj. unfold marked in Nj. destruct (N.to_nat (ty_size t)) as [|m] eqn:Em; [lia|].
  cbn [load] in Nj. injection Nj as Nb _. unfold s1, logged, stored in Nb. cbn [bytes] in Nb.
  (* the only live block around p is the new one, so the byte read is inside it *)
  assert (Hsize : off' + ty_size t <= h_size (tuple_layout E tys)).
  { pose proof (ll_inside _ Hlt) as Hil. rewrite Forall_forall in Hil. apply nth_error_In in Hr. exact (Hil _ Hr). }
  unfold write_mem in Nb.
  destruct (write_fields_cases (h_fields (reprC tys)) (mark j tys)
     (undef_range (undef_range (bytes s) p (h_size (reprC tys))) p (h_size (reprC tys))) p (p + off'))
    as [W | (i' & f & v' & q & W1 & W2 & W3 & W4)].
  - rewrite W in Nb. unfold undef_range in Nb.
    unfold accessible in Acc. apply orb_true_iff in Acc as [Acc|Acc]; [apply N.eqb_eq in Acc; lia|].
    apply existsb_exists in Acc as (b & Hb & Cb). unfold block_contains in Cb. apply andb_true_iff in Cb as [C1 C2].
    apply N.leb_le in C1, C2. unfold s1, logged, stored in Hb. cbn [blocks] in Hb. destruct Hb as [<- | Hb].
    + cbn [b_base b_size] in C2. destruct (N.leb_spec p (p + off')); [|lia].
      destruct (N.ltb_spec (p + off') (p + h_size (reprC tys))); [|lia]. cbn in Nb. discriminate.
    + assert (Hpos' : 0 < h_size (reprC tys)) by lia.
      destruct (eo_alloc _ He s _ _ p Hpos' (ll_align _ Hlc) A3) as (_ & _ & _ & Dis). specialize (Dis b Hb). lia.
  - rewrite <- Nb in W3. destruct (mark_one j tys i' v' q W2 W3) as [-> ->].
    rewrite Hc in W1. injection W1 as <-. cbn [fst] in W4. lia.
Qed.

(** ** rustc 1.42's reordering *)

Definition rustc_env (t : target) : env := Env t bump rustc_tuple.

Lemma rustc_env_ok t : target_ok t -> env_ok (rustc_env t).
Proof.
  intros Ht. destruct (bump_ok t rustc_tuple Ht). constructor; auto. intros tys Hw. apply rustc_legal, Hw.
Qed.

(** An enum with one tuple variant. *)
Definition shuffled : edef := Edef "Container" "Item" 2 false false
  [("Bytes", KTuple [ty_u8; ty_u8; ty_u16; ty_u8]); ("Padded", KTuple [ty_u8; ty_u32; ty_u8]);
   ("Tested", KTuple [ty_u64; ty_u64; ty_u32; ty_u64])]%string.
Definition shuffled_x : expansion := match expand shuffled with Some x => x | None => item_x end.

Lemma shuffled_setup : macro_setup (rustc_env dbg60) shuffled shuffled_x.
Proof.
  constructor; try reflexivity.
  - apply rustc_env_ok, example_targets_ok.
  - constructor.
    + discriminate.
    + repeat constructor; cbn; intuition discriminate.
    + intros v ms H. cbn in H. intuition discriminate.
    + intros v tys H. cbn in H. intuition try discriminate;
      match goal with H : (_, KTuple _) = _ |- _ => injection H as <- <-; cbn; lia end.
    + cbn. repeat (constructor; [first [apply wf_u8 | apply wf_u16 | apply wf_u32 | apply wf_u64]|]). constructor.
    + exists 1. split; [lia|reflexivity].
    + cbn. intuition discriminate.
    + discriminate.
    + cbn. repeat constructor.
    + cbn. repeat constructor; cbn; intuition discriminate.
Qed.

(** A safe round trip through [into_tagged_box] and [from_tagged_box] silently returns another value,
    or is undefined behaviour when it meets padding; the tuple of the crate's own test is fine. *)
Theorem C28_refuted : ~ (forall E def x v s w s1, macro_setup E def x -> evalue_fits E def v ->
  container_from E x v s = Ok w s1 -> macro_from E x w s1 = Ok v s1).
Proof.
  intros H. set (v := EV "Bytes" [[Byte 1]; [Byte 2]; le_bytes 2 0x0403; [Byte 5]]).
  assert (Hv : evalue_fits (rustc_env dbg60) shuffled v).
  { split; [eexists; split; [left; reflexivity|repeat constructor]|]. exists 0%nat. eexists. split; [reflexivity|discriminate]. }
  destruct (container_from (rustc_env dbg60) shuffled_x v st0) as [w s1| |] eqn:R.
  2, 3: vm_compute in R; discriminate R.
  specialize (H _ _ _ _ _ _ _ shuffled_setup Hv R).
  assert (F : result (bind (container_from (rustc_env dbg60) shuffled_x v) (macro_from (rustc_env dbg60) shuffled_x) st0) =
    Some (EV "Bytes" [[Byte 3]; [Byte 4]; le_bytes 2 0x0201; [Byte 5]])) by (vm_compute; reflexivity).
  unfold bind in F. rewrite R, H in F. discriminate F.
Qed.

Definition from_into (v : evalue) : M evalue :=
  bind (container_from (rustc_env dbg60) shuffled_x v) (macro_from (rustc_env dbg60) shuffled_x).

Example C28_padding : ub_of (from_into (EV "Padded" [[Byte 1]; le_bytes 4 2; [Byte 3]]) st0) = Some UbInvalidValue.
Proof. vm_compute. reflexivity. Qed.

Example C28_tested : let v := EV "Tested" [le_bytes 8 1; le_bytes 8 2; le_bytes 4 3; le_bytes 8 4] in
  result (from_into v st0) = Some v.
Proof. vm_compute. reflexivity. Qed.

Example C28_layout_needed_example : nth_error (h_fields (reprC [ty_u8; ty_u8; ty_u16; ty_u8])) 2 = Some (2, ty_u16) /\
  nth_error (h_fields (rustc_tuple [ty_u8; ty_u8; ty_u16; ty_u8])) 2 = Some (0, ty_u16) /\
  Forall plain [ty_u8; ty_u8; ty_u16; ty_u8].
Proof.
  split; [reflexivity|]. split; [reflexivity|].
  assert (P : forall n s a d c, plain (Ty n s a all_init d c)).
  { intros n s a d c bs _ H. unfold ty_valid, all_init. apply forallb_forall. intros b Hb. rewrite Forall_forall in H.
    destruct (H b Hb) as [-> | ->]; reflexivity. }
  repeat constructor; apply P.
Qed.

(** ** Instances: each theorem applied to a concrete case that meets its hypotheses *)

Example C28_inverse_instance : exists w s1, container_from (bump_env dbg60) item_x v_many st0 = Ok w s1 /\
  macro_from (bump_env dbg60) item_x w s1 = Ok v_many s1.
Proof.
  assert (F : evalue_fits (bump_env dbg60) item v_many).
  { apply (proj1 (Forall_forall _ _) item_values_fit v_many). cbn. tauto. }
  destruct (container_from (bump_env dbg60) item_x v_many st0) as [w s1|p s1|u] eqn:H;
    [|apply (f_equal result) in H; vm_compute in H; discriminate H..].
  exists w, s1. split; [reflexivity|].
  apply (C28_inverse _ _ _ v_many (KTuple [ty_u8; ty_u32; ty_u8]) st0 w s1 s1 item_setup).
  - cbn. tauto.
  - repeat constructor.
  - apply F.
  - intros _. apply C28_inverse_example.
  - exact H.
  - apply keeps_refl.
Qed.

Example C28_layout_needed_instance : exists vs, Forall2 has_type [ty_u8; ty_u8; ty_u16; ty_u8] vs /\
  exists w s1, container_from (rustc_env dbg60) shuffled_x (EV "Bytes" vs) st0 = Ok w s1 /\
  forall s3, macro_from (rustc_env dbg60) shuffled_x w s1 <> Ok (EV "Bytes" vs) s3.
Proof.
  destruct C28_layout_needed_example as (H1 & H2 & H3).
  apply (C28_layout_needed (rustc_env dbg60) shuffled shuffled_x "Bytes" [ty_u8; ty_u8; ty_u16; ty_u8] 2 2 0 ty_u16 st0 shuffled_setup).
  - left. reflexivity.
  - exists 0%nat. eexists. split; [reflexivity|]. vm_compute. discriminate.
  - cbn [length]. lia.
  - exact H3.
  - exact H1.
  - exact H2.
  - discriminate.
  - discriminate.
  - vm_compute. discriminate.
Qed.
