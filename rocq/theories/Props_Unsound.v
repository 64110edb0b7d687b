(** Properties C39 and C40: what goes wrong with copies of a box, and with boxes of a wrong type. *)
From Coq Require Import Arith NArith String Bool List Lia.
From Verif Require Import Words Config Spec SpecMem ConfigFacts Pointer PointerFacts Mem MemFacts Box BoxFacts Bump
  Arms Macro SpecMacro MacroFacts Props_Pointer Props_Box Props_Macro.
Import ListNotations.
Local Open Scope N_scope.
Local Open Scope list_scope.

(** ** C39 Copying a box is unsound *)

(** The block of a new box overlaps none that was live before. *)
Lemma new_apart E U val d s w s1 : env_ok E -> layout_legal U -> hval_ok U val -> h_size U <> 0 ->
  d <= max_discriminant (cfg (tgt E)) -> tb_new E U val d s = Ok w s1 ->
  forall b, In b (blocks s) -> tb_as_ptr E w + h_size U <= b_base b \/ b_base b + b_size b <= tb_as_ptr E w.
Proof.
  intros [Ht Ha Hf _] Hl Hv Hz Hd Hn b Hb.
  destruct (tb_new_spec E Ht Ha U val d s Hf Hl Hv Hd) as [(Hs & _)|[(_ & _ & H3)|(_ & p & y & Hp & H1 & _ & A & _)]];
    [contradiction|congruence|].
  rewrite Hn in H1. injection H1 as <- _. unfold tb_as_ptr. rewrite A.
  destruct (Ha s (h_size U) (h_align U) p ltac:(lia) (ll_align U Hl) Hp) as (_ & _ & _ & D). apply D, Hb.
Qed.

Lemma not_accessible s p n m : n <> 0 -> m <> 0 ->
  (forall b, In b (blocks s) -> p + n <= b_base b \/ b_base b + b_size b <= p) -> accessible s p m = false.
Proof.
  intros Hn Hm H. unfold accessible. rewrite (proj2 (N.eqb_neq _ _) Hm). cbn [orb].
  apply not_true_is_false. intros X. apply existsb_exists in X as (b & Hb & C). unfold block_contains in C.
  apply andb_true_iff in C as [C1 C2]. apply N.leb_le in C1, C2. destruct (H b Hb); lia.
Qed.

Lemma read_out_of_block H p s : p <> 0 -> p mod h_align H = 0 -> accessible s p (h_size H) = false ->
  read_at H p s = UB UbOutOfBlock.
Proof.
  intros H1 H2 H3. unfold read_at, bind, check_access.
  rewrite (proj2 (N.eqb_neq _ _) H1), (proj2 (N.eqb_eq _ _) H2), H3. reflexivity.
Qed.

(** Both copies are used with the type given to [new], as documented. The first [Box] is fine (C18);
    dropping, reading or moving out through the second is a use of freed memory. *)
Theorem C39_double_free : forall E U val d s w s1, env_ok E -> layout_legal U -> hval_ok U val -> h_size U <> 0 ->
  d <= max_discriminant (cfg (tgt E)) -> tb_new E U val d s = Ok w s1 ->
  exists s2, rbox_drop U (tb_into_box E w) s1 = Ok tt s2 /\
    rbox_drop U (tb_into_box E (tb_copy w)) s2 = UB UbOutOfBlock /\
    tb_as_ref E U (tb_copy w) s2 = UB UbOutOfBlock /\
    tb_into_inner E U (tb_copy w) s2 = UB UbOutOfBlock /\
    dealloc (tb_into_raw E (tb_copy w)) (h_size U) (h_align U) s2 = UB UbBadDealloc.
Proof.
  intros E U val d s w s1 HE Hl Hv Hz Hd Hn.
  pose proof (C14_allocation E U val d s w s1 HE Hl Hv Hd Hn) as (_ & _ & P1 & P2 & _).
  destruct (C18_into_box E U val d s w s1 s1 HE Hl Hv Hd Hn (keeps_refl s1)) as (_ & s2 & R & _ & _ & _ & B & _).
  specialize (B eq_refl). exists s2. split; [exact R|].
  pose proof (new_apart E U val d s w s1 HE Hl Hv Hz Hd Hn) as Ap.
  assert (RU : read_at U (tb_as_ptr E w) s2 = UB UbOutOfBlock).
  { apply read_out_of_block; [exact P1|exact P2|]. apply (not_accessible s2 _ (h_size U)); [exact Hz|exact Hz|].
    rewrite B. exact Ap. }
  unfold tb_copy. split; [unfold rbox_drop, bind, tb_into_box, tb_into_raw; change (tp_as_mut_ptr (tgt E) w) with (tb_as_ptr E w); rewrite RU; reflexivity|].
  split; [exact RU|]. split; [exact RU|].
  unfold dealloc. change (tb_into_raw E w) with (tb_as_ptr E w).
  destruct (existsb _ _) eqn:X; [|reflexivity]. exfalso. apply existsb_exists in X as (b & Hb & Eb).
  apply block_eqb_eq in Eb. subst b. rewrite B in Hb. specialize (Ap _ Hb). cbn [b_base b_size] in Ap. lia.
Qed.

(** Moving out through both copies gives the same value twice; its destructors run twice. *)
Theorem C39_double_drop : forall E U val d s w s1, env_ok E -> layout_legal U -> hval_ok U val -> h_size U <> 0 ->
  d <= max_discriminant (cfg (tgt E)) -> tb_new E U val d s = Ok w s1 ->
  exists s2 s3, move_out E U w s1 = Ok tt s2 /\ tb_into_inner E U (tb_copy w) s2 = Ok val s2 /\
    move_out E U (tb_copy w) s2 = Ok tt s3 /\
    destroyed (events s3) = destroyed (events s) ++ destructors U val ++ destructors U val.
Proof.
  intros E U val d s w s1 HE Hl Hv Hz Hd Hn.
  pose proof (C15_into_inner E U val d s w s1 s1 HE Hl Hv Hd Hn (keeps_refl s1)) as R1.
  assert (K : keeps s1 (dropped U val s1)) by (apply keeps_same; reflexivity).
  pose proof (C15_into_inner E U val d s w s1 _ HE Hl Hv Hd Hn K) as R2.
  exists (dropped U val s1), (dropped U val (dropped U val s1)). unfold move_out, bind, tb_copy. rewrite R1, R2.
  split; [reflexivity|]. split; [reflexivity|]. split; [reflexivity|].
  cbn [dropped events]. rewrite !destroyed_app, destroyed_drop.
  destruct HE as [Ht Ha Hf _].
  destruct (tb_new_spec E Ht Ha U val d s Hf Hl Hv Hd) as [(Hs & _)|[(_ & _ & H3)|(_ & p & y & Hp & H1 & _)]];
    [contradiction|congruence|].
  rewrite Hn in H1. injection H1 as _ ->. cbn [stored events]. rewrite destroyed_app. cbn [destroyed].
  rewrite app_nil_r, app_assoc. reflexivity.
Qed.

Example C39_example : let E := bump_env dbg60 in
  env_ok E /\ layout_legal U_str /\ hval_ok U_str v_str /\ h_size U_str <> 0 /\ 3 <= max_discriminant (cfg (tgt E)) /\
  ub_of ((w <- tb_new E U_str v_str 3 ;; rbox_drop U_str (tb_into_box E w) ;; rbox_drop U_str (tb_into_box E (tb_copy w)))%M st0)
    = Some UbOutOfBlock /\
  destroyed (log_of ((w <- tb_new E U_str v_str 3 ;; move_out E U_str w ;; move_out E U_str (tb_copy w))%M st0))
    = [("String"%string, a_string); ("String"%string, a_string)].
Proof.
  destruct example_values_ok as (_ & _ & L & V & _).
  split; [apply bump_env_ok, example_targets_ok|]. split; [exact L|]. split; [exact V|]. vm_compute.
  repeat split; discriminate.
Qed.

(** ** C40 Safe API can confuse types *)

Section Confusion.
Variables (E : env) (def : edef) (x : expansion).
Hypothesis Hs : macro_setup E def x.

Let Hd := ms_def _ _ _ Hs.
Let Hx := ms_expand _ _ _ Hs.
Let H8 := setup_u8 _ _ _ Hs.
Let He := ms_env _ _ _ Hs.

(** What the generated functions do with a box of tag [i], by the outcome of reading memory. *)
Lemma ref_undefined w i n k U u s : nth_error (e_variants def) i = Some (n, k) -> storage k = Some U ->
  tb_discriminant E w = N.of_nat i -> read_at U (tb_as_ptr E w) s = UB u ->
  forall S (cb : evalue -> S -> M S) c, macro_ref E x S w cb c s = UB u.
Proof.
  intros Hi Hk Ht Hr S cb c. rewrite (macro_ref_eq E def x Hd Hx S w cb c s H8), Ht, Nnat.Nat2N.id, Hi.
  unfold bind, read_kind. rewrite Hk. unfold bind. rewrite Hr. reflexivity.
Qed.

Lemma from_undefined w i n t u s : nth_error (e_variants def) i = Some (n, KTuple [t]) ->
  tb_discriminant E w = N.of_nat i -> read_at (leaf_hty t) (tb_as_ptr E w) s = UB u -> macro_from E x w s = UB u.
Proof.
  intros Hi Ht Hr. rewrite (macro_from_eq E def x Hd Hx w s H8 (eo_tuples _ He)), Ht, Nnat.Nat2N.id, Hi.
  cbn [from_storage storage]. unfold bind. change (tb_into_inner E (leaf_hty t) w s) with (read_at (leaf_hty t) (tb_as_ptr E w) s).
  rewrite Hr. reflexivity.
Qed.

(** Every trait impl of the box that looks at the value. *)
Definition looks_undefined (w : tagged_ptr) (u : ub) (s : st) : Prop :=
  let T := macro_taggable E x in
  (forall eqf w', tb_eq T eqf w w' s = UB u) /\ (forall f w', tb_partial_cmp T f w w' s = UB u) /\
  (forall f w', tb_cmp T f w w' s = UB u) /\ (forall f, tb_clone T f w s = UB u) /\
  (forall f o out, tb_debug T f o w out s = UB u) /\ (forall f o out, tb_display T f o w out s = UB u).

Lemma looks w u s : (forall S (cb : evalue -> S -> M S) c, macro_ref E x S w cb c s = UB u) -> looks_undefined w u s.
Proof.
  intros H. repeat split; intros; try apply H. unfold tb_clone, bind at 1.
  cbn [ref_from_tagged_box macro_taggable]. rewrite H. reflexivity.
Qed.

Lemma dangling_parts i a : N.of_nat i <= max_discriminant (cfg (tgt E)) -> power_of_two a ->
  tb_discriminant E (tb_dangling E a (N.of_nat i)) = N.of_nat i /\ tb_as_ptr E (tb_dangling E a (N.of_nat i)) = a.
Proof.
  intros Hm Ha.
  destruct (pow2_small E (eo_target _ He) a Ha) as [L1 L2].
  pose proof (max_disc_lt (tgt E) (eo_target _ He) _ Hm) as L3. split.
  - apply fetch_store_in; [apply He|exact L1|exact L3].
  - destruct (addr_of_pack E (eo_target _ He) a (N.of_nat i) L1 L2) as (A & _). exact A.
Qed.

(** [TaggedBox::dangling::<A>(tag)] for the tag of a variant that takes up memory, [A] as aligned as
    the variant's storage: undefined behaviour wherever that (low) address is not in a live block. *)
Theorem C40_dangling : forall i n k U s, nth_error (e_variants def) i = Some (n, k) ->
  N.of_nat i <= max_discriminant (cfg (tgt E)) -> storage k = Some U ->
  h_size U <> 0 -> accessible s (h_align U) (h_size U) = false ->
  let w := tb_dangling E (h_align U) (N.of_nat i) in
  looks_undefined w UbOutOfBlock s /\
  (forall t, k = KTuple [t] -> macro_from E x w s = UB UbOutOfBlock).
Proof.
  intros i n k U s Hi Hm Hk Hz Hacc w.
  destruct (storage_legal k U (kind_types_wf _ _ _ Hd (nth_error_In _ _ Hi)) Hk) as [Hl _].
  pose proof (power_of_two_nz _ (ll_align U Hl)) as Nz.
  destruct (dangling_parts i (h_align U) Hm (ll_align U Hl)) as [T A]. fold w in T, A.
  assert (R : read_at U (tb_as_ptr E w) s = UB UbOutOfBlock).
  { rewrite A. apply read_out_of_block; [exact Nz|apply N.mod_same, Nz|exact Hacc]. }
  split; [apply looks; eapply ref_undefined; eassumption|].
  intros t ->. injection Hk as <-. eapply from_undefined; eassumption.
Qed.

(** If the storage is aligned to more than a byte, [dangling::<u8>] needs no assumption about memory. *)
Theorem C40_misaligned : forall i n k U s, nth_error (e_variants def) i = Some (n, k) ->
  N.of_nat i <= max_discriminant (cfg (tgt E)) -> storage k = Some U ->
  h_align U <> 1 ->
  let w := tb_dangling E 1 (N.of_nat i) in
  looks_undefined w UbMisaligned s /\
  (forall t, k = KTuple [t] -> macro_from E x w s = UB UbMisaligned).
Proof.
  intros i n k U s Hi Hm Hk Ha w.
  destruct (storage_legal k U (kind_types_wf _ _ _ Hd (nth_error_In _ _ Hi)) Hk) as [Hl _].
  pose proof (power_of_two_nz _ (ll_align U Hl)) as Nz.
  destruct (dangling_parts i 1 Hm) as [T A]; [exists 0; split; [lia|reflexivity]|]. fold w in T, A.
  assert (R : read_at U (tb_as_ptr E w) s = UB UbMisaligned).
  { rewrite A. unfold read_at, bind, check_access. rewrite N.mod_small by lia. reflexivity. }
  split; [apply looks; eapply ref_undefined; eassumption|].
  intros t ->. injection Hk as <-. eapply from_undefined; eassumption.
Qed.

(** [TaggedBox::new::<A>(a, tag)] with a value [a] of another type and the tag of a single-field variant. *)
Lemma confused t' v' i n t s w s1 : nth_error (e_variants def) i = Some (n, KTuple [t]) -> N.of_nat i <= max_discriminant (cfg (tgt E)) ->
  wf_ty t' -> has_type t' v' -> ty_size t' <> 0 -> tb_new E (leaf_hty t') [v'] (N.of_nat i) s = Ok w s1 ->
  tb_discriminant E w = N.of_nat i /\ tb_as_ptr E w <> 0 /\ tb_as_ptr E w mod ty_align t' = 0 /\
  blocks s1 = Block (tb_as_ptr E w) (ty_size t') (ty_align t') :: blocks s /\
  load (bytes s1) (tb_as_ptr E w) (N.to_nat (ty_size t')) = v' /\
  forall b, In b (blocks s) -> tb_as_ptr E w + ty_size t' <= b_base b \/ b_base b + b_size b <= tb_as_ptr E w.
Proof.
  intros Hi Hm Hw Hv Hz Hn.
  pose proof (leaf_legal t' Hw) as Hl. assert (V : hval_ok (leaf_hty t') [v']) by (unfold hval_ok; rewrite leaf_types; auto).
  pose proof (C14_allocation E _ _ _ s w s1 He Hl V Hm Hn) as (_ & _ & P1 & P2 & B & _).
  pose proof (new_apart E _ _ _ s w s1 He Hl V Hz Hm Hn) as Ap.
  cbn [h_size h_align leaf_hty] in *. rewrite (proj2 (N.eqb_neq _ _) Hz) in B.
  pose proof (C15_into_inner E _ _ _ s w s1 s1 He Hl V Hm Hn (keeps_refl s1)) as R.
  split; [|split; [exact P1|split; [exact P2|split; [exact B|split; [|exact Ap]]]]].
  - destruct (tb_new_spec E (eo_target _ He) (eo_alloc _ He) _ _ _ s (eo_fits _ He) Hl V Hm)
      as [(Z & _)|[(_ & _ & H3)|(_ & p & y & _ & H1 & H2 & _)]]; [contradiction|congruence|].
    rewrite Hn in H1. injection H1 as <- _. exact H2.
  - apply read_at_inv in R as (_ & _ & R). cbn [h_fields leaf_hty read_fields] in R. rewrite N.add_0_r in R.
    change (tb_as_mut_ptr E w) with (tb_as_ptr E w) in R.
    destruct (ty_valid t' _); [|discriminate]. injection R as R. exact R.
Qed.

(** A value of another type passes for a payload: any of the same size whose bytes happen to be valid
    comes out as the payload, without [unsafe]. *)
Theorem C40_transmutes : forall t' v' i n t s w s1, nth_error (e_variants def) i = Some (n, KTuple [t]) ->
  N.of_nat i <= max_discriminant (cfg (tgt E)) -> wf_ty t' -> has_type t' v' -> ty_size t' <> 0 -> ty_size t' = ty_size t -> ty_align t' = ty_align t ->
  ty_valid t v' = true ->
  tb_new E (leaf_hty t') [v'] (N.of_nat i) s = Ok w s1 -> macro_from E x w s1 = Ok (EV n [v']) s1.
Proof.
  intros t' v' i n t s w s1 Hi Hm Hw Hv Hz Es Ea Va Hn.
  destruct (confused t' v' i n t s w s1 Hi Hm Hw Hv Hz Hn) as (T & P1 & P2 & B & L & _).
  rewrite (macro_from_eq E def x Hd Hx w s1 H8 (eo_tuples _ He)), T, Nnat.Nat2N.id, Hi. cbn [from_storage storage].
  unfold bind. change (tb_into_inner E (leaf_hty t) w s1) with (read_at (leaf_hty t) (tb_as_ptr E w) s1).
  rewrite read_at_eq.
  - cbn [h_fields leaf_hty read_fields]. rewrite N.add_0_r, <- Es, L, Va. reflexivity.
  - split; [exact P1|]. cbn [h_align h_size leaf_hty]. split; [congruence|]. unfold accessible. rewrite B.
    cbn [existsb]. unfold block_contains at 1. cbn [b_base b_size]. rewrite <- Es, !N.leb_refl. cbn. apply orb_true_r.
Qed.

(** Bytes that are no value of the payload's type, or a payload larger than the value given: undefined
    behaviour, whatever the alignment. *)
Theorem C40_confuses : forall t' v' i n t s w s1, nth_error (e_variants def) i = Some (n, KTuple [t]) ->
  N.of_nat i <= max_discriminant (cfg (tgt E)) -> wf_ty t' -> has_type t' v' -> ty_size t' <> 0 ->
  (ty_size t' = ty_size t /\ ty_valid t v' = false) \/ ty_size t' < ty_size t ->
  tb_new E (leaf_hty t') [v'] (N.of_nat i) s = Ok w s1 ->
  exists u, macro_from E x w s1 = UB u /\ looks_undefined w u s1.
Proof.
  intros t' v' i n t s w s1 Hi Hm Hw Hv Hz Hbad Hn.
  destruct (confused t' v' i n t s w s1 Hi Hm Hw Hv Hz Hn) as (T & P1 & P2 & B & L & Ap).
  assert (R : exists u, read_at (leaf_hty t) (tb_as_ptr E w) s1 = UB u).
  { unfold read_at, bind, check_access. rewrite (proj2 (N.eqb_neq _ _) P1).
    destruct (negb (_ =? 0)); [eauto|]. destruct (negb (accessible _ _ _)) eqn:A; [eauto|].
    cbn [h_fields leaf_hty read_fields h_size] in *. rewrite N.add_0_r.
    destruct Hbad as [[Es Iv]|Lt]; [rewrite <- Es, L, Iv; eauto|]. exfalso.
    apply negb_false_iff in A. unfold accessible in A. apply orb_true_iff in A as [A|A]; [apply N.eqb_eq in A; lia|].
    rewrite B in A. cbn [existsb] in A. apply orb_true_iff in A as [A|A].
    - unfold block_contains in A. cbn [b_base b_size] in A. apply andb_true_iff in A as [_ A]. apply N.leb_le in A. lia.
    - apply existsb_exists in A as (b & Hb & C). unfold block_contains in C. apply andb_true_iff in C as [C1 C2].
      apply N.leb_le in C1, C2. destruct (Ap b Hb); lia. }
  destruct R as (u & R). exists u. split; [eapply from_undefined; eassumption|].
  apply looks. eapply ref_undefined; [exact Hi|reflexivity|exact T|exact R].
Qed.

End Confusion.

(** [item]: [Integer(i32)] is number 0, [Boolean(bool)] number 1, [Text(String)] number 2. *)
Definition bytes24 : rty := Ty "Aligned<[u8; 24]>" 24 8 all_init false true.

Example C40_example : let E := bump_env dbg60 in
  macro_setup E item item_x /\
  nth_error (e_variants item) 2 = Some ("Text"%string, KTuple [ty_string]) /\
  accessible st0 8 24 = false /\
  ub_of (macro_from E item_x (tb_dangling E 8 2) st0) = Some UbOutOfBlock /\
  ub_of (macro_from E item_x (tb_dangling E 1 2) st0) = Some UbMisaligned /\
  ub_of ((w <- tb_new E (leaf_hty ty_u8) [[Byte 7]] 1 ;; macro_from E item_x w)%M st0) = Some UbInvalidValue /\
  ub_of ((w <- tb_new E (leaf_hty ty_u8) [[Byte 1]] 2 ;; macro_from E item_x w)%M st0) = Some UbOutOfBlock /\
  has_type bytes24 a_string /\ ty_valid ty_string a_string = true /\
  result ((w <- tb_new E (leaf_hty bytes24) [a_string] 2 ;; macro_from E item_x w)%M st0) = Some v_text.
Proof. split; [apply item_setup|]. vm_compute. repeat split. Qed.

(** ** Instances: each theorem applied to a concrete case that meets its hypotheses *)

Example C39_double_free_example : exists w s1 s2, tb_new (bump_env dbg60) U_str v_str 9 st0 = Ok w s1 /\
  rbox_drop U_str (tb_into_box (bump_env dbg60) w) s1 = Ok tt s2 /\
  rbox_drop U_str (tb_into_box (bump_env dbg60) (tb_copy w)) s2 = UB UbOutOfBlock /\
  dealloc (tb_into_raw (bump_env dbg60) (tb_copy w)) 24 8 s2 = UB UbBadDealloc.
Proof.
  destruct a_box as (w & s1 & H & _), a_box_env as (HE & L & V & Z & D & _).
  destruct (C39_double_free _ _ _ _ _ _ _ HE L V Z D H) as (s2 & A & B & _ & _ & C).
  exists w, s1, s2. auto.
Qed.

Example C39_double_drop_example : exists w s1 s2 s3, tb_new (bump_env dbg60) U_str v_str 9 st0 = Ok w s1 /\
  move_out (bump_env dbg60) U_str w s1 = Ok tt s2 /\ move_out (bump_env dbg60) U_str (tb_copy w) s2 = Ok tt s3 /\
  destroyed (events s3) = [("String"%string, a_string); ("String"%string, a_string)].
Proof.
  destruct a_box as (w & s1 & H & _), a_box_env as (HE & L & V & Z & D & _).
  destruct (C39_double_drop _ _ _ _ _ _ _ HE L V Z D H) as (s2 & s3 & A & _ & B & C).
  exists w, s1, s2, s3. split; [exact H|]. split; [exact A|]. split; [exact B|]. rewrite C. reflexivity.
Qed.

Example C40_dangling_example :
  macro_from (bump_env dbg60) item_x (tb_dangling (bump_env dbg60) 8 2) st0 = UB UbOutOfBlock /\
  looks_undefined (bump_env dbg60) item_x (tb_dangling (bump_env dbg60) 8 2) UbOutOfBlock st0.
Proof.
  destruct C40_example as (S & I & A & _).
  destruct (C40_dangling _ _ _ S 2 "Text" (KTuple [ty_string]) (leaf_hty ty_string) st0 I) as [P Q];
    [vm_compute; discriminate|reflexivity|discriminate|exact A|].
  split; [exact (Q ty_string eq_refl)|exact P].
Qed.

Example C40_misaligned_example :
  macro_from (bump_env dbg60) item_x (tb_dangling (bump_env dbg60) 1 2) st0 = UB UbMisaligned /\
  looks_undefined (bump_env dbg60) item_x (tb_dangling (bump_env dbg60) 1 2) UbMisaligned st0.
Proof.
  destruct C40_example as (S & I & _).
  destruct (C40_misaligned _ _ _ S 2 "Text" (KTuple [ty_string]) (leaf_hty ty_string) st0 I) as [P Q];
    [vm_compute; discriminate|reflexivity|discriminate|].
  split; [exact (Q ty_string eq_refl)|exact P].
Qed.

(** Twenty-four bytes read as the text's [String], a [u8] read as a [bool] and as a [String]. *)
Lemma a_wrong_box t v d : result (tb_new (bump_env dbg60) (leaf_hty t) [v] d st0) <> None ->
  exists w s, tb_new (bump_env dbg60) (leaf_hty t) [v] d st0 = Ok w s.
Proof. destruct (tb_new (bump_env dbg60) (leaf_hty t) [v] d st0) as [w s|p s|u]; [eauto|intros H; elim H; reflexivity..]. Qed.

Example C40_transmutes_example : exists w s, tb_new (bump_env dbg60) (leaf_hty bytes24) [a_string] 2 st0 = Ok w s /\
  macro_from (bump_env dbg60) item_x w s = Ok v_text s.
Proof.
  destruct C40_example as (S & I & _ & _ & _ & _ & _ & T & V & _).
  destruct (a_wrong_box bytes24 a_string 2) as (w & s & H); [vm_compute; discriminate|]. exists w, s. split; [exact H|].
  apply (C40_transmutes _ _ _ S bytes24 a_string 2 "Text" ty_string st0 w s I);
    [vm_compute; discriminate|split; [exists 3; split; [lia|reflexivity]|reflexivity]|exact T|discriminate|reflexivity|reflexivity|exact V|exact H].
Qed.

Example C40_confuses_example : exists w s w' s' u u', tb_new (bump_env dbg60) (leaf_hty ty_u8) [[Byte 7]] 1 st0 = Ok w s /\
  macro_from (bump_env dbg60) item_x w s = UB u /\
  tb_new (bump_env dbg60) (leaf_hty ty_u8) [[Byte 1]] 2 st0 = Ok w' s' /\ macro_from (bump_env dbg60) item_x w' s' = UB u'.
Proof.
  destruct C40_example as (S & I & _).
  destruct (a_wrong_box ty_u8 [Byte 7] 1) as (w & s & H); [vm_compute; discriminate|].
  destruct (a_wrong_box ty_u8 [Byte 1] 2) as (w' & s' & H'); [vm_compute; discriminate|].
  assert (W : wf_ty ty_u8) by (split; [exists 0; split; [lia|reflexivity]|reflexivity]).
  destruct (C40_confuses _ _ _ S ty_u8 [Byte 7] 1 "Boolean" ty_bool st0 w s) as (u & A & _);
    [reflexivity|vm_compute; discriminate|exact W|split; reflexivity|discriminate|left; split; reflexivity|exact H|].
  destruct (C40_confuses _ _ _ S ty_u8 [Byte 1] 2 "Text" ty_string st0 w' s') as (u' & A' & _);
    [reflexivity|vm_compute; discriminate|exact W|split; reflexivity|discriminate|right; reflexivity|exact H'|].
  exists w, s, w', s', u, u'. auto.
Qed.

Print Assumptions C39_double_free.
Print Assumptions C39_double_drop.
Print Assumptions C40_dangling.
Print Assumptions C40_misaligned.
Print Assumptions C40_transmutes.
Print Assumptions C40_confuses.
