(** Property C27: enums with more variants than tags. *)
From Coq Require Import Arith NArith String Bool List Lia.
From Verif Require Import Words Config Spec SpecMem ConfigFacts Pointer PointerFacts Mem MemFacts Box BoxFacts Bump
  Arms Macro SpecMacro MacroFacts Props_Pointer Props_Macro.
Import ListNotations.
Local Open Scope N_scope.

(** In the settings [tagged_box!] compiles in, the tags are exactly the numbers of [b <= 8] bits. *)
Lemma u8_settings c : In c table -> disc_ty_bits c = 8 ->
  max_discriminant c + 1 = 2 ^ discriminant_bits c /\ discriminant_bits c <= 8 /\ pointer_width c + discriminant_bits c = 64.
Proof.
  intros Hc. pose proof (proj1 (Forall_forall (fun c => disc_ty_bits c = 8 ->
    max_discriminant c + 1 = 2 ^ discriminant_bits c /\ discriminant_bits c <= 8 /\
    pointer_width c + discriminant_bits c = 64) table)) as F.
  apply F; [|exact Hc]. clear. repeat constructor; cbn; intros; first [discriminate | reflexivity | lia | split; [reflexivity|split; [lia|reflexivity]]].
Qed.

Lemma typecheck_u8 c def x : In c table -> expand def = Some x -> tags_typecheck c x = true -> disc_ty_bits c = 8.
Proof.
  intros Hc Hx T. apply (C31_exact _ def x Hc Hx) in T.
  pose proof (proj1 (Forall_forall (fun c => 56 <= pointer_width c -> disc_ty_bits c = 8) table)) as F.
  apply F; [|exact Hc|exact T]. clear. repeat constructor; cbn; intros; try reflexivity; lia.
Qed.

Lemma mod_256 i b : b <= 8 -> (i mod 256) mod 2 ^ b = i mod 2 ^ b.
Proof.
  intros Hb. replace 256 with (2 ^ b * 2 ^ (8 - b)).
  - rewrite N.mod_mul_r by (apply N.pow_nonzero; discriminate). rewrite (N.mul_comm (2 ^ b) (_ mod _)).
    rewrite N.mod_add by (apply N.pow_nonzero; discriminate). apply N.mod_mod, N.pow_nonzero. discriminate.
  - rewrite <- N.pow_add_r. replace (b + (8 - b)) with 8 by lia. reflexivity.
Qed.

Lemma accepted_u8 E def x : macro_setup E def x -> disc_ty_bits (cfg (tgt E)) = 8.
Proof.
  intros H. eapply typecheck_u8; [apply (eo_target _ (ms_env _ _ _ H))|apply (ms_expand _ _ _ H)|apply (ms_types _ _ _ H)].
Qed.

Lemma tag_small E def x w : macro_setup E def x -> w < 2 ^ 64 ->
  tb_discriminant E w <= max_discriminant (cfg (tgt E)).
Proof.
  intros H Hw. pose proof (eo_target _ (ms_env _ _ _ H)) as Ht.
  destruct (u8_settings _ (proj1 Ht) (accepted_u8 _ _ _ H)) as (M & _ & W).
  unfold tb_discriminant, tp_discriminant. rewrite fetch_eq by assumption.
  assert (w / 2 ^ pointer_width (cfg (tgt E)) < 2 ^ discriminant_bits (cfg (tgt E))); [|lia].
  apply N.div_lt_upper_bound; [apply N.pow_nonzero; discriminate|]. rewrite <- N.pow_add_r, W. exact Hw.
Qed.

(** ** A variant beyond the last tag is never read back, from no box whatsoever. *)
Theorem C27_unreadable E def x i v k w s : macro_setup E def x ->
  nth_error (e_variants def) i = Some (v, k) -> max_discriminant (cfg (tgt E)) < N.of_nat i -> w < 2 ^ 64 ->
  (forall vs s', macro_into_inner E x w s <> Ok (EV v vs) s') /\
  (forall vs s', macro_from E x w s <> Ok (EV v vs) s') /\
  (forall S (cb cb' : evalue -> S -> M S) c, (forall e c s, ev_variant e <> v -> cb e c s = cb' e c s) ->
     macro_ref E x S w cb c s = macro_ref E x S w cb' c s).
Proof.
  intros A Hi Hb Hw. pose proof (accepted_u8 _ _ _ A) as H8. pose proof (tag_small _ _ _ _ A Hw) as Hs.
  destruct A as [He Hd Hx _].
  assert (Ne : forall v' k', nth_error (e_variants def) (N.to_nat (tb_discriminant E w)) = Some (v', k') -> v' <> v).
  { intros v' k' Hj ->. assert (N.to_nat (tb_discriminant E w) = i); [|lia].
    apply (proj1 (NoDup_nth_error (map fst (e_variants def))) (do_names _ Hd)).
    - rewrite map_length. apply nth_error_Some. congruence.
    - rewrite !nth_error_map, Hi, Hj. reflexivity. }
  split; [|split].
  - intros vs s'. rewrite (macro_into_inner_eq E def x Hd Hx w s H8).
    destruct (nth_error _ (N.to_nat _)) as [[v' k']|]; [|discriminate]. specialize (Ne v' k' eq_refl). unfold read_kind, bind, ret.
    destruct (storage k') as [U|]; [destruct (tb_into_inner E U w s)|]; congruence.
  - intros vs s'. rewrite (macro_from_eq E def x Hd Hx w s H8 (eo_tuples _ He)).
    destruct (nth_error _ (N.to_nat _)) as [[v' k']|]; [|discriminate]. specialize (Ne v' k' eq_refl). unfold bind, ret.
    destruct (from_storage E k') as [U|]; [destruct (tb_into_inner E U w s)|]; congruence.
  - intros S cb cb' c Hcb. rewrite !(macro_ref_eq E def x Hd Hx S w _ c s H8).
    destruct (nth_error _ (N.to_nat _)) as [[v' k']|]; [|reflexivity]. specialize (Ne v' k' eq_refl).
    apply bind_eq. intros e s' R. assert (Hn : ev_variant e <> v).
    { unfold read_kind, bind, ret in R. destruct (storage k') as [U|].
      - destruct (read_at U (tb_as_ptr E w) s); try discriminate. injection R as <- _. exact Ne.
      - injection R as <- _. exact Ne. }
    unfold at_exit. destruct (e_drop def && _); rewrite Hcb by assumption; reflexivity.
Qed.

(** ** What is read instead *)

Lemma dangling_tag E def x a d : macro_setup E def x -> power_of_two a ->
  tb_discriminant E (tb_dangling E a d) = d mod 2 ^ discriminant_bits (cfg (tgt E)) /\
  tb_as_mut_ptr E (tb_dangling E a d) = a.
Proof.
  intros A Ha. pose proof (eo_target _ (ms_env _ _ _ A)) as Ht. destruct (pow2_small E Ht a Ha) as [P1 P2].
  unfold tb_discriminant, tp_discriminant, tb_dangling, tp_dangling. split.
  - rewrite fetch_store by (first [assumption | eapply N.lt_le_trans; [exact P1|apply w_le_64; assumption]]).
    rewrite N.div_small by assumption. apply N.lor_0_l.
  - apply (addr_of_pack E Ht a d P1 P2).
Qed.

(** A variant stored without allocation, number [i], is read back as variant [i mod 2^b]; if that is
    also stored without allocation, the wrong value comes back silently (in any build). *)
Theorem C27_wrong_variant E def x i v k j v' k' s : macro_setup E def x ->
  nth_error (e_variants def) i = Some (v, k) -> storage k = None ->
  j = N.to_nat (N.of_nat i mod 2 ^ discriminant_bits (cfg (tgt E))) ->
  nth_error (e_variants def) j = Some (v', k') -> storage k' = None ->
  exists w s1, container_from E x (EV v []) s = Ok w s1 /\
    forall s2, macro_into_inner E x w s2 = Ok (EV v' []) s2.
Proof.
  intros A Hi Hk Hj Hj' Hk'. pose proof (accepted_u8 _ _ _ A) as H8.
  destruct (u8_settings _ (proj1 (eo_target _ (ms_env _ _ _ A))) H8) as (_ & B8 & _).
  pose proof (dangling_tag E def x (e_align def) (N.of_nat i mod 256) A (do_align _ (ms_def _ _ _ A))) as [Tg _].
  rewrite (mod_256 _ _ B8) in Tg. destruct A as [He Hd Hx _].
  exists (tb_dangling E (e_align def) (N.of_nat i mod 256)). eexists. split.
  - unfold container_from. rewrite (macro_into_eq E def x Hd Hx i v k [] s Hi); [|rewrite (storage_none k Hk); reflexivity].
    rewrite at_exit_eq. unfold store_kind. rewrite Hk. cbn [ret]. reflexivity.
  - intros s2. rewrite (macro_into_inner_eq E def x Hd Hx _ s2 H8), Tg, <- Hj, Hj'. unfold read_kind. rewrite Hk'. reflexivity.
Qed.

(** If variant [i mod 2^b] has a payload, it is read through the dangling pointer: undefined behaviour
    in every state without a live block at that address. *)
Theorem C27_dangling_payload E def x i v k j v' k' U s : macro_setup E def x ->
  nth_error (e_variants def) i = Some (v, k) -> storage k = None ->
  j = N.to_nat (N.of_nat i mod 2 ^ discriminant_bits (cfg (tgt E))) ->
  nth_error (e_variants def) j = Some (v', k') -> storage k' = Some U -> h_size U <> 0 ->
  exists w s1, container_from E x (EV v []) s = Ok w s1 /\
    forall s2, (forall b, In b (blocks s2) -> ~ (b_base b <= e_align def < b_base b + b_size b)) ->
      exists u, macro_into_inner E x w s2 = UB u.
Proof.
  intros A Hi Hk Hj Hj' Hk' Hz. pose proof (accepted_u8 _ _ _ A) as H8.
  destruct (u8_settings _ (proj1 (eo_target _ (ms_env _ _ _ A))) H8) as (_ & B8 & _).
  pose proof (dangling_tag E def x (e_align def) (N.of_nat i mod 256) A (do_align _ (ms_def _ _ _ A))) as [Tg Ad].
  rewrite (mod_256 _ _ B8) in Tg. destruct A as [He Hd Hx _].
  exists (tb_dangling E (e_align def) (N.of_nat i mod 256)). eexists. split.
  - unfold container_from. rewrite (macro_into_eq E def x Hd Hx i v k [] s Hi); [|rewrite (storage_none k Hk); reflexivity].
    rewrite at_exit_eq. unfold store_kind. rewrite Hk. cbn [ret]. reflexivity.
  - intros s2 Hb. rewrite (macro_into_inner_eq E def x Hd Hx _ s2 H8), Tg, <- Hj, Hj'. unfold read_kind. rewrite Hk'.
    unfold tb_into_inner. rewrite Ad. unfold bind, read_at, check_access.
    assert (Acc : accessible s2 (e_align def) (h_size U) = false).
    { unfold accessible. apply orb_false_iff. split; [apply N.eqb_neq, Hz|]. apply not_true_iff_false. intros C.
      apply existsb_exists in C as (b & Hin & C). apply (Hb b Hin). unfold block_contains in C.
      apply andb_true_iff in C as [C1 C2]. apply N.leb_le in C1, C2. lia. }
    unfold bind. destruct (e_align def =? 0); [eauto|]. destruct (negb _); [eauto|]. rewrite Acc. cbn [negb]. eauto.
Qed.

(** A variant stored with an allocation: a debug build panics when the truncated number is no tag ... *)
Theorem C27_debug_panics E def x i v k U vs p s : macro_setup E def x -> debug_assertions (tgt E) = true ->
  nth_error (e_variants def) i = Some (v, k) -> Forall2 has_type (kind_types k) vs ->
  storage k = Some U -> h_size U <> 0 -> alloc_fn E s (h_size U) (h_align U) = Some p ->
  max_discriminant (cfg (tgt E)) < N.of_nat i mod 256 ->
  exists s1, container_from E x (EV v vs) s =
    Panicked (PanicDiscriminant (N.of_nat i mod 256) (max_discriminant (cfg (tgt E)))) s1.
Proof.
  intros A Hdbg Hi Ht Hk Hz Hp Hm. destruct A as [He Hd Hx _].
  destruct (storage_legal k U (kind_types_wf _ _ _ Hd (nth_error_In _ _ Hi)) Hk) as [Hl Hty].
  eexists. unfold container_from. rewrite (macro_into_eq E def x Hd Hx i v k vs s Hi) by (symmetry; eapply Forall2_len, Ht).
  rewrite at_exit_eq. unfold store_kind. rewrite Hk.
  rewrite (tb_new_some E (eo_alloc _ He) U vs _ s p Hl Hz Hp).
  unfold tp_new. rewrite Hdbg. rewrite (proj2 (N.leb_gt _ _) Hm). reflexivity.
Qed.

(** ... and otherwise (release build, or a variant number of 256 and more that wraps to a tag) the
    payload is stored under the tag of another variant, which it is then read as. *)
Theorem C27_confused E def x i v k U vs p s : macro_setup E def x ->
  nth_error (e_variants def) i = Some (v, k) -> Forall2 has_type (kind_types k) vs ->
  storage k = Some U -> h_size U <> 0 -> alloc_fn E s (h_size U) (h_align U) = Some p ->
  (debug_assertions (tgt E) = true -> N.of_nat i mod 256 <= max_discriminant (cfg (tgt E))) ->
  exists w s1, container_from E x (EV v vs) s = Ok w s1 /\
    tb_discriminant E w = N.of_nat i mod 2 ^ discriminant_bits (cfg (tgt E)) /\ tb_as_ptr E w = p.
Proof.
  intros A Hi Ht Hk Hz Hp Hm. pose proof (accepted_u8 _ _ _ A) as H8.
  destruct (u8_settings _ (proj1 (eo_target _ (ms_env _ _ _ A))) H8) as (_ & B8 & _). destruct A as [He Hd Hx _].
  pose proof (eo_target _ He) as Htg.
  destruct (storage_legal k U (kind_types_wf _ _ _ Hd (nth_error_In _ _ Hi)) Hk) as [Hl Hty].
  assert (P1 : p < 2 ^ pointer_width (cfg (tgt E))).
  { apply (max_ptr_eq _ Htg). eapply (eo_fits _ He); [|apply (ll_align _ Hl)|exact Hp]. lia. }
  assert (P2 : p < 2 ^ ptr_bits (tgt E)).
  { eapply (alloc_lt E (eo_alloc _ He)); [|apply (ll_align _ Hl)|exact Hp]. lia. }
  exists (store_discriminant (tgt E) p (N.of_nat i mod 256)). eexists. split; [|split].
  - unfold container_from. rewrite (macro_into_eq E def x Hd Hx i v k vs s Hi) by (symmetry; eapply Forall2_len, Ht).
    rewrite at_exit_eq. unfold store_kind. rewrite Hk. rewrite (tb_new_some E (eo_alloc _ He) U vs _ s p Hl Hz Hp).
    rewrite (tp_new_cases (tgt E)). rewrite (proj2 (N.leb_le _ _) (proj2 (max_ptr_eq _ Htg p) P1)).
    destruct (debug_assertions (tgt E)); [rewrite (proj2 (N.leb_le _ _) (Hm eq_refl))|]; reflexivity.
  - unfold tb_discriminant, tp_discriminant. rewrite fetch_store by (first [assumption | eapply N.lt_le_trans; [exact P1|apply w_le_64; assumption]]).
    rewrite N.div_small by assumption. rewrite N.lor_0_l. apply mod_256, B8.
  - apply (addr_of_pack E Htg p _ P1 P2).
Qed.

(** ** The bound is sharp, in every setting and for every larger number of variants *)

(** Unit variants [V], [VV], [VVV], ... *)
Fixpoint vname (n : nat) : string := match n with O => "V"%string | S k => ("V" ++ vname k)%string end.
Definition units (n : nat) : edef :=
  Edef "Container" "Item" 1 false false (map (fun i => (vname i, KUnit)) (seq 0 n)).

Lemma vname_inj a : forall b, vname a = vname b -> a = b.
Proof.
  induction a as [|a IH]; intros [|b]; cbn; intros E; try reflexivity.
  - destruct b; discriminate.
  - destruct a; discriminate.
  - injection E as E. f_equal. apply IH, E.
Qed.

Lemma vnames_nodup l : NoDup l -> NoDup (map vname l).
Proof.
  induction 1 as [|a l Hn _ IH]; cbn [map]; constructor; [|exact IH]. intros H.
  apply in_map_iff in H as (b & E & Hb). apply vname_inj in E. subst b. contradiction.
Qed.

Lemma units_names n : map fst (e_variants (units n)) = map vname (seq 0 n).
Proof. cbn. rewrite map_map. reflexivity. Qed.

Lemma units_types n : all_types (units n) = [].
Proof. unfold all_types. cbn. rewrite map_map. cbn. induction (seq 0 n); cbn; auto. Qed.

Lemma units_ok n : (0 < n)%nat -> def_ok (units n).
Proof.
  intros Hn. constructor; rewrite ?units_types.
  - cbn. destruct n; [lia|discriminate].
  - rewrite units_names. apply vnames_nodup, seq_NoDup.
  - intros v ms H. apply in_map_iff in H as (i & E & _). discriminate.
  - intros v tys H. apply in_map_iff in H as (i & E & _). discriminate.
  - constructor.
  - exists 0. split; [lia|reflexivity].
  - constructor.
  - discriminate.
  - constructor.
  - cbn. rewrite map_map. cbn. assert (C : concat (map (fun _ : nat => @nil string) (seq 0 n)) = []).
    { induction (seq 0 n); cbn; auto. }
    rewrite C. repeat constructor; cbn; intuition discriminate.
Qed.

Theorem C27_sharp t n a tl s : target_ok t -> 56 <= pointer_width (cfg t) ->
  (N.to_nat (max_discriminant (cfg t)) + 1 < n)%nat -> env_ok (Env t a tl) ->
  exists def x v v', length (e_variants def) = n /\ macro_setup (Env t a tl) def x /\ evalue_ok def v /\ v' <> v /\
    exists w s1, container_from (Env t a tl) x v s = Ok w s1 /\ macro_into_inner (Env t a tl) x w s1 = Ok v' s1.
Proof.
  intros Ht Hw Hn He. destruct (def_expands (units n) (units_ok n ltac:(lia))) as [x Hx].
  assert (A : macro_setup (Env t a tl) (units n) x).
  { constructor; auto. apply units_ok. lia. apply (C31_exact _ (units n) x (proj1 Ht) Hx). exact Hw. }
  set (i := N.to_nat (max_discriminant (cfg t) + 1)).
  assert (Nth : forall k, (k < n)%nat -> nth_error (e_variants (units n)) k = Some (vname k, KUnit)).
  { intros k Hk. cbn. rewrite nth_error_map. rewrite (nth_error_nth' _ 0%nat) by (rewrite seq_length; exact Hk).
    rewrite seq_nth by exact Hk. reflexivity. }
  exists (units n), x, (EV (vname i) []), (EV (vname 0) []). split; [cbn; rewrite map_length, seq_length; reflexivity|].
  split; [exact A|]. split; [|split].
  - exists KUnit. split; [|constructor]. eapply nth_error_In, Nth. unfold i. lia.
  - intros E. assert (vname 0 = vname i) by congruence. apply vname_inj in H. unfold i in H. lia.
  - destruct (C27_wrong_variant (Env t a tl) (units n) x i (vname i) KUnit 0%nat (vname 0) KUnit s A) as (w & s1 & R & H);
      [apply Nth; unfold i; lia|reflexivity| |apply Nth; lia|reflexivity|].
    + destruct (u8_settings _ (proj1 Ht) (accepted_u8 _ _ _ A)) as (M & _). unfold i. rewrite N2Nat.id. cbn [tgt].
      rewrite M. rewrite N.mod_same by (apply N.pow_nonzero; discriminate). reflexivity.
    + exists w, s1. auto.
Qed.

(** ** Examples: 63bits has two tags *)

Definition three : edef := Edef "Container" "Item" 8 false false
  [("Text", KTuple [ty_string]); ("Unit", KUnit); ("Other", KUnit); ("Int", KTuple [ty_i32]); ("Num", KTuple [ty_u64])]%string.
Definition three_x : expansion := match expand three with Some x => x | None => item_x end.
Definition cfg63 : config := Config "tagged_box_reserve_63bits" 8 1 63 1.
Definition dbg63 : target := Target cfg63 true 64.
Definition rel63 : target := Target cfg63 false 64.
Definition in_out (t : target) (v : evalue) : M evalue :=
  bind (container_from (bump_env t) three_x v) (macro_into_inner (bump_env t) three_x).

Lemma three_accepted d : macro_setup (bump_env (Target cfg63 d 64)) three three_x.
Proof.
  constructor; try reflexivity.
  - apply bump_env_ok. split; [|auto]. cbn. tauto.
  - constructor.
    + discriminate.
    + repeat constructor; cbn; intuition discriminate.
    + intros v ms H. cbn in H. intuition discriminate.
    + intros v tys H. cbn in H. intuition try discriminate;
      match goal with H : (_, KTuple _) = _ |- _ => injection H as <- <-; cbn; lia end.
    + cbn. repeat (constructor; [first [apply wf_string | apply wf_i32 | apply wf_u64]|]). constructor.
    + exists 3. split; [lia|reflexivity].
    + cbn. intuition discriminate.
    + discriminate.
    + cbn. repeat constructor; cbn; intros; try reflexivity; discriminate.
    + cbn. repeat constructor; cbn; intuition discriminate.
Qed.

(** [Text] has a tag, although not all variants have. *)
Example C26_few_tags_example : macro_setup (bump_env dbg63) three three_x /\ ~ variants_fit cfg63 three /\
  evalue_fits (bump_env dbg63) three v_text /\ result (in_out dbg63 v_text st0) = Some v_text.
Proof.
  split; [apply three_accepted|]. split; [unfold variants_fit; cbn; lia|]. split; [|vm_compute; reflexivity]. split.
  - exists (KTuple [ty_string]). split; [cbn; tauto|]. repeat constructor.
  - exists 0%nat, (KTuple [ty_string]). split; [reflexivity|vm_compute; discriminate].
Qed.

(** [Other] has the tag of [Text]: undefined behaviour in safe code, also in a debug build. [Int] has
    the tag of [Unit] in a release build and is refused in a debug build. *)
Example C27_example : ub_of (in_out dbg63 (EV "Other" []) st0) = Some UbOutOfBlock /\
  result (in_out rel63 (EV "Int" [le_bytes 4 7]) st0) = Some (EV "Unit" []) /\
  panic_of (in_out dbg63 (EV "Int" [le_bytes 4 7]) st0) = Some (PanicDiscriminant 3 1) /\
  ub_of (in_out rel63 (EV "Num" [le_bytes 8 7]) st0) = Some UbOutOfBlock.
Proof. repeat split; vm_compute; reflexivity. Qed.

Example C27_sharp_example : result (bind (container_from (bump_env dbg60)
    (match expand (units 17) with Some x => x | None => item_x end) (EV (vname 16) []))
    (macro_into_inner (bump_env dbg60) (match expand (units 17) with Some x => x | None => item_x end)) st0)
  = Some (EV "V" []).
Proof. vm_compute. reflexivity. Qed.

(** ** Instances: each theorem applied to a concrete case that meets its hypotheses *)

Example C27_unreadable_example : forall w s vs s', w < 2 ^ 64 -> macro_into_inner (bump_env dbg63) three_x w s <> Ok (EV "Other" vs) s'.
Proof.
  intros w s vs s' W. refine (proj1 (C27_unreadable (bump_env dbg63) three three_x 2 "Other" KUnit w s _ _ _ _) vs s');
    [apply three_accepted|reflexivity|reflexivity|exact W].
Qed.

(** [units 3]: the third variant comes back as the first. *)
Lemma units3_setup : exists x, macro_setup (bump_env dbg63) (units 3) x.
Proof.
  destruct (expand (units 3)) as [x|] eqn:X; [|vm_compute in X; discriminate X]. exists x.
  constructor; [apply (ms_env _ _ _ (three_accepted true))|apply units_ok; lia|exact X|].
  apply (C31_exact cfg63 (units 3) x); [cbn; tauto|exact X|vm_compute; discriminate].
Qed.

Example C27_wrong_variant_example : exists x w s1, macro_setup (bump_env dbg63) (units 3) x /\
  container_from (bump_env dbg63) x (EV "VVV" []) st0 = Ok w s1 /\ macro_into_inner (bump_env dbg63) x w s1 = Ok (EV "V" []) s1.
Proof.
  destruct units3_setup as (x & X).
  destruct (C27_wrong_variant (bump_env dbg63) (units 3) x 2 "VVV" KUnit 0 "V" KUnit st0 X eq_refl eq_refl eq_refl eq_refl eq_refl) as (w & s1 & H1 & H2).
  exists x, w, s1. split; [exact X|]. split; [exact H1|apply H2].
Qed.

Example C27_dangling_payload_example : exists w s1 u, container_from (bump_env dbg63) three_x (EV "Other" []) st0 = Ok w s1 /\
  macro_into_inner (bump_env dbg63) three_x w st0 = UB u.
Proof.
  destruct (C27_dangling_payload (bump_env dbg63) three three_x 2 "Other" KUnit 0 "Text" (KTuple [ty_string]) (leaf_hty ty_string) st0
    (three_accepted true) eq_refl eq_refl eq_refl eq_refl eq_refl ltac:(discriminate)) as (w & s1 & H1 & H2).
  destruct (H2 st0) as [u Hu]; [intros b []|]. exists w, s1, u. split; [exact H1|exact Hu].
Qed.

Lemma int_7_ok : Forall2 has_type (kind_types (KTuple [ty_i32])) [le_bytes 4 7].
Proof. constructor; [split; vm_compute; reflexivity|constructor]. Qed.

Example C27_debug_panics_example : exists s1, container_from (bump_env dbg63) three_x (EV "Int" [le_bytes 4 7]) st0 = Panicked (PanicDiscriminant 3 1) s1.
Proof.
  exact (C27_debug_panics (bump_env dbg63) three three_x 3 "Int" (KTuple [ty_i32]) (leaf_hty ty_i32) [le_bytes 4 7] 4096 st0
    (three_accepted true) eq_refl eq_refl int_7_ok eq_refl ltac:(discriminate) eq_refl eq_refl).
Qed.

Example C27_confused_example : exists w s1, container_from (bump_env rel63) three_x (EV "Int" [le_bytes 4 7]) st0 = Ok w s1 /\
  tb_discriminant (bump_env rel63) w = 3 mod 2 /\ tb_as_ptr (bump_env rel63) w = 4096.
Proof.
  refine (C27_confused (bump_env rel63) three three_x 3 "Int" (KTuple [ty_i32]) (leaf_hty ty_i32) [le_bytes 4 7] 4096 st0
    (three_accepted false) eq_refl int_7_ok eq_refl _ eq_refl _); discriminate.
Qed.

Example C27_sharp_instance : exists def x v v', length (e_variants def) = 3%nat /\ macro_setup (bump_env dbg63) def x /\ evalue_ok def v /\
  v' <> v /\ exists w s1, container_from (bump_env dbg63) x v st0 = Ok w s1 /\ macro_into_inner (bump_env dbg63) x w s1 = Ok v' s1.
Proof.
  apply (C27_sharp dbg63 3 bump reprC st0); [apply (ms_env _ _ _ (three_accepted true))|vm_compute; discriminate|
    change (N.to_nat (max_discriminant (cfg dbg63))) with 1%nat; lia|apply (ms_env _ _ _ (three_accepted true))].
Qed.
