(** Properties C13-C22 (and the box part of C10): [TaggedBox<T>]. *)
From Coq Require Import NArith String Ascii Bool List Lia.
From Verif Require Import Words Config Spec SpecMem ConfigFacts Pointer PointerFacts Fmt SpecFmt FmtFacts
  Mem MemFacts Box BoxFacts Bump Props_Pointer.
Import ListNotations.
Local Open Scope N_scope.
Local Open Scope m_scope.

(** Example values. *)
Definition U_u32 : hty := leaf_hty ty_u32.
Definition v_u32 : hval := [le_bytes 4 0xF00DBEEF].
Definition U_str : hty := leaf_hty ty_string.
Definition v_str : hval := [a_string].
Definition U_guard : hty := leaf_hty ty_guard.
Definition v_guard : hval := [[]].

Lemma example_values_ok :
  layout_legal U_u32 /\ hval_ok U_u32 v_u32 /\ layout_legal U_str /\ hval_ok U_str v_str /\
  layout_legal U_guard /\ hval_ok U_guard v_guard.
Proof.
  repeat split; try (apply leaf_legal; first [apply wf_u32|apply wf_string|apply wf_guard]);
    (constructor; [split; vm_compute; reflexivity|constructor]).
Qed.

(** ** C10, for boxes *)

Theorem C10_box_fmt : forall E k o w, target_ok (tgt E) ->
  (separable (radix_notation k) o = true -> read_text (radix_notation k) o (tb_fmt E k o w) = Some (w mod 2 ^ pointer_width (cfg (tgt E)))) /\
  (forall w', w mod 2 ^ pointer_width (cfg (tgt E)) = w' mod 2 ^ pointer_width (cfg (tgt E)) -> tb_fmt E k o w = tb_fmt E k o w') /\
  (forall n, f_width o = Some n -> (n <= String.length (tb_fmt E k o w))%nat).
Proof.
  intros E k o w Ht. split; [|split].
  - intros H. rewrite <- (strip_eq _ Ht). unfold tb_fmt. rewrite fmt_u64_shown. apply shown_reads; [apply radix_writes|exact H].
  - intros w' H. rewrite <- !(strip_eq _ Ht) in H. unfold tb_fmt, tb_as_u64, tp_as_u64. rewrite H. reflexivity.
  - intros n H. exact (C10_width (tgt E) k o w n H).
Qed.

(** ** C09, for boxes *)

Theorem C09_box : forall E align d, target_ok (tgt E) -> power_of_two align ->
  tb_as_ptr E (tb_dangling E align d) = align /\ align <> 0 /\ tb_into_raw E (tb_dangling E align d) = align /\
  tb_discriminant E (tb_dangling E align d) = d mod 2 ^ discriminant_bits (cfg (tgt E)).
Proof.
  intros E align d Ht Ha. destruct (C09_dangling (tgt E) align d Ht Ha) as (_ & H1 & H2 & _ & H3 & _).
  split; [exact H1|]. split; [exact H2|]. split; [exact H1|exact H3].
Qed.

Example C09_box_example : tb_as_ptr (bump_env dbg60) (tb_dangling (bump_env dbg60) 8 17) = 8 /\
  tb_discriminant (bump_env dbg60) (tb_dangling (bump_env dbg60) 8 17) = 1.
Proof.
  destruct (C09_box (bump_env dbg60) 8 17) as (H1 & _ & _ & H2); [apply example_targets_ok|exists 3; split; [lia|reflexivity]|].
  split; [exact H1|]. rewrite H2. reflexivity.
Qed.

(** ** C13 A box gives back what was put in *)

Theorem C13_new_read : forall E U val d s, env_ok E -> layout_legal U -> hval_ok U val ->
  d <= max_discriminant (cfg (tgt E)) ->
  (exists w s', tb_new E U val d s = Ok w s' /\ tb_discriminant E w = d /\ box_holds E s' U w val) \/
  (h_size U <> 0 /\ alloc_fn E s (h_size U) (h_align U) = None /\
   exists s', tb_new E U val d s = Panicked PanicNullAlloc s').
Proof.
  intros E U val d s [Ht Ha Hf _] Hl Hv Hd.
  destruct (tb_new_spec E Ht Ha U val d s Hf Hl Hv Hd) as [(_ & w & H1 & H2 & _ & _ & H3)|[(H1 & H2 & H3)|(_ & p & w & _ & H1 & H2 & _ & _ & H3)]].
  - left. eauto 6.
  - right. eauto.
  - left. eauto 6.
Qed.

Example C13_example : let E := bump_env dbg60 in
  env_ok E /\ layout_legal U_str /\ hval_ok U_str v_str /\
  result ((w <- tb_new E U_str v_str 9 ;; v <- tb_as_ref E U_str w ;; ret (w, v)) st0)
    = Some (0x9000000000001000, v_str).
Proof.
  split; [apply bump_env_ok, example_targets_ok|]. split; [apply example_values_ok|]. split; [apply example_values_ok|].
  vm_compute. reflexivity.
Qed.

(** ** C14 Allocation discipline of new *)

Theorem C14_allocation : forall E U val d s w s', env_ok E -> layout_legal U -> hval_ok U val ->
  d <= max_discriminant (cfg (tgt E)) -> tb_new E U val d s = Ok w s' ->
  allocations (events s') = allocations (events s) ++ (if h_size U =? 0 then [] else [(h_size U, h_align U)]) /\
  deallocations (events s') = deallocations (events s) /\
  tb_as_ptr E w <> 0 /\ tb_as_ptr E w mod h_align U = 0 /\
  blocks s' = (if h_size U =? 0 then [] else [Block (tb_as_ptr E w) (h_size U) (h_align U)]) ++ blocks s /\
  keeps s s'.
Proof.
  intros E U val d s w s' [Ht Ha Hf _] Hl Hv Hd Hn.
  destruct (drop_events_spec (h_types U) val) as (_ & D2 & D3).
  destruct (tb_new_spec E Ht Ha U val d s Hf Hl Hv Hd) as [(Hs & x & H1 & H2 & A & _ & H3)|[(H1 & H2 & H3)|(Hs & p & x & Hp & H1 & H2 & A & _ & H3)]];
    rewrite Hn in *; try discriminate; injection H1 as <- ->; unfold tb_as_ptr; rewrite A.
  - rewrite Hs. cbn [N.eqb dropped events blocks app]. rewrite allocations_app, deallocations_app, D2, D3, !app_nil_r.
    pose proof (power_of_two_nz _ (ll_align U Hl)). repeat split; auto using N.mod_same.
  - destruct (N.eqb_spec (h_size U) 0); [contradiction|].
    destruct (Ha s (h_size U) (h_align U) p ltac:(lia) (ll_align U Hl) Hp) as (P1 & P2 & _).
    cbn [stored events blocks app]. rewrite allocations_app, deallocations_app. cbn [allocations deallocations].
    rewrite !app_nil_r. do 5 (split; [auto|]). apply (stored_keeps E); assumption.
Qed.

Example C14_example :
  allocations (log_of (tb_new (bump_env dbg60) U_str v_str 9 st0)) = [(24, 8)] /\
  allocations (log_of (tb_new (bump_env dbg60) U_guard v_guard 9 st0)) = [].
Proof. vm_compute. auto. Qed.

(** ** C15 into_inner moves the value out intact *)

(** Whatever happened since, as long as the box's memory was not disturbed ([keeps]). Equal states
    before and after: no destructor ran, no memory changed. *)
Theorem C15_into_inner : forall E U val d s w s1 s2, env_ok E -> layout_legal U -> hval_ok U val ->
  d <= max_discriminant (cfg (tgt E)) -> tb_new E U val d s = Ok w s1 -> keeps s1 s2 ->
  tb_into_inner E U w s2 = Ok val s2.
Proof.
  intros E U val d s w s1 s2 HE Hl Hv Hd Hn Hk.
  destruct (C13_new_read E U val d s HE Hl Hv Hd) as [(x & y & H1 & _ & H3)|(_ & _ & y & H1)];
    rewrite Hn in H1; [|discriminate]. injection H1 as <- <-.
  apply (box_holds_keeps E U w val s1 s2 Hl Hk H3).
Qed.

Example C15_example : let E := bump_env dbg60 in
  result ((w <- tb_new E U_str v_str 9 ;; tb_new E U_u32 v_u32 3 ;; tb_into_inner E U_str w) st0) = Some v_str.
Proof. vm_compute. reflexivity. Qed.

(** ** C16 into_raw / from_raw are inverse *)

(** Any word whose tag is permitted and whose address is an address of the target. *)
Theorem C16_from_into : forall E w s, target_ok (tgt E) -> fits 64 w ->
  tb_discriminant E w <= max_discriminant (cfg (tgt E)) -> fits (ptr_bits (tgt E)) (tb_as_u64 E w) ->
  tb_from_raw E (tb_into_raw E w) (tb_discriminant E w) s = Ok w s.
Proof.
  intros E w s Ht Hw Hd Ha. unfold tb_from_raw, tb_into_raw, tb_discriminant, tb_as_u64 in *.
  unfold tp_as_mut_ptr. unfold tp_as_u64, fits in Ha. rewrite cast_ptr_id by exact Ha.
  destruct (C06_surjective _ w Ht Hw) as (A & _ & P). unfold tp_as_u64 in A, P.
  rewrite tp_new_ok by assumption. unfold pack in P. rewrite <- P. reflexivity.
Qed.

Theorem C16_into_from : forall E p d s, target_ok (tgt E) ->
  p <= max_pointer_value (cfg (tgt E)) -> fits (ptr_bits (tgt E)) p -> d <= max_discriminant (cfg (tgt E)) ->
  exists w, tb_from_raw E p d s = Ok w s /\ tb_into_raw E w = p /\ tb_discriminant E w = d.
Proof.
  intros E p d s Ht Hp Hb Hd. destruct (C04_round_trip _ p d Ht Hp Hd) as (w & H1 & H2 & _ & H4).
  exists w. unfold tb_from_raw. rewrite H1. destruct (H4 Hb) as (_ & H5 & _). auto.
Qed.

(** On 64-bit targets the address condition is no restriction. *)
Theorem C16_from_into_64 : forall E w s, target_ok (tgt E) -> ptr_bits (tgt E) = 64 -> fits 64 w ->
  tb_discriminant E w <= max_discriminant (cfg (tgt E)) ->
  tb_from_raw E (tb_into_raw E w) (tb_discriminant E w) s = Ok w s.
Proof.
  intros E w s Ht H64 Hw Hd. apply C16_from_into; try assumption.
  destruct (C06_surjective _ w Ht Hw) as (A & _). unfold fits. rewrite H64. unfold tb_as_u64.
  pose proof (w_le_64 _ Ht). lia.
Qed.

Example C16_example : tb_into_raw (bump_env dbg60) 0x9000000000001000 = 0x1000 /\
  tb_from_raw (bump_env dbg60) 0x1000 9 st0 = Ok 0x9000000000001000 st0.
Proof. vm_compute. auto. Qed.

(** ** C17 Mutation through a box *)

(** Assigning through [as_mut_ref] drops the old value once and stores the new one; the box itself
    (a word) is unchanged; every value stored elsewhere is still there. *)
Theorem C17_assign : forall E U w old val s, env_ok E -> layout_legal U -> hval_ok U val ->
  box_holds E s U w old ->
  exists s', tb_assign E U w val s = Ok tt s' /\ box_holds E s' U w val /\
    blocks s' = blocks s /\ destroyed (events s') = destroyed (events s) ++ destructors U old /\
    (forall H q v, layout_legal H -> read_at H q s = Ok v s ->
       q + h_size H <= tb_as_ptr E w \/ tb_as_ptr E w + h_size U <= q -> read_at H q s' = Ok v s') /\
    (forall q, q < tb_as_ptr E w \/ tb_as_ptr E w + h_size U <= q -> bytes s' q = bytes s q).
Proof.
  intros E U w old val s HE Hl Hv Hold.
  pose proof (box_holds_inv E U w old s Hold) as Hr.
  set (p := tp_as_ptr (tgt E) w) in *.
  assert (Hp : tp_mut_ref_addr (tgt E) w = p) by reflexivity.
  pose proof (read_at_inv _ _ _ _ _ Hr) as (_ & Hc & _).
  set (s1 := dropped U old s).
  assert (Hc1 : can_access s1 U p) by exact Hc.
  set (s2 := St (write_mem U p val (bytes s)) (blocks s) (events s1)).
  exists s2. split; [|split; [|split; [|split; [|split]]]].
  - unfold tb_assign, bind. rewrite Hp, Hr. cbn [drop_hval]. fold (dropped U old s). fold s1.
    rewrite write_at_eq by exact Hc1. reflexivity.
  - eapply (box_holds_addr E); [exact Hl|reflexivity|]. fold p.
    rewrite read_at_eq by exact Hc. cbn [s2 bytes]. rewrite read_write_mem by assumption. reflexivity.
  - reflexivity.
  - cbn [s2 events s1 dropped]. rewrite destroyed_app, destroyed_drop. reflexivity.
  - intros H q v Hlh Hq Hap. unfold tb_as_ptr in Hap. fold p in Hap.
    apply read_at_inv in Hq as (_ & Hcq & Hvq). rewrite read_at_eq by exact Hcq. cbn [s2 bytes].
    rewrite (read_fields_ext _ _ (bytes s)), Hvq; [reflexivity|].
    intros f x Hin Hx. apply write_mem_other; try assumption.
    pose proof (ll_inside H Hlh) as Hi. rewrite Forall_forall in Hi. specialize (Hi f Hin).
    unfold in_field in Hx. lia.
  - intros q Hq. cbn [s2 bytes]. apply write_mem_other; try assumption. unfold tb_as_ptr in Hq. fold p in Hq. lia.
Qed.

(** Changing in place with any function (e.g. [*b.as_mut_ref::<usize>() *= 100]). *)
Theorem C17_modify : forall E U w old f s, env_ok E -> layout_legal U -> hval_ok U (f old) ->
  box_holds E s U w old ->
  exists s', tb_modify E U w f s = Ok tt s' /\ box_holds E s' U w (f old) /\
    blocks s' = blocks s /\ events s' = events s /\
    (forall H q v, layout_legal H -> read_at H q s = Ok v s ->
       q + h_size H <= tb_as_ptr E w \/ tb_as_ptr E w + h_size U <= q -> read_at H q s' = Ok v s') /\
    (forall q, q < tb_as_ptr E w \/ tb_as_ptr E w + h_size U <= q -> bytes s' q = bytes s q).
Proof.
  intros E U w old f s HE Hl Hv Hold.
  pose proof (box_holds_inv E U w old s Hold) as Hr.
  set (p := tp_as_ptr (tgt E) w) in *.
  assert (Hp : tp_mut_ref_addr (tgt E) w = p) by reflexivity.
  pose proof (read_at_inv _ _ _ _ _ Hr) as (_ & Hc & _).
  set (s2 := St (write_mem U p (f old) (bytes s)) (blocks s) (events s)).
  exists s2. split; [|split; [|split; [|split; [|split]]]].
  - unfold tb_modify, bind. rewrite Hp, Hr. rewrite write_at_eq by exact Hc. reflexivity.
  - eapply (box_holds_addr E); [exact Hl|reflexivity|]. fold p.
    rewrite read_at_eq by exact Hc. cbn [s2 bytes]. rewrite read_write_mem by assumption. reflexivity.
  - reflexivity.
  - reflexivity.
  - intros H q v Hlh Hq Hap. unfold tb_as_ptr in Hap. fold p in Hap.
    apply read_at_inv in Hq as (_ & Hcq & Hvq). rewrite read_at_eq by exact Hcq. cbn [s2 bytes].
    rewrite (read_fields_ext _ _ (bytes s)), Hvq; [reflexivity|].
    intros g x Hin Hx. apply write_mem_other; try assumption.
    pose proof (ll_inside H Hlh) as Hi. rewrite Forall_forall in Hi. specialize (Hi g Hin).
    unfold in_field in Hx. lia.
  - intros q Hq. cbn [s2 bytes]. apply write_mem_other; try assumption. unfold tb_as_ptr in Hq. fold p in Hq. lia.
Qed.

(** Assigning [7] to one of two boxes: the other one keeps its value, the tag is unchanged. *)
Example C17_example : let E := bump_env dbg60 in
  result ((w1 <- tb_new E U_u32 v_u32 3 ;; w2 <- tb_new E U_str v_str 4 ;;
           tb_assign E U_u32 w1 [le_bytes 4 7] ;;
           v1 <- tb_as_ref E U_u32 w1 ;; v2 <- tb_as_ref E U_str w2 ;;
           ret (v1, v2, tb_discriminant E w1)) st0) = Some ([le_bytes 4 7], v_str, 3).
Proof. vm_compute. reflexivity. Qed.

(** ** C18 into_box hands over ownership exactly *)

Lemma remove_block_split b l : In b l -> exists pre post, l = pre ++ [b] ++ post /\ remove_block b l = pre ++ post.
Proof.
  induction l as [|a l IH]; [intros []|]. cbn [In remove_block]. destruct (block_eqb a b) eqn:Eq.
  - apply block_eqb_eq in Eq. subst a. intros _. exists [], l. auto.
  - intros [->|H]; [rewrite (proj2 (block_eqb_eq b b) eq_refl) in Eq; discriminate Eq|].
    destruct (IH H) as (pre & post & -> & ->). exists (a :: pre), post. auto.
Qed.

(** [into_box] then looking at and dropping the [Box], in any later state where the box's memory
    and block are undisturbed: one run of the destructors, one deallocation with the layout of the
    allocation, or none for zero-sized types. *)
Theorem C18_into_box : forall E U val d s w s1 s2, env_ok E -> layout_legal U -> hval_ok U val ->
  d <= max_discriminant (cfg (tgt E)) -> tb_new E U val d s = Ok w s1 -> keeps s1 s2 ->
  rbox_get U (tb_into_box E w) s2 = Ok val s2 /\
  exists s3, rbox_drop U (tb_into_box E w) s2 = Ok tt s3 /\
    destroyed (events s3) = destroyed (events s2) ++ destructors U val /\
    deallocations (events s3) = deallocations (events s2) ++ (if h_size U =? 0 then [] else [(h_size U, h_align U)]) /\
    allocations (events s3) = allocations (events s2) /\
    (s2 = s1 -> blocks s3 = blocks s) /\ bytes s3 = bytes s2 /\
    exists pre post, blocks s2 = pre ++ (if h_size U =? 0 then [] else [Block (tb_as_ptr E w) (h_size U) (h_align U)]) ++ post /\
      blocks s3 = pre ++ post.
Proof.
  intros E U val d s w s1 s2 HE Hl Hv Hd Hn Hk.
  pose proof (C15_into_inner E U val d s w s1 s2 HE Hl Hv Hd Hn Hk) as Hr.
  pose proof (C14_allocation E U val d s w s1 HE Hl Hv Hd Hn) as (_ & _ & _ & _ & Hb & _).
  unfold tb_into_inner, tb_as_mut_ptr in Hr. unfold tb_into_box, tb_into_raw, rbox_get.
  split; [exact Hr|]. unfold rbox_drop, bind. rewrite Hr. cbn [drop_hval]. fold (dropped U val s2).
  destruct (drop_events_spec (h_types U) val) as (_ & D2 & D3).
  unfold tb_as_ptr in Hb. change (tp_as_ptr (tgt E) w) with (tp_as_mut_ptr (tgt E) w) in Hb.
  destruct (h_size U =? 0) eqn:Z.
  - exists (dropped U val s2). split; [reflexivity|]. cbn [dropped events blocks].
    rewrite destroyed_app, destroyed_drop, deallocations_app, allocations_app, D2, D3, !app_nil_r.
    do 3 (split; [reflexivity|]). split; [intros ->; exact Hb|]. split; [reflexivity|]. exists [], (blocks s2). auto.
  - rewrite dealloc_ok.
    + eexists. split; [reflexivity|]. cbn [dropped events blocks].
      rewrite !destroyed_app, destroyed_drop, !deallocations_app, !allocations_app, D2, D3, !app_nil_r.
      cbn [destroyed allocations deallocations app]. rewrite ?app_nil_r.
      do 3 (split; [reflexivity|]). split; [intros ->; rewrite Hb; apply remove_block_head|]. split; [reflexivity|].
      unfold tb_as_ptr. change (tp_as_ptr (tgt E) w) with (tp_as_mut_ptr (tgt E) w). apply remove_block_split. apply Hk. rewrite Hb. left. reflexivity.
    + cbn [dropped blocks]. apply Hk. rewrite Hb. left. reflexivity.
Qed.

Example C18_example : let E := bump_env dbg60 in
  let r := (w <- tb_new E U_str v_str 4 ;; rbox_drop U_str (tb_into_box E w)) st0 in
  log_of r = [EvAlloc 4096 24 8; EvDrop "String" a_string; EvDealloc 4096 24 8] /\ blocks_of r = [] /\ result r = Some tt.
Proof. vm_compute. auto. Qed.

(** ** C19 Failure paths of new *)

Theorem C19_null : forall E U val d s, h_size U <> 0 -> alloc_fn E s (h_size U) (h_align U) = None ->
  exists s', tb_new E U val d s = Panicked PanicNullAlloc s' /\ blocks s' = blocks s /\ bytes s' = bytes s /\
    destroyed (events s') = destroyed (events s) ++ destructors U val /\
    allocations (events s') = allocations (events s).
Proof.
  intros E U val d s Hs Hn. exists (dropped U val s). rewrite (tb_new_null E U val d s Hs Hn).
  destruct (drop_events_spec (h_types U) val) as (_ & D2 & D3). cbn [dropped events blocks bytes].
  rewrite destroyed_app, destroyed_drop, allocations_app, D2, app_nil_r. auto.
Qed.

(** Out of range with debug assertions: a panic with the block allocated and still live, holding the
    value, nothing destroyed. *)
Theorem C19_out_of_range : forall E U val d s p, target_ok (tgt E) -> alloc_ok E -> layout_legal U -> hval_ok U val ->
  debug_assertions (tgt E) = true -> h_size U <> 0 -> alloc_fn E s (h_size U) (h_align U) = Some p ->
  max_discriminant (cfg (tgt E)) < d \/ 2 ^ pointer_width (cfg (tgt E)) <= p ->
  exists m s', tb_new E U val d s = Panicked m s' /\ blocks s' = Block p (h_size U) (h_align U) :: blocks s /\
    destroyed (events s') = destroyed (events s) /\ deallocations (events s') = deallocations (events s) /\
    read_at U p s' = Ok val s'.
Proof.
  intros E U val d s p Ht Ha Hl Hv Hdbg Hs Hp Hr.
  destruct (proj2 (C05_panics_debug _ p d Ht Hdbg) Hr) as [m Hm].
  exists m, (stored U p val s). rewrite (tb_new_some E Ha U val d s p Hl Hs Hp), Hm.
  split; [reflexivity|]. cbn [stored blocks events]. rewrite destroyed_app, deallocations_app.
  cbn [destroyed deallocations]. rewrite !app_nil_r. do 3 (split; [reflexivity|]).
  apply (stored_read E Ha); assumption.
Qed.

(** Zero-sized types: no discriminant ever panics; it is silently reduced. *)
Theorem C19_zst_never_panics : forall E U val d s, target_ok (tgt E) -> layout_legal U -> h_size U = 0 ->
  exists w s', tb_new E U val d s = Ok w s' /\
    tb_discriminant E w = d mod 2 ^ discriminant_bits (cfg (tgt E)).
Proof.
  intros E U val d s Ht Hl Hs. rewrite (tb_new_zst E U val d s Hs). do 2 eexists. split; [reflexivity|].
  destruct (C09_dangling _ (h_align U) d Ht (ll_align U Hl)) as (_ & _ & _ & _ & H & _). exact H.
Qed.

Example C19_example :
  (let r := tb_new (Env dbg60 no_memory reprC) U_str v_str 4 st0 in
   panic_of r = Some PanicNullAlloc /\ log_of r = [EvDrop "String" a_string]) /\
  (let r := tb_new (bump_env dbg60) U_str v_str 16 st0 in
   panic_of r = Some (PanicDiscriminant 16 15) /\ blocks_of r = [Block 4096 24 8]) /\
  result ((w <- tb_new (bump_env dbg60) U_guard v_guard 17 ;; ret (tb_discriminant (bump_env dbg60) w)) st0) = Some 1.
Proof. vm_compute. auto. Qed.

(** ** C20 new_unchecked behaves as new *)

Theorem C20_unchecked : forall E U val d s, tb_new_unchecked E U val d s = tb_new E U val d s.
Proof. intros. reflexivity. Qed.

(** "Unchecked" still panics. *)
Example C20_example :
  panic_of (tb_new_unchecked (bump_env dbg60) U_str v_str 16 st0) = Some (PanicDiscriminant 16 15).
Proof. vm_compute. reflexivity. Qed.

(** ** C21 Each value is destroyed exactly once *)

(** The client program: box a value, move it out again, let it go out of scope. *)
Definition box_unbox_drop (E : env) (U : hty) (val : hval) (d : N) : M unit :=
  w <- tb_new E U val d ;;
  v <- tb_into_inner E U w ;;
  drop_hval U v.

(** Exact count: the value is destroyed twice when it is zero-sized, once otherwise. *)
Theorem C21_count : forall E U val d s s', env_ok E -> layout_legal U -> hval_ok U val ->
  d <= max_discriminant (cfg (tgt E)) -> box_unbox_drop E U val d s = Ok tt s' ->
  destroyed (events s') = destroyed (events s) ++ (if h_size U =? 0 then destructors U val else []) ++ destructors U val.
Proof.
  intros E U val d s s' [Ht Ha Hf _] Hl Hv Hd. unfold box_unbox_drop, bind.
  destruct (tb_new_spec E Ht Ha U val d s Hf Hl Hv Hd) as [(Hs & w & H1 & _ & _ & _ & (_ & _ & H3))|[(_ & _ & H1)|(Hs & p & w & _ & H1 & _ & _ & _ & (_ & _ & H3))]];
    rewrite H1; try discriminate; rewrite H3; intros X; injection X as <-; cbn [events].
  - rewrite Hs. cbn [N.eqb dropped events]. rewrite !destroyed_app, !destroyed_drop, app_assoc. reflexivity.
  - destruct (N.eqb_spec (h_size U) 0); [contradiction|]. cbn [stored events].
    rewrite !destroyed_app, destroyed_drop. cbn [destroyed app]. rewrite app_nil_r. reflexivity.
Qed.

(** Once, unless zero-sized. *)
Theorem C21_once : forall E U val d s s', env_ok E -> layout_legal U -> hval_ok U val ->
  d <= max_discriminant (cfg (tgt E)) -> h_size U <> 0 -> box_unbox_drop E U val d s = Ok tt s' ->
  destroyed (events s') = destroyed (events s) ++ destructors U val.
Proof.
  intros E U val d s s' HE Hl Hv Hd Hs Hr. rewrite (C21_count E U val d s s') by assumption.
  destruct (N.eqb_spec (h_size U) 0); [contradiction|reflexivity].
Qed.

(** "Always once" is refuted: a zero-sized guard is destroyed twice. *)
Theorem C21_refuted : ~ forall E U val d s s', env_ok E -> layout_legal U -> hval_ok U val ->
  d <= max_discriminant (cfg (tgt E)) -> box_unbox_drop E U val d s = Ok tt s' ->
  destroyed (events s') = destroyed (events s) ++ destructors U val.
Proof.
  intros H. specialize (H (bump_env dbg60) U_guard v_guard 3 st0 (St (fun _ => Undef) [] [EvDrop "Guard" []; EvDrop "Guard" []])).
  assert (X : [("Guard"%string, @nil mbyte); ("Guard"%string, [])] = [("Guard"%string, [])]).
  { apply H.
    - apply bump_env_ok, example_targets_ok.
    - apply example_values_ok.
    - apply example_values_ok.
    - vm_compute. discriminate.
    - vm_compute. reflexivity. }
  discriminate X.
Qed.

Example C21_example :
  destroyed (log_of (box_unbox_drop (bump_env dbg60) U_str v_str 3 st0)) = [("String"%string, a_string)].
Proof. vm_compute. reflexivity. Qed.

(** ** C22 Box-like reclamation *)

(** What a user of a Box-like type expects: letting go of the box, or moving the value out, gives the
    block back. *)
Definition reclaims (E : env) (U : hty) (after : tagged_ptr -> M unit) : Prop :=
  forall val d s w s1 s2, hval_ok U val -> d <= max_discriminant (cfg (tgt E)) ->
  tb_new E U val d s = Ok w s1 -> after w s1 = Ok tt s2 -> blocks s2 = blocks s.

Definition move_out (E : env) (U : hty) (w : tagged_ptr) : M unit := v <- tb_into_inner E U w ;; drop_hval U v.

(** The crate never does, for any type that occupies memory: the block stays live for ever. *)
Theorem C22_leaks : forall E U val d s w s1, env_ok E -> layout_legal U -> hval_ok U val -> h_size U <> 0 ->
  d <= max_discriminant (cfg (tgt E)) -> tb_new E U val d s = Ok w s1 ->
  exists s2 s3, tb_drop w s1 = Ok tt s2 /\ move_out E U w s1 = Ok tt s3 /\
    blocks s2 = Block (tb_as_ptr E w) (h_size U) (h_align U) :: blocks s /\
    blocks s3 = Block (tb_as_ptr E w) (h_size U) (h_align U) :: blocks s /\
    events s2 = events s1 /\ deallocations (events s3) = deallocations (events s).
Proof.
  intros E U val d s w s1 HE Hl Hv Hs Hd Hn.
  pose proof (C15_into_inner E U val d s w s1 s1 HE Hl Hv Hd Hn (keeps_refl s1)) as Hr.
  pose proof (C14_allocation E U val d s w s1 HE Hl Hv Hd Hn) as (_ & Hde & _ & _ & Hb & _).
  destruct (N.eqb_spec (h_size U) 0); [contradiction|].
  exists s1, (dropped U val s1). split; [reflexivity|]. split.
  - unfold move_out, bind. rewrite Hr. reflexivity.
  - cbn [dropped blocks events]. rewrite deallocations_app.
    destruct (drop_events_spec (h_types U) val) as (_ & _ & D3). rewrite D3, app_nil_r. auto.
Qed.

Theorem C22_refuted : exists E U, env_ok E /\ layout_legal U /\
  ~ reclaims E U tb_drop /\ ~ reclaims E U (move_out E U).
Proof.
  exists (bump_env dbg60), U_str. pose proof example_values_ok as (_ & _ & L & V & _).
  assert (HE : env_ok (bump_env dbg60)) by apply bump_env_ok, example_targets_ok.
  assert (D : 4 <= max_discriminant (cfg (tgt (bump_env dbg60)))) by (vm_compute; discriminate).
  assert (exists w s1, tb_new (bump_env dbg60) U_str v_str 4 st0 = Ok w s1) as (w & s1 & Hn).
  { destruct (tb_new (bump_env dbg60) U_str v_str 4 st0) as [w s1|p s1|u] eqn:R; [eauto| |];
      apply (f_equal result) in R; vm_compute in R; discriminate R. }
  assert (NZ : h_size U_str <> 0) by discriminate.
  destruct (C22_leaks _ U_str v_str 4 st0 w s1 HE L V NZ D Hn) as (s2 & s3 & H2 & H3 & B2 & B3 & _).
  split; [exact HE|]. split; [exact L|]. split; intros R.
  - specialize (R v_str 4 st0 w s1 s2 V D Hn H2). rewrite B2 in R. discriminate R.
  - specialize (R v_str 4 st0 w s1 s3 V D Hn H3). rewrite B3 in R. discriminate R.
Qed.

(** Only a zero-sized type has nothing to give back. *)
Theorem C22_zst : forall E U, env_ok E -> layout_legal U -> h_size U = 0 ->
  reclaims E U tb_drop /\ reclaims E U (move_out E U).
Proof.
  intros E U HE Hl Hs. split; intros val d s w s1 s2 Hv Hd Hn Ha;
    pose proof (C14_allocation E U val d s w s1 HE Hl Hv Hd Hn) as (_ & _ & _ & _ & Hb & _);
    rewrite Hs in Hb; cbn [N.eqb app] in Hb.
  - injection Ha as <-. exact Hb.
  - pose proof (C15_into_inner E U val d s w s1 s1 HE Hl Hv Hd Hn (keeps_refl s1)) as Hr.
    unfold move_out, bind in Ha. rewrite Hr in Ha. injection Ha as <-. exact Hb.
Qed.

Example C22_example : let E := bump_env dbg60 in
  blocks_of ((w <- tb_new E U_str v_str 4 ;; move_out E U_str w) st0) = [Block 4096 24 8].
Proof. vm_compute. reflexivity. Qed.

(** ** C42 Addresses above the reserved width *)

(** If the allocator hands out an address the setting has no room for: with debug assertions a panic
    (leaking block and value, see C19); without, [new] returns a box whose address is cut off and whose
    tag has the address's high bits mixed in; nothing reports it. *)
Theorem C42_release_truncates : forall E U val d s p, target_ok (tgt E) -> alloc_ok E -> layout_legal U ->
  debug_assertions (tgt E) = false -> h_size U <> 0 -> alloc_fn E s (h_size U) (h_align U) = Some p ->
  2 ^ pointer_width (cfg (tgt E)) <= p ->
  exists w s', tb_new E U val d s = Ok w s' /\ tb_as_ptr E w <> p /\
    tb_as_u64 E w = p mod 2 ^ pointer_width (cfg (tgt E)) /\
    tb_discriminant E w = N.lor (p / 2 ^ pointer_width (cfg (tgt E))) (d mod 2 ^ discriminant_bits (cfg (tgt E))).
Proof.
  intros E U val d s p Ht Ha Hl Hr Hs Hp Hbig.
  assert (Hlt : p < 2 ^ ptr_bits (tgt E)) by (eapply (alloc_lt E Ha); [|apply ll_align, Hl|exact Hp]; lia).
  assert (H64 : fits 64 p).
  { unfold fits. eapply N.lt_le_trans; [exact Hlt|]. apply N.pow_le_mono_r; [discriminate|].
    destruct (proj2 Ht) as [-> | ->]; lia. }
  destruct (C08_release _ p d Ht Hr H64) as (w & H1 & _ & H2 & H3 & _).
  exists w, (stored U p val s). rewrite (tb_new_some E Ha U val d s p Hl Hs Hp), H1.
  split; [reflexivity|]. split; [|auto]. unfold tb_as_ptr, tp_as_ptr.
  unfold tp_as_u64 in H2. rewrite H2. unfold cast.
  assert (W : 2 ^ pointer_width (cfg (tgt E)) <> 0) by (apply N.pow_nonzero; discriminate).
  assert (B : 2 ^ ptr_bits (tgt E) <> 0) by (apply N.pow_nonzero; discriminate).
  pose proof (N.mod_lt p _ W). pose proof (N.mod_le (p mod 2 ^ pointer_width (cfg (tgt E))) _ B).
  lia.
Qed.

(** An allocator placing blocks at 2^60 + 4096 upwards: legal for a 64-bit machine, too high for 60bits. *)
Definition high_bump : allocator := fun s size align =>
  match bump s size align with
  | Some p => if forallb (fun b => b_base b + b_size b <=? 2 ^ 60) (blocks s) then Some (2 ^ 60 + p) else None
  | None => None
  end.

Lemma high_bump_ok : alloc_ok (Env rel60 high_bump reprC).
Proof.
  intros s size align p Hs Ha H.
  assert (Hb : exists q, bump s size align = Some q /\ p = 2 ^ 60 + q /\
    forallb (fun b => b_base b + b_size b <=? 2 ^ 60) (blocks s) = true).
  { unfold alloc_fn, high_bump in H. destruct (bump s size align) as [q|]; [|discriminate].
    destruct (forallb _ _) eqn:F; [|discriminate]. exists q. split; [reflexivity|]. split; [congruence|reflexivity]. }
  destruct Hb as (q & Hq & -> & F). destruct (bump_ok rel60 reprC (proj1 (proj2 example_targets_ok))) as [Hok _].
  assert (Q31 : q + size <= 2 ^ 31).
  { unfold bump in Hq. destruct (N.leb_spec (align_up (top (blocks s)) align + size) (2 ^ 31)); [|discriminate].
    injection Hq as <-. assumption. }
  destruct (Hok s size align q Hs Ha Hq) as (H1 & H2 & H3 & H4).
  split; [intros Z; apply H1; revert Z; clear; generalize (2 ^ 60); intros; lia|]. split; [|split].
  - destruct Ha as (k & Hk & ->). replace 60 with (60 - k + k) by lia. rewrite N.pow_add_r, N.add_comm.
    rewrite N.mod_add by (apply N.pow_nonzero; discriminate). exact H2.
  - assert (X : 2 ^ 60 + 2 ^ 31 <= 2 ^ ptr_bits (tgt (Env rel60 high_bump reprC))) by (vm_compute; discriminate).
    generalize dependent (2 ^ ptr_bits (tgt (Env rel60 high_bump reprC))).
    clear - Q31. generalize dependent (2 ^ 60). generalize dependent (2 ^ 31). intros. lia.
  - intros b Hb. right. rewrite forallb_forall in F. specialize (F b Hb). apply N.leb_le in F.
    revert F. clear. generalize (2 ^ 60). intros. lia.
Qed.

Example C42_example : let E := Env rel60 high_bump reprC in
  result ((w <- tb_new E U_str v_str 2 ;; ret (tb_as_ptr E w, tb_discriminant E w)) st0) = Some (4096, 3) /\
  ub_of ((w <- tb_new E U_str v_str 2 ;; tb_as_ref E U_str w) st0) = Some UbOutOfBlock.
Proof. vm_compute. auto. Qed.

(** ** Instances: each theorem applied to a concrete case that meets its hypotheses *)

(** A box of a string with tag 9 in an empty heap. *)
Lemma a_box : exists w s, tb_new (bump_env dbg60) U_str v_str 9 st0 = Ok w s /\ w = 0x9000000000001000 /\
  blocks s = [Block 4096 24 8] /\ events s = [EvAlloc 4096 24 8].
Proof.
  destruct (tb_new (bump_env dbg60) U_str v_str 9 st0) as [w s|p s|u] eqn:R.
  - pose proof (f_equal result R) as R1. pose proof (f_equal blocks_of R) as R2. pose proof (f_equal log_of R) as R3.
    cbn [result blocks_of log_of] in R1, R2, R3. exists w, s. split; [reflexivity|].
    split; [injection R1 as <-; vm_compute; reflexivity|]. split; [rewrite <- R2|rewrite <- R3]; vm_compute; reflexivity.
  - apply (f_equal result) in R. vm_compute in R. discriminate R.
  - apply (f_equal result) in R. vm_compute in R. discriminate R.
Qed.

Lemma a_box_env : env_ok (bump_env dbg60) /\ layout_legal U_str /\ hval_ok U_str v_str /\ h_size U_str <> 0 /\
  9 <= max_discriminant (cfg (tgt (bump_env dbg60))) /\ target_ok (tgt (bump_env dbg60)).
Proof.
  split; [apply bump_env_ok, example_targets_ok|]. split; [apply example_values_ok|]. split; [apply example_values_ok|].
  split; [discriminate|]. split; [vm_compute; discriminate|apply example_targets_ok].
Qed.

Example C10_box_fmt_example :
  read_text (radix_notation LowerHex) (opts_w "*" ACenter 9) (tb_fmt (bump_env dbg60) LowerHex (opts_w "*" ACenter 9) 0x9000000000001000) = Some 0x1000.
Proof. apply (C10_box_fmt (bump_env dbg60)); [apply example_targets_ok|vm_compute; reflexivity]. Qed.

Example C13_new_read_example : exists w s, tb_new (bump_env dbg60) U_str v_str 9 st0 = Ok w s /\
  tb_discriminant (bump_env dbg60) w = 9 /\ box_holds (bump_env dbg60) s U_str w v_str.
Proof.
  destruct a_box_env as (HE & L & V & _ & D & _).
  destruct (C13_new_read _ _ _ _ st0 HE L V D) as [H|(_ & F & _)]; [exact H|]. vm_compute in F. discriminate F.
Qed.

Example C14_allocation_example : exists w s, tb_new (bump_env dbg60) U_str v_str 9 st0 = Ok w s /\
  allocations (events s) = [(24, 8)] /\ tb_as_ptr (bump_env dbg60) w <> 0.
Proof.
  destruct a_box as (w & s & H & _), a_box_env as (HE & L & V & _ & D & _). exists w, s. split; [exact H|].
  destruct (C14_allocation _ _ _ _ _ _ _ HE L V D H) as (A & _ & P & _). split; [exact A|exact P].
Qed.

Example C15_into_inner_example : exists w s, tb_new (bump_env dbg60) U_str v_str 9 st0 = Ok w s /\
  tb_into_inner (bump_env dbg60) U_str w s = Ok v_str s.
Proof.
  destruct a_box as (w & s & H & _), a_box_env as (HE & L & V & _ & D & _). exists w, s. split; [exact H|].
  exact (C15_into_inner _ _ _ _ _ _ _ _ HE L V D H (keeps_refl s)).
Qed.

Example C16_from_into_example : tb_from_raw (bump_env dbg60) (tb_into_raw (bump_env dbg60) 0x9000000000001000) 9 st0 = Ok 0x9000000000001000 st0.
Proof. apply (C16_from_into (bump_env dbg60)); [apply a_box_env|reflexivity|vm_compute; discriminate|reflexivity]. Qed.

Example C16_into_from_example : exists w, tb_from_raw (bump_env dbg60) 0x1000 9 st0 = Ok w st0 /\
  tb_into_raw (bump_env dbg60) w = 0x1000 /\ tb_discriminant (bump_env dbg60) w = 9.
Proof. apply C16_into_from; [apply a_box_env|vm_compute; discriminate|reflexivity|apply a_box_env]. Qed.

Example C16_from_into_64_example : tb_from_raw (bump_env dbg60) (tb_into_raw (bump_env dbg60) 0x9000000000001000) 9 st0 = Ok 0x9000000000001000 st0.
Proof. apply (C16_from_into_64 (bump_env dbg60)); [apply a_box_env|reflexivity|reflexivity|vm_compute; discriminate]. Qed.

Definition another_string : hval := [le_bytes 8 0x8000 ++ le_bytes 8 1 ++ le_bytes 8 1].

Lemma another_string_ok : hval_ok U_str another_string.
Proof. constructor; [split; vm_compute; reflexivity|constructor]. Qed.

Example C17_assign_example : exists w s s', tb_new (bump_env dbg60) U_str v_str 9 st0 = Ok w s /\
  tb_assign (bump_env dbg60) U_str w another_string s = Ok tt s' /\ box_holds (bump_env dbg60) s' U_str w another_string /\
  destroyed (events s') = destroyed (events s) ++ [("String"%string, a_string)].
Proof.
  destruct C13_new_read_example as (w & s & H & _ & B), a_box_env as (HE & L & _).
  destruct (C17_assign _ _ _ _ _ _ HE L another_string_ok B) as (s' & A1 & A2 & _ & A3 & _).
  exists w, s, s'. split; [exact H|]. split; [exact A1|]. split; [exact A2|exact A3].
Qed.

Example C17_modify_example : exists w s s', tb_new (bump_env dbg60) U_str v_str 9 st0 = Ok w s /\
  tb_modify (bump_env dbg60) U_str w (fun _ => another_string) s = Ok tt s' /\
  box_holds (bump_env dbg60) s' U_str w another_string /\ events s' = events s.
Proof.
  destruct C13_new_read_example as (w & s & H & _ & B), a_box_env as (HE & L & _).
  destruct (C17_modify _ _ _ _ (fun _ => another_string) _ HE L another_string_ok B) as (s' & A1 & A2 & _ & A3 & _).
  exists w, s, s'. split; [exact H|]. split; [exact A1|]. split; [exact A2|exact A3].
Qed.

Example C18_into_box_example : exists w s s', tb_new (bump_env dbg60) U_str v_str 9 st0 = Ok w s /\
  rbox_drop U_str (tb_into_box (bump_env dbg60) w) s = Ok tt s' /\ blocks s' = [] /\
  destroyed (events s') = [("String"%string, a_string)] /\ deallocations (events s') = [(24, 8)].
Proof.
  destruct a_box as (w & s & H & _ & _ & Ev), a_box_env as (HE & L & V & _ & D & _).
  destruct (C18_into_box _ _ _ _ _ _ _ _ HE L V D H (keeps_refl s)) as (_ & s' & A1 & A2 & A3 & _ & A4 & _).
  exists w, s, s'. split; [exact H|]. split; [exact A1|]. split; [apply A4; reflexivity|].
  rewrite A2, A3, Ev. split; reflexivity.
Qed.

Example C19_null_example : exists s, tb_new (Env dbg60 no_memory reprC) U_str v_str 9 st0 = Panicked PanicNullAlloc s /\
  blocks s = [] /\ destroyed (events s) = [("String"%string, a_string)].
Proof.
  destruct (C19_null (Env dbg60 no_memory reprC) U_str v_str 9 st0) as (s & H1 & H2 & _ & H3 & _); [discriminate|reflexivity|].
  exists s. split; [exact H1|]. split; [exact H2|exact H3].
Qed.

Example C19_out_of_range_example : exists m s, tb_new (bump_env dbg60) U_str v_str 16 st0 = Panicked m s /\
  blocks s = [Block 4096 24 8] /\ read_at U_str 4096 s = Ok v_str s.
Proof.
  destruct a_box_env as (HE & L & V & NZ & _ & T).
  destruct (C19_out_of_range (bump_env dbg60) U_str v_str 16 st0 4096) as (m & s & H1 & H2 & _ & _ & H3);
    [exact T|apply HE|exact L|exact V|reflexivity|exact NZ|vm_compute; reflexivity|left; reflexivity|].
  exists m, s. split; [exact H1|]. split; [exact H2|exact H3].
Qed.

Example C19_zst_never_panics_example : exists w s, tb_new (bump_env dbg60) U_guard v_guard 17 st0 = Ok w s /\
  tb_discriminant (bump_env dbg60) w = 17 mod 2 ^ 4.
Proof. apply C19_zst_never_panics; [apply a_box_env|apply example_values_ok|reflexivity]. Qed.

Example C20_unchecked_example : tb_new_unchecked (bump_env dbg60) U_str v_str 9 st0 = tb_new (bump_env dbg60) U_str v_str 9 st0.
Proof. apply C20_unchecked. Qed.

Example C21_count_example : exists s, box_unbox_drop (bump_env dbg60) U_guard v_guard 9 st0 = Ok tt s /\
  destroyed (events s) = [("Guard"%string, []); ("Guard"%string, [])].
Proof.
  eexists. split; [vm_compute; reflexivity|].
  apply (C21_count (bump_env dbg60) U_guard v_guard 9 st0); [apply a_box_env|apply example_values_ok|apply example_values_ok|apply a_box_env|].
  vm_compute. reflexivity.
Qed.

Example C21_once_example : exists s, box_unbox_drop (bump_env dbg60) U_str v_str 9 st0 = Ok tt s /\
  destroyed (events s) = [("String"%string, a_string)].
Proof.
  destruct a_box as (w & s & H & _), a_box_env as (HE & L & V & NZ & D & _).
  pose proof (C15_into_inner _ _ _ _ _ _ _ _ HE L V D H (keeps_refl s)) as R.
  assert (X : box_unbox_drop (bump_env dbg60) U_str v_str 9 st0 = drop_hval U_str v_str s).
  { unfold box_unbox_drop, bind. rewrite H, R. reflexivity. }
  eexists. split; [rewrite X; reflexivity|].
  apply (C21_once (bump_env dbg60) U_str v_str 9 st0); [exact HE|exact L|exact V|exact D|exact NZ|]. rewrite X. reflexivity.
Qed.

Example C22_leaks_example : exists w s s', tb_new (bump_env dbg60) U_str v_str 9 st0 = Ok w s /\
  move_out (bump_env dbg60) U_str w s = Ok tt s' /\ blocks s' = [Block 4096 24 8].
Proof.
  destruct a_box as (w & s & H & W & _), a_box_env as (HE & L & V & NZ & D & _).
  destruct (C22_leaks _ _ _ _ _ _ _ HE L V NZ D H) as (s2 & s3 & _ & A & _ & B & _). subst w.
  exists 0x9000000000001000, s, s3. split; [exact H|]. split; [exact A|exact B].
Qed.

Example C22_zst_example : reclaims (bump_env dbg60) U_guard tb_drop.
Proof. apply C22_zst; [apply a_box_env|apply example_values_ok|reflexivity]. Qed.

Example C42_release_truncates_example : let E := Env rel60 high_bump reprC in
  exists w s, tb_new E U_str v_str 2 st0 = Ok w s /\ tb_as_ptr E w <> 2 ^ 60 + 4096 /\ tb_as_u64 E w = (2 ^ 60 + 4096) mod 2 ^ 60.
Proof.
  destruct (C42_release_truncates (Env rel60 high_bump reprC) U_str v_str 2 st0 (2 ^ 60 + 4096)) as (w & s & H1 & H2 & H3 & _);
    [apply example_targets_ok|apply high_bump_ok|apply a_box_env|reflexivity|discriminate|vm_compute; reflexivity|vm_compute; discriminate|].
  exists w, s. split; [exact H1|]. split; [exact H2|exact H3].
Qed.

Print Assumptions C10_box_fmt.
Print Assumptions C09_box.
Print Assumptions C13_new_read.
Print Assumptions C14_allocation.
Print Assumptions C15_into_inner.
Print Assumptions C16_from_into.
Print Assumptions C16_into_from.
Print Assumptions C16_from_into_64.
Print Assumptions C17_assign.
Print Assumptions C17_modify.
Print Assumptions C18_into_box.
Print Assumptions C19_null.
Print Assumptions C19_out_of_range.
Print Assumptions C19_zst_never_panics.
Print Assumptions C20_unchecked.
Print Assumptions C21_count.
Print Assumptions C21_once.
Print Assumptions C21_refuted.
Print Assumptions C22_leaks.
Print Assumptions C22_refuted.
Print Assumptions C22_zst.
Print Assumptions C42_release_truncates.
