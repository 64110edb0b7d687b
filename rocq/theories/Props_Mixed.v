(** Property C57: boxes of a [tagged_box!] enum made or taken apart by hand. *)
From Coq Require Import Arith NArith String Bool List Lia.
From Verif Require Import Words Config Spec SpecMem ConfigFacts Pointer PointerFacts Mem MemFacts Box BoxFacts Bump
  Arms Macro SpecMacro MacroFacts Rustc Props_Pointer Props_Box Props_Macro Props_Layout.
Import ListNotations.
Local Open Scope N_scope.

(** Variants with exactly one field: [V(T)] and [V { m: T }]. *)
Definition single_field (k : vkind) : option rty :=
  match k with KTuple [t] => Some t | KStruct [(_, t)] => Some t | _ => None end.

Lemma align_up_exact x a : a <> 0 -> x mod a = 0 -> align_up x a = x.
Proof.
  intros Ha Hm. unfold align_up. apply N.mod_divides in Hm as [q ->]; [|exact Ha].
  replace (a * q + a - 1) with ((a - 1) + q * a) by nia. rewrite N.div_add by exact Ha.
  rewrite N.div_small by lia. lia.
Qed.

(** A C struct of one field is laid out like the field. *)
Lemma reprC_one t : wf_ty t -> reprC [t] = leaf_hty t.
Proof.
  intros [Hp Hm]. pose proof (power_of_two_nz _ Hp) as Hz. unfold reprC, leaf_hty, max_align. cbn [reprC_fields fold_right].
  rewrite (align_up_exact 0) by (auto; apply N.mod_0_l; exact Hz). rewrite N.max_l by lia.
  rewrite align_up_exact by assumption. reflexivity.
Qed.

Lemma storage_single k t : single_field k = Some t -> wf_ty t -> storage k = Some (leaf_hty t) /\ kind_types k = [t].
Proof.
  destruct k as [|[|u [|]]|[|[m u] [|]]]; cbn [single_field storage kind_types map snd]; try discriminate;
    intros H; injection H as ->; intros Hw; [auto|].
  rewrite reprC_one by exact Hw. auto.
Qed.

Section Single.
Variables (E : env) (def : edef) (x : expansion) (i : nat) (v : string) (k : vkind) (t : rty) (val : leafval).
Hypothesis Hs : macro_setup E def x.
Hypothesis Hi : nth_error (e_variants def) i = Some (v, k).
Hypothesis Hk : single_field k = Some t.
Hypothesis Hfit : N.of_nat i <= max_discriminant (cfg (tgt E)).
Hypothesis Ht : has_type t val.

Lemma single_wf : wf_ty t.
Proof.
  pose proof (kind_types_wf def v k (ms_def _ _ _ Hs) (nth_error_In _ _ Hi)) as Hw.
  destruct k as [|[|u [|]]|[|[m u] [|]]]; cbn in Hk; try discriminate; injection Hk as ->; inversion Hw; assumption.
Qed.

Lemma single_ok : hval_ok (leaf_hty t) [val].
Proof. constructor; [exact Ht|constructor]. Qed.

Lemma single_tag : N.of_nat i mod 256 = N.of_nat i.
Proof.
  apply (fits_nth E def (ms_def _ _ _ Hs) (setup_u8 _ _ _ Hs) (ms_env _ _ _ Hs) i v k Hi). exists i, k. auto.
Qed.

(** [Item::into_tagged_box(Item::V(val))] is [TaggedBox::<Item>::new(val, i)]. *)
Lemma single_made s : e_drop def = false -> macro_into E x (EV v [val]) s = tb_new E (leaf_hty t) [val] (N.of_nat i) s.
Proof.
  intros Hdr. destruct (storage_single k t Hk single_wf) as [Es Et].
  rewrite (macro_into_eq E def x (ms_def _ _ _ Hs) (ms_expand _ _ _ Hs) i v k [val] s Hi) by (rewrite Et; reflexivity).
  rewrite Hdr. unfold at_exit, store_kind. rewrite Es, single_tag. reflexivity.
Qed.

Lemma by_hand_boxed s w s1 s2 : tb_new E (leaf_hty t) [val] (N.of_nat i) s = Ok w s1 -> keeps s1 s2 ->
  boxed E def s2 w (EV v [val]).
Proof.
  intros Hn Hkp. pose proof (ms_env _ _ _ Hs) as He.
  assert (Hl : layout_legal (leaf_hty t)) by (apply leaf_legal, single_wf).
  exists i, k. cbn [ev_variant ev_fields]. split; [exact Hi|]. rewrite (proj1 (storage_single k t Hk single_wf)).
  destruct (tb_new_spec E (eo_target _ He) (eo_alloc _ He) (leaf_hty t) [val] (N.of_nat i) s (eo_fits _ He) Hl single_ok Hfit)
    as [(_ & w' & R & D & _ & _ & B) | [(_ & _ & R) | (_ & p & w' & _ & R & D & _ & _ & B)]];
    rewrite R in Hn; try discriminate; injection Hn as <- <-;
    (split; [exact D|eapply box_holds_keeps; [exact Hl|exact Hkp|exact B]]).
Qed.

End Single.

(** Making such a box by hand, with the variant's number as discriminant, is the same as going
    through the enum. *)
Theorem C57_made : forall E def x i v k t val s, macro_setup E def x -> nth_error (e_variants def) i = Some (v, k) ->
  single_field k = Some t -> N.of_nat i <= max_discriminant (cfg (tgt E)) -> e_drop def = false ->
  container_from E x (EV v [val]) s = tb_new E (leaf_hty t) [val] (N.of_nat i) s.
Proof. intros. unfold container_from. eapply single_made; eassumption. Qed.

(** So all generated functions accept it. *)
Theorem C57_by_hand : forall E def x i v k t val s w s1 s2, macro_setup E def x ->
  nth_error (e_variants def) i = Some (v, k) -> single_field k = Some t ->
  N.of_nat i <= max_discriminant (cfg (tgt E)) -> has_type t val ->
  tb_new E (leaf_hty t) [val] (N.of_nat i) s = Ok w s1 -> keeps s1 s2 ->
  macro_into_inner E x w s2 = Ok (EV v [val]) s2 /\ macro_from E x w s2 = Ok (EV v [val]) s2 /\
  (forall S (cb : evalue -> S -> M S) c, macro_ref E x S w cb c s2 = cb (EV v [val]) c s2).
Proof.
  intros E def x i v k t val s w s1 s2 Hs Hi Hk Hfit Ht Hn Hkp.
  pose proof (by_hand_boxed E def x i v k t val Hs Hi Hk Hfit Ht s w s1 s2 Hn Hkp) as B.
  pose proof (setup_u8 _ _ _ Hs) as H8. pose proof (nth_error_In _ _ Hi) as Hin.
  split; [|split].
  - apply (boxed_into_inner E def x (ms_def _ _ _ Hs) (ms_expand _ _ _ Hs) H8), B.
  - apply (boxed_from E def x s2 w _ k Hs B Hin).
    destruct k as [|[|u [|]]|]; cbn in Hk |- *; try discriminate; intros; try contradiction; lia.
  - intros S cb c. apply (boxed_ref E def x (ms_def _ _ _ Hs) (ms_expand _ _ _ Hs) H8); [exact B|].
    right. cbn [ev_variant]. intros Hu.
    pose proof (assoc_in _ _ _ (do_names _ (ms_def _ _ _ Hs)) Hu) as A1.
    pose proof (assoc_in _ _ _ (do_names _ (ms_def _ _ _ Hs)) Hin) as A2.
    rewrite A1 in A2. injection A2 as <-. discriminate Hk.
Qed.

(** And a container's box can be taken apart by hand at the field's type. Converted to a [Box] and
    dropped, the value is destroyed once and its memory freed, which nothing else in the crate does. *)
Theorem C57_taken : forall E def x i v k t val s w s1 s2, macro_setup E def x ->
  nth_error (e_variants def) i = Some (v, k) -> single_field k = Some t ->
  N.of_nat i <= max_discriminant (cfg (tgt E)) -> e_drop def = false -> has_type t val ->
  container_from E x (EV v [val]) s = Ok w s1 -> keeps s1 s2 ->
  tb_discriminant E w = N.of_nat i /\
  tb_as_ref E (leaf_hty t) w s2 = Ok [val] s2 /\ tb_into_inner E (leaf_hty t) w s2 = Ok [val] s2 /\
  exists s3, rbox_drop (leaf_hty t) (tb_into_box E w) s2 = Ok tt s3 /\
    destroyed (events s3) = destroyed (events s2) ++ (if ty_drop t then [(ty_name t, val)] else []) /\
    (s2 = s1 -> blocks s3 = blocks s).
Proof.
  intros E def x i v k t val s w s1 s2 Hs Hi Hk Hfit Hdr Ht Hc Hkp.
  pose proof (single_made E def x i v k t val Hs Hi Hk Hfit s Hdr) as Hm. unfold container_from in Hc. rewrite Hm in Hc.
  pose proof (by_hand_boxed E def x i v k t val Hs Hi Hk Hfit Ht s w s1 s2 Hc Hkp) as (j & k' & Hj & D & B).
  assert (j = i).
  { pose proof (do_names _ (ms_def _ _ _ Hs)) as Nd. rewrite NoDup_nth_error in Nd. apply Nd.
    - rewrite map_length. apply nth_error_Some. congruence.
    - rewrite !nth_error_map, Hi, Hj. reflexivity. }
  subst j. rewrite Hi in Hj. injection Hj as <-. pose proof (single_wf E def x i v k t Hs Hi Hk) as Hw.
  rewrite (proj1 (storage_single k t Hk Hw)) in B. destruct B as (B1 & _ & B2). cbn [ev_fields] in *.
  split; [exact D|]. split; [exact B1|]. split; [exact B2|].
  destruct (C18_into_box E (leaf_hty t) [val] (N.of_nat i) s w s1 s2 (ms_env _ _ _ Hs) (leaf_legal t Hw)
              (single_ok t val Ht) Hfit Hc Hkp) as (_ & s3 & R & D1 & _ & _ & D4 & _).
  exists s3. split; [exact R|]. split; [|exact D4]. rewrite D1. f_equal. unfold destructors. cbn. destruct (ty_drop t); reflexivity.
Qed.

(** ** Several fields *)

(** By hand one would store the tuple; [from_tagged_box] reads that, for any layout of tuples. *)
Theorem C57_tuple : forall E def x i v tys vals s w s1 s2, macro_setup E def x ->
  nth_error (e_variants def) i = Some (v, KTuple tys) -> (2 <= length tys)%nat ->
  N.of_nat i <= max_discriminant (cfg (tgt E)) -> Forall2 has_type tys vals ->
  tb_new E (tuple_layout E tys) vals (N.of_nat i) s = Ok w s1 -> keeps s1 s2 ->
  macro_from E x w s2 = Ok (EV v vals) s2 /\
  (readable_as (tuple_layout E tys) (reprC tys) -> macro_into_inner E x w s2 = Ok (EV v vals) s2).
Proof.
  intros E def x i v tys vals s w s1 s2 Hs Hi Hn Hfit Ht Hb Hkp.
  pose proof (ms_env _ _ _ Hs) as He. pose proof (setup_u8 _ _ _ Hs) as H8.
  pose proof (kind_types_wf def v (KTuple tys) (ms_def _ _ _ Hs) (nth_error_In _ _ Hi)) as Hw. cbn [kind_types] in Hw.
  destruct (eo_tuples _ He tys Hw) as [Hl Hty].
  assert (Hv : hval_ok (tuple_layout E tys) vals) by (unfold hval_ok; rewrite Hty; exact Ht).
  assert (G : tb_discriminant E w = N.of_nat i /\ tb_into_inner E (tuple_layout E tys) w s2 = Ok vals s2).
  { destruct (tb_new_spec E (eo_target _ He) (eo_alloc _ He) _ vals (N.of_nat i) s (eo_fits _ He) Hl Hv Hfit)
      as [(_ & w' & R & D & _ & _ & B) | [(_ & _ & R) | (_ & p & w' & _ & R & D & _ & _ & B)]];
      rewrite R in Hb; try discriminate; injection Hb as <- <-;
      (split; [exact D|]); eapply (box_holds_keeps E _ _ _ _ _ Hl Hkp) in B; apply B. }
  destruct G as [D G]. assert (Es : storage (KTuple tys) = Some (reprC tys) /\ from_storage E (KTuple tys) = Some (tuple_layout E tys)).
  { destruct tys as [|a [|b r]]; cbn in Hn; try lia. auto. }
  destruct Es as [Es Ef]. split.
  - rewrite (macro_from_eq E def x (ms_def _ _ _ Hs) (ms_expand _ _ _ Hs) w s2 H8 (eo_tuples _ He)), D, Nnat.Nat2N.id, Hi, Ef.
    unfold bind. rewrite G. reflexivity.
  - intros Hr. rewrite (macro_into_inner_eq E def x (ms_def _ _ _ Hs) (ms_expand _ _ _ Hs) w s2 H8), D, Nnat.Nat2N.id, Hi.
    unfold read_kind. rewrite Es. unfold bind, tb_into_inner in *. rewrite (read_at_readable _ _ _ _ _ Hr G). reflexivity.
Qed.

(** But [into_inner] of the container reads a C struct: with rustc's layout of tuples it returns
    another value, without any error. *)
Theorem C57_refuted : ~ forall E def x i v tys vals s w s1, macro_setup E def x ->
  nth_error (e_variants def) i = Some (v, KTuple tys) -> (2 <= length tys)%nat ->
  N.of_nat i <= max_discriminant (cfg (tgt E)) -> Forall2 has_type tys vals ->
  tb_new E (tuple_layout E tys) vals (N.of_nat i) s = Ok w s1 ->
  macro_into_inner E x w s1 = Ok (EV v vals) s1.
Proof.
  intros H. set (vals := [[Byte 1]; [Byte 2]; le_bytes 2 0x0403; [Byte 5]]).
  set (tys := [ty_u8; ty_u8; ty_u16; ty_u8]).
  destruct (tb_new (rustc_env dbg60) (rustc_tuple tys) vals 0 st0) as [w s1| |] eqn:R.
  2, 3: vm_compute in R; discriminate R.
  specialize (H (rustc_env dbg60) shuffled shuffled_x O "Bytes"%string tys vals st0 w s1 shuffled_setup eq_refl).
  cbn [length tys] in H. specialize (H ltac:(lia) ltac:(discriminate)).
  specialize (H ltac:(repeat constructor) R).
  assert (F : result (bind (tb_new (rustc_env dbg60) (rustc_tuple tys) vals 0) (macro_into_inner (rustc_env dbg60) shuffled_x) st0) =
    Some (EV "Bytes" [[Byte 3]; [Byte 4]; le_bytes 2 0x0201; [Byte 5]])) by (vm_compute; reflexivity).
  unfold bind in F. rewrite R, H in F. discriminate F.
Qed.

(** ** Examples *)

(** A string box made by hand, read as the enum; a container's box turned into a [Box<String>] and
    dropped: one destructor, nothing left on the heap. *)
Example C57_example :
  let E := bump_env dbg60 in
  macro_setup E item item_x /\ nth_error (e_variants item) 2 = Some ("Text"%string, KTuple [ty_string]) /\
  single_field (KTuple [ty_string]) = Some ty_string /\ 2 <= max_discriminant (cfg (tgt E)) /\ e_drop item = false /\
  has_type ty_string a_string /\
  result (bind (tb_new E (leaf_hty ty_string) [a_string] 2) (macro_into_inner E item_x) st0) = Some v_text /\
  match bind (container_from E item_x v_text) (fun w => rbox_drop (leaf_hty ty_string) (tb_into_box E w)) st0 with
  | Ok _ s => blocks s = [] /\ destroyed (events s) = [("String"%string, a_string)] /\ length (allocations (events s)) = 1%nat
  | _ => False
  end.
Proof.
  split; [exact item_setup|]. split; [reflexivity|]. split; [reflexivity|]. split; [discriminate|]. split; [reflexivity|].
  split; [repeat constructor|]. split; vm_compute; auto.
Qed.

(** Under rustc's layout the hand-made tuple survives [from_tagged_box]. *)
Example C57_example_tuple :
  let E := rustc_env dbg60 in let tys := [ty_u8; ty_u8; ty_u16; ty_u8] in
  let vals := [[Byte 1]; [Byte 2]; le_bytes 2 0x0403; [Byte 5]] in
  macro_setup E shuffled shuffled_x /\ nth_error (e_variants shuffled) 0 = Some ("Bytes"%string, KTuple tys) /\
  0 <= max_discriminant (cfg (tgt E)) /\ Forall2 has_type tys vals /\
  result (bind (tb_new E (tuple_layout E tys) vals 0) (macro_from E shuffled_x) st0) = Some (EV "Bytes" vals) /\
  readable_as (tuple_layout (bump_env dbg60) tys) (reprC tys).
Proof.
  split; [exact shuffled_setup|]. split; [reflexivity|]. split; [discriminate|]. split; [repeat constructor|].
  split; [vm_compute; reflexivity|]. repeat split; cbn; lia.
Qed.

(** ** Instances: each theorem applied to a concrete case that meets its hypotheses *)

Example C57_made_example : container_from (bump_env dbg60) item_x v_text st0 = tb_new (bump_env dbg60) (leaf_hty ty_string) [a_string] 2 st0.
Proof.
  destruct C57_example as (S & I & K & D & N & _). exact (C57_made _ _ _ _ _ _ _ a_string st0 S I K D N).
Qed.

Example C57_by_hand_example : exists w s, tb_new (bump_env dbg60) (leaf_hty ty_string) [a_string] 2 st0 = Ok w s /\
  macro_into_inner (bump_env dbg60) item_x w s = Ok v_text s /\ macro_from (bump_env dbg60) item_x w s = Ok v_text s.
Proof.
  destruct C57_example as (S & I & K & D & N & T & _). destruct two_boxes as (w & s & _ & _ & H & _).
  rewrite C57_made_example in H. exists w, s. split; [exact H|].
  destruct (C57_by_hand _ _ _ _ _ _ _ _ _ _ _ s S I K D T H (keeps_refl s)) as (A & B & _). auto.
Qed.

Example C57_taken_example : exists w s s3, container_from (bump_env dbg60) item_x v_text st0 = Ok w s /\
  tb_discriminant (bump_env dbg60) w = 2 /\ rbox_drop (leaf_hty ty_string) (tb_into_box (bump_env dbg60) w) s = Ok tt s3 /\
  blocks s3 = [].
Proof.
  destruct C57_example as (S & I & K & D & N & T & _). destruct two_boxes as (w & s & _ & _ & H & _).
  destruct (C57_taken _ _ _ _ _ _ _ _ _ _ _ s S I K D N T H (keeps_refl s)) as (A & _ & _ & s3 & B & _ & C).
  exists w, s, s3. split; [exact H|]. split; [exact A|]. split; [exact B|]. apply C. reflexivity.
Qed.

Example C57_tuple_example : let vals := [[Byte 1]; [Byte 2]; le_bytes 2 0x0403; [Byte 5]] in
  exists w s, tb_new (rustc_env dbg60) (tuple_layout (rustc_env dbg60) [ty_u8; ty_u8; ty_u16; ty_u8]) vals 0 st0 = Ok w s /\
  macro_from (rustc_env dbg60) shuffled_x w s = Ok (EV "Bytes" vals) s.
Proof.
  intros vals. destruct C57_example_tuple as (S & I & D & T & R & _).
  destruct (tb_new (rustc_env dbg60) (tuple_layout (rustc_env dbg60) [ty_u8; ty_u8; ty_u16; ty_u8]) vals 0 st0) as [w s|p s|u] eqn:H;
    unfold bind in R; fold vals in R; rewrite H in R; try discriminate R.
  exists w, s. split; [reflexivity|].
  refine (proj1 (C57_tuple _ _ _ _ _ _ _ _ _ _ s S I _ D T H (keeps_refl s))). cbn. lia.
Qed.

Print Assumptions C57_made.
Print Assumptions C57_by_hand.
Print Assumptions C57_taken.
Print Assumptions C57_tuple.
Print Assumptions C57_refuted.
