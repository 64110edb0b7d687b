(** Properties C01-C12: settings, tagged pointers, their formatting. *)
From Coq Require Import NArith String Ascii Bool List Lia.
From Verif Require Import Words Config Spec ConfigFacts Pointer PointerFacts Fmt SpecFmt FmtFacts.
Import ListNotations.
Local Open Scope N_scope.

(** Example targets used below: the default setting (60 bits) and the 48-bit setting. *)
Definition cfg60 : config := Config "tagged_box_reserve_60bits" 8 15 60 4.
Definition cfg48 : config := Config "tagged_box_reserve_48bits" 16 65535 48 16.
Definition dbg60 : target := Target cfg60 true 64.
Definition rel60 : target := Target cfg60 false 64.
Definition rel48 : target := Target cfg48 false 64.
Definition dbg60_32 : target := Target cfg60 true 32.

Lemma example_targets_ok : target_ok dbg60 /\ target_ok rel60 /\ target_ok rel48 /\ target_ok dbg60_32.
Proof. unfold target_ok. cbn. intuition. Qed.

(** ** C01 Width selection is total and unambiguous *)

Theorem C01_one_setting : forall env, line_break_free env ->
  exists c, active_rows (active_cfgs env) = [c] /\ width_requested env (pointer_width c) /\
    (build_warnings env = [] <-> match env with None => True | Some s => is_documented s end).
Proof. intros env H. destruct (selection env H) as (c & H1 & _ & H2 & H3). eauto. Qed.

(** The request determines the width. *)
Theorem C01_request_unique : forall env w1 w2,
  width_requested env w1 -> width_requested env w2 -> w1 = w2.
Proof.
  intros [s|] w1 w2; cbn [width_requested]; [|congruence].
  assert (D : forall a x, In (a, x) documented -> is_documented a).
  { intros a x Hx. change a with (fst (a, x)). apply in_map, Hx. }
  intros [H1|[N1 ->]] [H2|[N2 ->]]; try reflexivity; try (exfalso; solve [eauto]).
  - assert (L : forall w, In (s, w) documented ->
      find (fun x => String.eqb (fst x) s) documented = Some (s, w)).
    { intros w H. cbn [documented In] in H.
      repeat match type of H with _ \/ _ => destruct H as [H|H] | False => destruct H end;
      inversion H; reflexivity. }
    apply L in H1, H2. congruence.
Qed.

Example C01_example_named :
  line_break_free (Some "52bits"%string) /\ exists c, active_rows (active_cfgs (Some "52bits"%string)) = [c] /\ pointer_width c = 52.
Proof. split; [cbn; intuition discriminate|]. eexists. split; vm_compute; reflexivity. Qed.

Example C01_example_other :
  line_break_free (Some "64bits"%string) /\
  build_warnings (Some "64bits"%string) =
    ["64bits is an invalid reserved pointer width for `TAGGED_BOX_RESERVED_WIDTH`"%string].
Proof. split; [cbn; intuition discriminate|]. vm_compute. reflexivity. Qed.

(** A value with a line break followed by a cargo instruction switches on a second setting (the
    crate then has two modules of the same name and does not compile). *)
Theorem C01_refuted : exists env, ~ exists c, active_rows (active_cfgs env) = [c].
Proof.
  pose (s := ("x" ++ String nl ("cargo:rustc-cfg=tagged_box_reserve_48bits" ++ String nl ""))%string).
  assert (E : List.length (active_rows (active_cfgs (Some s))) = 2%nat) by (vm_compute; reflexivity).
  exists (Some s). intros [c H]. rewrite H in E. discriminate E.
Qed.

(** ** C02 Every setting splits the 64-bit word exactly *)

Theorem C02_split : forall env c, selected env = Some c ->
  pointer_width c + discriminant_bits c = 64 /\
  max_pointer_value c = 2 ^ pointer_width c - 1 /\
  (forall d, d < 2 ^ discriminant_bits c -> fits (disc_ty_bits c) d) /\
  (forall d, d <= max_discriminant c -> d < 2 ^ discriminant_bits c).
Proof.
  intros env c H. pose proof (selected_in_table env c H) as Hin.
  destruct (row_facts c Hin) as (H1 & _ & _ & _ & H5 & H6 & _ & _ & H9 & _).
  repeat split; auto.
  - intros d Hd. unfold fits. eapply N.lt_le_trans; [exact Hd|]. apply N.pow_le_mono_r; [discriminate|exact H5].
  - intros d Hd. lia.
Qed.

(** Each of the 16 documented settings can be selected. *)
Theorem C02_selectable : forall s w, In (s, w) documented ->
  exists c, selected (Some s) = Some c /\ pointer_width c = w.
Proof. intros s w H. destruct (build_rs_documented s w H) as (c & H1 & H2 & _). eauto. Qed.

Example C02_example : selected (Some "48bits"%string) = Some cfg48.
Proof. vm_compute. reflexivity. Qed.

(** ** C03 MAX_DISCRIMINANT is the largest tag the free bits can hold *)

(** The intended claim: [forall c, In c table -> max_discriminant c = 2 ^ discriminant_bits c - 1].
    It fails for 52bits: the table has 4068 where 4095 is the largest 12-bit number. *)
Theorem C03_refuted : ~ forall c, In c table -> max_discriminant c = 2 ^ discriminant_bits c - 1.
Proof.
  intros H. specialize (H (Config "tagged_box_reserve_52bits" 16 4068  52 12)).
  assert (X : 4068 = 4095) by (apply H; cbn; tauto). discriminate X.
Qed.

(** Exactly the 52-bit setting is wrong. *)
Theorem C03_exact : forall c, In c table ->
  (max_discriminant c = 2 ^ discriminant_bits c - 1 <-> pointer_width c <> 52).
Proof.
  intros c H. cbn [table In] in H.
  repeat match type of H with _ \/ _ => destruct H as [H|H] | False => destruct H end; subst c;
  cbn [max_discriminant discriminant_bits pointer_width];
  (split; [intros E; vm_compute in E; discriminate|intros E; vm_compute; first [reflexivity | exfalso; apply E; reflexivity]]).
Qed.

Example C03_example : In cfg48 table /\ max_discriminant cfg48 = 2 ^ 16 - 1.
Proof. split; [cbn; tauto|reflexivity]. Qed.

(** ** C04 Tagged pointer round trip *)

Theorem C04_round_trip : forall t ptr d, target_ok t ->
  ptr <= max_pointer_value (cfg t) -> d <= max_discriminant (cfg t) ->
  exists p, tp_new t ptr d = Done p /\
    tp_discriminant t p = d /\ tp_as_u64 t p = ptr /\
    (ptr < 2 ^ ptr_bits t ->
       tp_as_ptr t p = ptr /\ tp_as_mut_ptr t p = ptr /\ tp_ref_addr t p = ptr /\ tp_mut_ref_addr t p = ptr).
Proof.
  intros t ptr d Ht Hp Hd. apply (max_ptr_eq t Ht) in Hp.
  exists (ptr + d * 2 ^ pointer_width (cfg t)).
  pose proof (max_disc_lt t Ht d Hd) as Hd'.
  split; [apply tp_new_ok; assumption|].
  rewrite <- (store_in_range t Ht ptr d Hp Hd').
  unfold tp_discriminant, tp_as_u64, tp_as_ptr, tp_as_mut_ptr, tp_ref_addr, tp_mut_ref_addr.
  rewrite fetch_store_in, strip_store_in by assumption. repeat split; apply cast_ptr_id; assumption.
Qed.

Example C04_example : exists p,
  0xF00DBEE <= max_pointer_value (cfg dbg60) /\ 15 <= max_discriminant (cfg dbg60) /\
  tp_new dbg60 0xF00DBEE 15 = Done p /\ tp_discriminant dbg60 p = 15 /\ tp_as_ptr dbg60 p = 0xF00DBEE /\ p = 0xF00000000F00DBEE.
Proof. eexists. repeat split; try reflexivity; vm_compute; discriminate. Qed.

(** ** C05 TaggedPointer::new panics exactly when documented *)

(** With debug assertions. *)
Theorem C05_panics_debug : forall t ptr d, target_ok t -> debug_assertions t = true ->
  ((exists m, tp_new t ptr d = Panics m) <->
   (max_discriminant (cfg t) < d \/ 2 ^ pointer_width (cfg t) <= ptr)).
Proof.
  intros t ptr d Ht Hdbg. pose proof (max_ptr_eq t Ht ptr) as Hm. rewrite (tp_new_cases t), Hdbg.
  destruct (N.leb_spec d (max_discriminant (cfg t))), (N.leb_spec ptr (max_pointer_value (cfg t)));
    (split; [intros [m E]; first [discriminate E | lia] | intros; first [lia | eauto]]).
Qed.

(** The message names the offending limit; the discriminant is checked first. *)
Theorem C05_message : forall t ptr d m, target_ok t -> tp_new t ptr d = Panics m ->
  m = PanicDiscriminant d (max_discriminant (cfg t)) /\ max_discriminant (cfg t) < d \/
  m = PanicPointer (pointer_width (cfg t)) (pointer_width (cfg t) + 1) /\ d <= max_discriminant (cfg t)
    /\ 2 ^ pointer_width (cfg t) <= ptr.
Proof.
  intros t ptr d m Ht. pose proof (max_ptr_eq t Ht ptr) as Hm. rewrite (tp_new_cases t).
  destruct (debug_assertions t), (N.leb_spec d (max_discriminant (cfg t))), (N.leb_spec ptr (max_pointer_value (cfg t)));
    intros E; try discriminate E; injection E as <-;
    first [left; split; [reflexivity|assumption]|right; split; [reflexivity|split; [assumption|lia]]].
Qed.

(** In release builds the documented panic never happens. *)
Theorem C05_never_in_release : forall t ptr d, debug_assertions t = false ->
  exists p, tp_new t ptr d = Done p.
Proof. intros t ptr d H. unfold tp_new. rewrite H. cbn [andb]. eauto. Qed.

(** Full statement (documentation of [TaggedPointer::new]): panics iff out of range, in every build. *)
Theorem C05_refuted : ~ forall t ptr d, target_ok t -> fits (disc_ty_bits (cfg t)) d -> fits 64 ptr ->
  ((exists m, tp_new t ptr d = Panics m) <->
   (max_discriminant (cfg t) < d \/ 2 ^ pointer_width (cfg t) <= ptr)).
Proof.
  intros H. destruct (H rel60 0 16) as [_ H2].
  - apply example_targets_ok.
  - reflexivity.
  - reflexivity.
  - destruct H2 as [m E]; [left; reflexivity|]. vm_compute in E. discriminate E.
Qed.

Example C05_example : tp_new dbg60 4096 16 = Panics (PanicDiscriminant 16 15) /\
  tp_new dbg60 (2 ^ 60) 3 = Panics (PanicPointer 60 61) /\ exists p, tp_new rel60 (2 ^ 60) 3 = Done p.
Proof. repeat split; try (vm_compute; reflexivity). eexists. vm_compute. reflexivity. Qed.

(** ** C06 Word and parts determine each other *)

(** Every in-range pair is packed by arithmetic, so distinct pairs give distinct words. *)
Theorem C06_pack : forall t a d, target_ok t ->
  a < 2 ^ pointer_width (cfg t) -> d < 2 ^ discriminant_bits (cfg t) ->
  store_discriminant t a d = pack (pointer_width (cfg t)) a d.
Proof. intros. apply store_in_range; assumption. Qed.

Theorem C06_injective : forall t a d a' d', target_ok t ->
  a < 2 ^ pointer_width (cfg t) -> d < 2 ^ discriminant_bits (cfg t) ->
  a' < 2 ^ pointer_width (cfg t) -> d' < 2 ^ discriminant_bits (cfg t) ->
  store_discriminant t a d = store_discriminant t a' d' -> a = a' /\ d = d'.
Proof.
  intros t a d a' d' Ht Ha Hd Ha' Hd' E. split.
  - rewrite <- (strip_store_in t Ht a d Ha), E. apply strip_store_in; assumption.
  - rewrite <- (fetch_store_in t Ht a d Ha Hd), E. apply fetch_store_in; assumption.
Qed.

(** Every word is the packing of its own parts, and both are in range. *)
Theorem C06_surjective : forall t x, target_ok t -> fits 64 x ->
  tp_as_u64 t x < 2 ^ pointer_width (cfg t) /\ tp_discriminant t x < 2 ^ discriminant_bits (cfg t) /\
  x = pack (pointer_width (cfg t)) (tp_as_u64 t x) (tp_discriminant t x).
Proof.
  intros t x Ht Hx. unfold fits in Hx. unfold tp_as_u64, tp_discriminant.
  assert (H1 : strip_discriminant t x < 2 ^ pointer_width (cfg t)).
  { rewrite strip_eq by assumption. apply N.mod_lt, N.pow_nonzero. discriminate. }
  assert (H2 : fetch_discriminant t x < 2 ^ discriminant_bits (cfg t)).
  { rewrite fetch_eq by assumption. apply N.div_lt_upper_bound; [apply N.pow_nonzero; discriminate|].
    rewrite <- N.pow_add_r, (wb64 t Ht). exact Hx. }
  split; [exact H1|]. split; [exact H2|]. unfold pack.
  rewrite <- (store_in_range t Ht _ _ H1 H2). symmetry. apply store_parts; assumption.
Qed.

(** Re-tagging keeps the address; re-addressing keeps the tag. *)
Theorem C06_independent : forall t a a' d d', target_ok t ->
  a < 2 ^ pointer_width (cfg t) -> a' < 2 ^ pointer_width (cfg t) ->
  d < 2 ^ discriminant_bits (cfg t) -> d' < 2 ^ discriminant_bits (cfg t) ->
  tp_as_u64 t (store_discriminant t a d) = tp_as_u64 t (store_discriminant t a d') /\
  tp_discriminant t (store_discriminant t a d) = tp_discriminant t (store_discriminant t a' d).
Proof.
  intros t a a' d d' Ht Ha Ha' Hd Hd'. unfold tp_as_u64, tp_discriminant.
  rewrite !strip_store_in, !fetch_store_in by assumption. auto.
Qed.

Example C06_example : fits 64 0xA000000000001234 /\
  tp_as_u64 dbg60 0xA000000000001234 = 0x1234 /\ tp_discriminant dbg60 0xA000000000001234 = 10.
Proof. vm_compute. auto. Qed.

(** ** C07 Equality, order and hash of tagged pointers *)

Theorem C07_order : forall t p q, target_ok t -> fits 64 p -> fits 64 q ->
  tp_cmp p q = lex_compare (tp_discriminant t p, tp_as_u64 t p) (tp_discriminant t q, tp_as_u64 t q) /\
  tp_partial_cmp p q = Some (tp_cmp p q) /\
  (tp_eq p q = true <-> tp_discriminant t p = tp_discriminant t q /\ tp_as_u64 t p = tp_as_u64 t q) /\
  (tp_eq p q = true <-> tp_cmp p q = Eq) /\
  (tp_eq p q = true <-> tp_hash_input p = tp_hash_input q).
Proof.
  intros t p q Ht Hp Hq.
  destruct (C06_surjective t p Ht Hp) as (A1 & D1 & E1), (C06_surjective t q Ht Hq) as (A2 & D2 & E2).
  set (w := pointer_width (cfg t)) in *.
  set (a := tp_as_u64 t p) in *. set (d := tp_discriminant t p) in *.
  set (a' := tp_as_u64 t q) in *. set (d' := tp_discriminant t q) in *.
  clearbody a d a' d'. unfold pack in E1, E2.
  assert (C : tp_cmp p q = lex_compare (d, a) (d', a')).
  { unfold tp_cmp, lex_compare. cbn [fst snd]. subst p q.
    destruct (N.compare_spec d d') as [->|H|H].
    - destruct (N.compare_spec a a') as [->|H|H]; [apply N.compare_eq_iff|apply N.compare_lt_iff|apply N.compare_gt_iff]; lia.
    - apply N.compare_lt_iff. assert ((d + 1) * 2 ^ w <= d' * 2 ^ w) by (apply N.mul_le_mono_r; lia). lia.
    - apply N.compare_gt_iff. assert ((d' + 1) * 2 ^ w <= d * 2 ^ w) by (apply N.mul_le_mono_r; lia). lia. }
  split; [exact C|]. split; [reflexivity|].
  assert (Q : tp_eq p q = true <-> p = q) by apply N.eqb_eq.
  split; [|split].
  - rewrite Q. split.
    + intros E. assert (X : lex_compare (d, a) (d', a') = Eq).
      { rewrite <- C. apply N.compare_eq_iff. exact E. }
      unfold lex_compare in X. cbn [fst snd] in X.
      destruct (N.compare_spec d d'); try discriminate X. apply N.compare_eq in X. auto.
    + intros [-> ->]. congruence.
  - rewrite Q. symmetry. apply N.compare_eq_iff.
  - rewrite Q. unfold tp_hash_input. split; congruence.
Qed.

(** It is a total order (transitive, antisymmetric through [CompOpp]). *)
Theorem C07_total : forall p q r,
  tp_cmp q p = CompOpp (tp_cmp p q) /\
  (tp_cmp p q = Lt -> tp_cmp q r = Lt -> tp_cmp p r = Lt).
Proof.
  intros p q r. unfold tp_cmp. split; [apply N.compare_antisym|].
  rewrite !N.compare_lt_iff. apply N.lt_trans.
Qed.

(** A larger address with a smaller tag comes first. *)
Example C07_example : fits 64 0x1000000000009999 /\ fits 64 0x2000000000000001 /\
  tp_cmp 0x1000000000009999 0x2000000000000001 = Lt /\
  tp_as_u64 dbg60 0x2000000000000001 < tp_as_u64 dbg60 0x1000000000009999.
Proof. vm_compute. auto. Qed.

(** ** C08 Out-of-range arguments in release builds *)

Theorem C08_release : forall t ptr d, target_ok t -> debug_assertions t = false -> fits 64 ptr ->
  exists p, tp_new t ptr d = Done p /\ fits 64 p /\
    tp_as_u64 t p = ptr mod 2 ^ pointer_width (cfg t) /\
    tp_discriminant t p = N.lor (ptr / 2 ^ pointer_width (cfg t)) (d mod 2 ^ discriminant_bits (cfg t)) /\
    (tp_as_u64 t p = ptr /\ tp_discriminant t p = d <->
     ptr <= max_pointer_value (cfg t) /\ d < 2 ^ discriminant_bits (cfg t)).
Proof.
  intros t ptr d Ht Hr Hp. unfold fits in *. exists (store_discriminant t ptr d).
  rewrite (tp_new_cases t), Hr. split; [reflexivity|]. split; [apply store_lt; assumption|].
  unfold tp_as_u64, tp_discriminant. rewrite strip_store, fetch_store by assumption.
  split; [reflexivity|]. split; [reflexivity|].
  assert (W : 2 ^ pointer_width (cfg t) <> 0) by (apply N.pow_nonzero; discriminate).
  assert (B : 2 ^ discriminant_bits (cfg t) <> 0) by (apply N.pow_nonzero; discriminate).
  rewrite (max_ptr_eq t Ht). split.
  - intros [E1 E2]. assert (L : ptr < 2 ^ pointer_width (cfg t)) by (rewrite <- E1; apply N.mod_lt, W).
    split; [exact L|]. rewrite N.div_small, N.lor_0_l in E2 by exact L. rewrite <- E2. apply N.mod_lt, B.
  - intros [L1 L2]. rewrite !N.mod_small, N.div_small by assumption. rewrite N.lor_0_l. auto.
Qed.

(** Tag 17 of a 4-bit setting is read as 1; an address of 61 bits leaks into the tag. *)
Example C08_example :
  (exists p, tp_new rel60 4096 17 = Done p /\ tp_discriminant rel60 p = 1) /\
  (exists p, tp_new rel60 (2 ^ 60 + 8) 2 = Done p /\ tp_as_u64 rel60 p = 8 /\ tp_discriminant rel60 p = 3).
Proof. split; eexists; (split; [reflexivity|]); vm_compute; auto. Qed.

(** ** C09 Dangling pointers *)

Theorem C09_dangling : forall t align d, target_ok t -> power_of_two align ->
  tp_as_u64 t (tp_dangling t align d) = align /\
  tp_as_ptr t (tp_dangling t align d) = align /\ align <> 0 /\ align mod align = 0 /\
  tp_discriminant t (tp_dangling t align d) = d mod 2 ^ discriminant_bits (cfg t) /\
  (d < 2 ^ discriminant_bits (cfg t) -> tp_discriminant t (tp_dangling t align d) = d).
Proof.
  intros t align d Ht (k & Hk & ->).
  assert (L : 2 ^ k < 2 ^ 32) by (apply N.pow_lt_mono_r; lia).
  assert (NZ : 2 ^ k <> 0) by (apply N.pow_nonzero; discriminate).
  assert (L1 : 2 ^ k < 2 ^ pointer_width (cfg t)).
  { apply N.pow_lt_mono_r; [lia|]. destruct (row_facts _ (proj1 Ht)) as (_&_&Hw&_). lia. }
  assert (L2 : 2 ^ k < 2 ^ ptr_bits t).
  { apply N.pow_lt_mono_r; [lia|]. destruct (proj2 Ht) as [->| ->]; lia. }
  unfold tp_dangling, tp_as_u64, tp_as_ptr, tp_discriminant.
  assert (F : fetch_discriminant t (store_discriminant t (2 ^ k) d) = d mod 2 ^ discriminant_bits (cfg t)).
  { rewrite fetch_store by (eauto using N.lt_le_trans, w_le_64).
    rewrite N.div_small by assumption. apply N.lor_0_l. }
  rewrite strip_store_in, F, cast_ptr_id by assumption.
  repeat split; auto using N.mod_same. intros Hd. apply N.mod_small, Hd.
Qed.

(** No check even with debug assertions: tag 16 becomes 0. *)
Example C09_example : power_of_two 8 /\ tp_discriminant dbg60 (tp_dangling dbg60 8 16) = 0 /\
  tp_discriminant dbg60 (tp_dangling dbg60 8 15) = 15.
Proof. split; [exists 3; split; [lia|reflexivity]|]. vm_compute. auto. Qed.

(** ** C10 Numeric formatting shows the address and never the tag *)

(** The text depends on the address only. *)
Theorem C10_fmt : forall t k o p q, target_ok t -> p mod 2 ^ pointer_width (cfg t) = q mod 2 ^ pointer_width (cfg t) ->
  tp_fmt t k o p = tp_fmt t k o q.
Proof. intros t k o p q Ht E. unfold tp_fmt, tp_as_u64. rewrite !strip_eq, E by exact Ht. reflexivity. Qed.

(** Whatever the options, the text has at least the requested width. *)
Theorem C10_width : forall t k o p w, f_width o = Some w -> (w <= String.length (tp_fmt t k o p))%nat.
Proof.
  intros t k o p w E. unfold tp_fmt. rewrite fmt_u64_shown, shown_length, E. apply PeanoNat.Nat.le_max_l.
Qed.

(** The address given to [new] is read off the text, whatever the tag, unless digits are used as
    padding next to it. *)
Theorem C10_fmt_address : forall t k o ptr d p, target_ok t -> separable (radix_notation k) o = true ->
  ptr <= max_pointer_value (cfg t) -> d <= max_discriminant (cfg t) -> tp_new t ptr d = Done p ->
  read_text (radix_notation k) o (tp_fmt t k o p) = Some ptr.
Proof.
  intros t k o ptr d p Ht Ho Hp Hd E. destruct (C04_round_trip t ptr d Ht Hp Hd) as (p' & E' & _ & A & _).
  assert (p' = p) by congruence. subst p'. unfold tp_fmt. rewrite A, fmt_u64_shown. apply shown_reads; [apply radix_writes|exact Ho].
Qed.

(** Exactly then do different addresses have different texts. *)
Theorem C10_injective : forall t k o, target_ok t ->
  ((forall p q, tp_fmt t k o p = tp_fmt t k o q -> p mod 2 ^ pointer_width (cfg t) = q mod 2 ^ pointer_width (cfg t)) <->
   separable (radix_notation k) o = true).
Proof.
  intros t k o Ht. split.
  - intros H. destruct (separable (radix_notation k) o) eqn:E; [reflexivity|exfalso].
    destruct (shown_collides k o E) as (x & y & Hx & Hy & N & C).
    assert (W : 2 ^ 48 <= 2 ^ pointer_width (cfg t)).
    { apply N.pow_le_mono_r; [discriminate|]. destruct (row_facts _ (proj1 Ht)) as (_&_&Hw&_). lia. }
    assert (A : forall a, a < 2 ^ 48 -> tp_as_u64 t (store_discriminant t a 0) = a).
    { intros a Ha. apply strip_store_in; [exact Ht|lia]. }
    apply N. rewrite <- (A x), <- (A y) by assumption. unfold tp_as_u64. rewrite !strip_eq by exact Ht. apply H. unfold tp_fmt.
    rewrite !A, !fmt_u64_shown by assumption. exact C.
  - intros E p q H. rewrite <- !(strip_eq t Ht). unfold tp_fmt in H. rewrite !fmt_u64_shown in H. eapply shown_inj; [apply radix_writes|exact E|exact H].
Qed.

Definition opts_alt : fmt_opts := FmtOpts " " None false true false None None None.
Definition opts_w (fill : ascii) (a : alignment) (w : nat) : fmt_opts := FmtOpts fill (Some a) false false false (Some w) None None.

Example C10_example :
  tp_fmt dbg60 UpperHex opts_alt 0xA000000000001A2B = "0x1A2B"%string /\
  tp_fmt dbg60 Octal default_opts 0x5000000000000008 = "10"%string /\
  tp_fmt dbg60 LowerHex (opts_w "*" ACenter 9) 0xA000000000001A2B = "**1a2b***"%string /\
  separable (radix_notation LowerHex) (opts_w "*" ACenter 9) = true /\
  tp_fmt dbg60 LowerHex (FmtOpts " " None true true true (Some 12%nat) None None) 0xA000000000001A2B = "+0x000001a2b"%string.
Proof. vm_compute. auto 6. Qed.

(** [{:1>4x}] of the addresses 0x1 and 0x11. *)
Example C10_collision_example : separable (radix_notation LowerHex) (opts_w "1" ARight 4) = false /\
  tp_fmt dbg60 LowerHex (opts_w "1" ARight 4) 0x1 = "1111"%string /\
  tp_fmt dbg60 LowerHex (opts_w "1" ARight 4) 0xA000000000000011 = "1111"%string.
Proof. vm_compute. auto. Qed.

(** ** C11 Debug output of a TaggedPointer is faithful *)

(** The text consists of the name and three labelled parts, which show the raw word (as much of it as
    fits a pointer), the address and the discriminant. *)
Theorem C11_shows : forall t o p, target_ok t -> one_line o -> fits 64 p ->
  exists raw ptr disc, tp_fmt_debug t o p = debug_text o raw ptr disc /\
  (separable (radix_notation LowerHex) (pointer_opts (ptr_bits t) o) = true ->
   read_text (radix_notation LowerHex) (pointer_opts (ptr_bits t) o) raw = Some (p mod 2 ^ ptr_bits t) /\
   read_text (radix_notation LowerHex) (pointer_opts (ptr_bits t) o) ptr = Some ((p mod 2 ^ pointer_width (cfg t)) mod 2 ^ ptr_bits t)) /\
  (separable (debug_notation o) o = true ->
   read_text (debug_notation o) o disc = Some (p / 2 ^ pointer_width (cfg t))).
Proof.
  intros t o p Tok O Fp. rewrite <- (strip_eq t Tok), <- (fetch_eq t Tok p Fp). destruct Tok as [_ Ht]. assert (B : ptr_bits t = 64 \/ ptr_bits t = 32) by (destruct Ht; auto).
  do 3 eexists. split; [apply tp_fmt_debug_text; assumption|]. split.
  - intros S. rewrite !fmt_ptr_shown by exact B. split; apply shown_reads; auto using radix_writes.
  - intros S. rewrite fmt_int_debug_shown. apply shown_reads; [apply debug_writes|exact S].
Qed.

Theorem C11_debug : forall t o p q, ptr_bits t = 64 -> one_line o -> legible 64 o -> fits 64 p -> fits 64 q ->
  (tp_fmt_debug t o p = tp_fmt_debug t o q <-> p = q).
Proof.
  intros t o p q E O L Hp Hq. split; [|congruence]. intros H. apply tp_fmt_debug_raw in H; [|auto|exact O|now rewrite E].
  rewrite E in H. unfold cast in H. unfold fits in *. rewrite !N.mod_small in H by assumption. exact H.
Qed.

(** [{:p}] shows the address pointed to, and nothing else. *)
Theorem C11_pointer : forall t o p q, target_ok t ->
  separable (radix_notation LowerHex) (pointer_opts (ptr_bits t) o) = true ->
  (tp_fmt_pointer t o p = tp_fmt_pointer t o q <->
   (p mod 2 ^ pointer_width (cfg t)) mod 2 ^ ptr_bits t = (q mod 2 ^ pointer_width (cfg t)) mod 2 ^ ptr_bits t) /\
  read_text (radix_notation LowerHex) (pointer_opts (ptr_bits t) o) (tp_fmt_pointer t o p) =
    Some ((p mod 2 ^ pointer_width (cfg t)) mod 2 ^ ptr_bits t).
Proof.
  intros t o p q Tok S. rewrite <- !(strip_eq t Tok). destruct Tok as [_ Ht]. assert (B : ptr_bits t = 64 \/ ptr_bits t = 32) by (destruct Ht; auto).
  unfold tp_fmt_pointer. rewrite !fmt_ptr_shown by exact B. split.
  - split; [apply shown_inj; auto using radix_writes|intros H; unfold tp_as_ptr, cast; rewrite H; reflexivity].
  - apply shown_reads; auto using radix_writes.
Qed.

(** [{:?}], [{:#?}], [{:p}] and [{:#p}]. *)
Example C11_example :
  tp_fmt_debug dbg60 default_opts 0xA000000000001A2B =
    "TaggedPointer { raw: 0xa000000000001a2b, ptr: 0x1a2b, discriminant: 10 }"%string /\
  tp_fmt_debug dbg60 opts_alt 0xA000000000001A2B =
    ("TaggedPointer {" ++ line_break ++ "    raw: 0xa000000000001a2b," ++ line_break ++ "    ptr: 0x0000000000001a2b," ++ line_break ++
     "    discriminant: 10," ++ line_break ++ "}")%string /\
  one_line opts_alt /\ legible 64 opts_alt /\
  separable (radix_notation LowerHex) (pointer_opts 64 opts_alt) = true /\
  tp_fmt_pointer dbg60 default_opts 0xA000000000001A2B = "0x1a2b"%string /\
  tp_fmt_pointer dbg60 opts_alt 0xA000000000001A2B = "0x0000000000001a2b"%string.
Proof.
  repeat split; try (vm_compute; reflexivity).
  - right. left. reflexivity.
  - left. reflexivity.
Qed.

(** On 32-bit targets the raw word is truncated before printing; the tag, the missing part,
    is printed separately, but bits between are lost. *)
Theorem C11_debug32_loses_bits : forall o, exists p q, p <> q /\ tp_fmt_debug dbg60_32 o p = tp_fmt_debug dbg60_32 o q.
Proof.
  intros o. exists 0x100000000, 0x200000000. split; [discriminate|]. unfold tp_fmt_debug.
  replace (cast (ptr_bits dbg60_32) (tp_as_raw_u64 0x100000000)) with 0 by reflexivity.
  replace (cast (ptr_bits dbg60_32) (tp_as_raw_u64 0x200000000)) with 0 by reflexivity.
  replace (tp_as_ptr dbg60_32 0x100000000) with 0 by reflexivity.
  replace (tp_as_ptr dbg60_32 0x200000000) with 0 by reflexivity. reflexivity.
Qed.

(** ** C12 32-bit targets *)

Theorem C12_bits32 : forall t ptr d, target_ok t -> ptr_bits t = 32 -> fits 32 ptr ->
  (forall w s, tp_new t ptr d <> Panics (PanicPointer w s)) /\
  (forall p, tp_as_ptr t p = tp_as_u64 t p mod 2 ^ 32 /\ tp_as_mut_ptr t p = tp_as_ptr t p) /\
  (forall p, tp_new t ptr d = Done p -> tp_as_ptr t p = ptr /\ tp_as_mut_ptr t p = ptr) /\
  (d <= max_discriminant (cfg t) -> exists p, tp_new t ptr d = Done p /\ tp_discriminant t p = d).
Proof.
  intros t ptr d Ht E Hp. unfold fits in Hp. rewrite <- E in Hp.
  pose proof (ptr32_in_range t Ht ptr E Hp) as Hw.
  assert (Hm : ptr <=? max_pointer_value (cfg t) = true) by (apply N.leb_le, max_ptr_eq; assumption).
  rewrite (tp_new_cases t), Hm. split; [|split; [intros p; unfold tp_as_mut_ptr, tp_as_ptr, cast; rewrite E; auto|split]].
  - intros w s. destruct (debug_assertions t), (d <=? max_discriminant (cfg t)); discriminate.
  - intros p H. assert (p = store_discriminant t ptr d).
    { destruct (debug_assertions t), (d <=? max_discriminant (cfg t)); congruence. }
    subst p. unfold tp_as_ptr, tp_as_mut_ptr. rewrite strip_store_in, cast_ptr_id by assumption. auto.
  - intros Hd. rewrite (proj2 (N.leb_le _ _) Hd). exists (store_discriminant t ptr d). split.
    + destruct (debug_assertions t); reflexivity.
    + unfold tp_discriminant. apply fetch_store_in; auto using max_disc_lt.
Qed.

Example C12_example : exists p, tp_new dbg60_32 0xFFFFFFF0 9 = Done p /\ tp_as_ptr dbg60_32 p = 0xFFFFFFF0.
Proof. eexists. vm_compute. auto. Qed.

(** ** Instances: each theorem applied to a concrete case that meets its hypotheses *)

Example C01_one_setting_example :
  exists c, active_rows (active_cfgs (Some "52bits"%string)) = [c] /\ pointer_width c = 52 /\
    build_warnings (Some "52bits"%string) = [].
Proof.
  destruct (C01_one_setting (Some "52bits"%string)) as (c & H1 & H2 & H3); [cbn; intuition discriminate|].
  exists c. split; [exact H1|]. split.
  - apply (C01_request_unique (Some "52bits"%string)); [exact H2|]. left. cbn. tauto.
  - apply H3. cbn. tauto.
Qed.

Example C01_request_unique_example :
  width_requested (Some "64bits"%string) 60 /\ forall w, width_requested (Some "64bits"%string) w -> w = 60.
Proof.
  assert (H : width_requested (Some "64bits"%string) 60).
  { right. split; [|reflexivity]. cbn. intuition discriminate. }
  split; [exact H|]. intros w Hw. exact (C01_request_unique _ _ _ Hw H).
Qed.

Example C02_split_example : selected (Some "48bits"%string) = Some cfg48 /\
  pointer_width cfg48 + discriminant_bits cfg48 = 64 /\ max_pointer_value cfg48 = 2 ^ 48 - 1 /\ fits (disc_ty_bits cfg48) 65535.
Proof.
  assert (H : selected (Some "48bits"%string) = Some cfg48) by (vm_compute; reflexivity).
  destruct (C02_split _ _ H) as (H1 & H2 & H3 & _). split; [exact H|]. split; [exact H1|]. split; [exact H2|]. apply H3. reflexivity.
Qed.

Example C02_selectable_example : exists c, selected (Some "55bits"%string) = Some c /\ pointer_width c = 55.
Proof. apply C02_selectable. cbn. tauto. Qed.

Example C03_exact_example : exists c, In c table /\ pointer_width c = 52 /\ max_discriminant c <> 2 ^ discriminant_bits c - 1.
Proof.
  exists (Config "tagged_box_reserve_52bits" 16 4068 52 12).
  assert (H : In (Config "tagged_box_reserve_52bits" 16 4068 52 12) table) by (cbn; tauto).
  split; [exact H|]. split; [reflexivity|]. intros E. apply (C03_exact _ H) in E. apply E. reflexivity.
Qed.

Example C04_round_trip_example : exists p, tp_new dbg60 0xF00DBEE 15 = Done p /\
  tp_discriminant dbg60 p = 15 /\ tp_as_u64 dbg60 p = 0xF00DBEE /\ tp_as_ptr dbg60 p = 0xF00DBEE.
Proof.
  destruct (C04_round_trip dbg60 0xF00DBEE 15) as (p & H1 & H2 & H3 & H4);
    [apply example_targets_ok|vm_compute; discriminate|vm_compute; discriminate|].
  exists p. repeat split; try assumption. apply H4. reflexivity.
Qed.

Example C05_panics_debug_example :
  (exists m, tp_new dbg60 4096 16 = Panics m) /\ ~ exists m, tp_new dbg60 4096 15 = Panics m.
Proof.
  split.
  - apply C05_panics_debug; [apply example_targets_ok|reflexivity|left; reflexivity].
  - rewrite C05_panics_debug; [|apply example_targets_ok|reflexivity]. intros [H|H]; [discriminate H|].
    vm_compute in H. apply H. reflexivity.
Qed.

Example C05_message_example : tp_new dbg60 (2 ^ 60) 3 = Panics (PanicPointer 60 61) /\ 2 ^ 60 <= 2 ^ pointer_width (cfg dbg60).
Proof.
  assert (H : tp_new dbg60 (2 ^ 60) 3 = Panics (PanicPointer 60 61)) by (vm_compute; reflexivity). split; [exact H|].
  destruct (C05_message _ _ _ _ (proj1 example_targets_ok) H) as [[E _]|(_ & _ & L)]; [discriminate E|exact L].
Qed.

Example C05_never_in_release_example : exists p, tp_new rel60 (2 ^ 61) 16 = Done p.
Proof. apply C05_never_in_release. reflexivity. Qed.

Example C06_pack_example : store_discriminant dbg60 0x1234 10 = pack 60 0x1234 10.
Proof. apply (C06_pack dbg60); [apply example_targets_ok|reflexivity|reflexivity]. Qed.

Example C06_injective_example : store_discriminant dbg60 0x1234 10 <> store_discriminant dbg60 0x1235 10.
Proof.
  intros E. assert (X : 0x1234 = 0x1235 /\ 10 = 10); [|destruct X as [X _]; discriminate X].
  apply (C06_injective dbg60); [apply example_targets_ok|reflexivity..|exact E].
Qed.

Example C06_surjective_example : 0xA000000000001234 =
  pack 60 (tp_as_u64 dbg60 0xA000000000001234) (tp_discriminant dbg60 0xA000000000001234).
Proof. apply (C06_surjective dbg60); [apply example_targets_ok|reflexivity]. Qed.

Example C06_independent_example :
  tp_as_u64 dbg60 (store_discriminant dbg60 0x1234 10) = tp_as_u64 dbg60 (store_discriminant dbg60 0x1234 3).
Proof. apply (C06_independent dbg60 0x1234 0 10 3); [apply example_targets_ok|reflexivity..]. Qed.

Example C07_order_example : tp_cmp 0x1000000000009999 0x2000000000000001 = lex_compare (1, 0x9999) (2, 1) /\
  tp_eq 0x1000000000009999 0x2000000000000001 <> true.
Proof.
  destruct (C07_order dbg60 0x1000000000009999 0x2000000000000001) as (H1 & _ & _ & H2 & _);
    [apply example_targets_ok|reflexivity|reflexivity|]. split; [exact H1|].
  rewrite H2, H1. discriminate.
Qed.

Example C07_total_example : tp_cmp 5 0x3000000000000001 = Lt.
Proof. apply (proj2 (C07_total 5 0x2000000000000001 0x3000000000000001)); reflexivity. Qed.

Example C08_release_example : exists p, tp_new rel60 (2 ^ 60 + 8) 2 = Done p /\
  tp_as_u64 rel60 p = (2 ^ 60 + 8) mod 2 ^ 60 /\ ~ (tp_as_u64 rel60 p = 2 ^ 60 + 8 /\ tp_discriminant rel60 p = 2).
Proof.
  destruct (C08_release rel60 (2 ^ 60 + 8) 2) as (p & H1 & _ & H2 & _ & H3); [apply example_targets_ok|reflexivity|reflexivity|].
  exists p. split; [exact H1|]. split; [exact H2|]. rewrite H3. intros [L _]. vm_compute in L. apply L. reflexivity.
Qed.

Example C09_dangling_example : tp_as_ptr dbg60 (tp_dangling dbg60 8 15) = 8 /\ tp_discriminant dbg60 (tp_dangling dbg60 8 15) = 15.
Proof.
  destruct (C09_dangling dbg60 8 15) as (_ & H1 & _ & _ & _ & H2); [apply example_targets_ok|exists 3; split; [lia|reflexivity]|].
  split; [exact H1|]. apply H2. reflexivity.
Qed.

Example C10_fmt_example : tp_fmt dbg60 LowerHex opts_alt 0xA000000000001A2B = tp_fmt dbg60 LowerHex opts_alt 0x1A2B.
Proof. apply C10_fmt; [apply example_targets_ok|vm_compute; reflexivity]. Qed.

Example C10_width_example : (9 <= String.length (tp_fmt dbg60 LowerHex (opts_w "*" ACenter 9) 0xA000000000001A2B%N))%nat.
Proof. apply C10_width. reflexivity. Qed.

Example C10_fmt_address_example : exists p, tp_new dbg60 0x1A2B 10 = Done p /\
  read_text (radix_notation LowerHex) (opts_w "*" ACenter 9) (tp_fmt dbg60 LowerHex (opts_w "*" ACenter 9) p) = Some 0x1A2B.
Proof.
  eexists. split; [vm_compute; reflexivity|].
  apply (C10_fmt_address dbg60 LowerHex (opts_w "*" ACenter 9) 0x1A2B 10);
    [apply example_targets_ok|vm_compute; reflexivity|vm_compute; discriminate|vm_compute; discriminate|vm_compute; reflexivity].
Qed.

Example C10_injective_example : forall p q,
  tp_fmt dbg60 LowerHex (opts_w "*" ACenter 9) p = tp_fmt dbg60 LowerHex (opts_w "*" ACenter 9) q -> p mod 2 ^ 60 = q mod 2 ^ 60.
Proof. apply (C10_injective dbg60); [apply example_targets_ok|vm_compute; reflexivity]. Qed.

Example C11_shows_example : exists raw ptr disc, tp_fmt_debug dbg60 opts_alt 0xA000000000001A2B = debug_text opts_alt raw ptr disc /\
  read_text (radix_notation LowerHex) (pointer_opts 64 opts_alt) raw = Some 0xA000000000001A2B /\
  read_text (debug_notation opts_alt) opts_alt disc = Some 10.
Proof.
  destruct (C11_shows dbg60 opts_alt 0xA000000000001A2B) as (raw & ptr & disc & H1 & H2 & H3);
    [apply example_targets_ok|right; left; reflexivity|reflexivity|].
  exists raw, ptr, disc. split; [exact H1|]. split; [apply H2; vm_compute; reflexivity|apply H3; vm_compute; reflexivity].
Qed.

Example C11_debug_example : tp_fmt_debug dbg60 opts_alt 0xA000000000001A2B <> tp_fmt_debug dbg60 opts_alt 0xB000000000001A2B.
Proof.
  rewrite (C11_debug dbg60 opts_alt); [discriminate|reflexivity|apply C11_example|apply C11_example|reflexivity|reflexivity].
Qed.

Example C11_pointer_example : tp_fmt_pointer dbg60 opts_alt 0xA000000000001A2B = tp_fmt_pointer dbg60 opts_alt 0x1A2B /\
  read_text (radix_notation LowerHex) (pointer_opts 64 opts_alt) (tp_fmt_pointer dbg60 opts_alt 0xA000000000001A2B) = Some 0x1A2B.
Proof.
  destruct (C11_pointer dbg60 opts_alt 0xA000000000001A2B 0x1A2B) as [H1 H2]; [apply example_targets_ok|vm_compute; reflexivity|].
  split; [apply H1; vm_compute; reflexivity|exact H2].
Qed.

Example C12_bits32_example : exists p, tp_new dbg60_32 0xFFFF0000 15 = Done p /\ tp_discriminant dbg60_32 p = 15 /\ tp_as_ptr dbg60_32 p = 0xFFFF0000.
Proof.
  destruct (C12_bits32 dbg60_32 0xFFFF0000 15) as (_ & _ & H1 & H2); [apply example_targets_ok|reflexivity|reflexivity|].
  destruct H2 as (p & E & D); [vm_compute; discriminate|]. exists p. split; [exact E|]. split; [exact D|]. apply H1, E.
Qed.

Print Assumptions C01_one_setting.
Print Assumptions C01_request_unique.
Print Assumptions C01_refuted.
Print Assumptions C02_split.
Print Assumptions C02_selectable.
Print Assumptions C03_refuted.
Print Assumptions C03_exact.
Print Assumptions C04_round_trip.
Print Assumptions C05_panics_debug.
Print Assumptions C05_message.
Print Assumptions C05_never_in_release.
Print Assumptions C05_refuted.
Print Assumptions C06_pack.
Print Assumptions C06_injective.
Print Assumptions C06_surjective.
Print Assumptions C06_independent.
Print Assumptions C07_order.
Print Assumptions C07_total.
Print Assumptions C08_release.
Print Assumptions C09_dangling.
Print Assumptions C10_fmt.
Print Assumptions C10_fmt_address.
Print Assumptions C10_width.
Print Assumptions C10_injective.
Print Assumptions C11_shows.
Print Assumptions C11_debug.
Print Assumptions C11_pointer.
Print Assumptions C11_debug32_loses_bits.
Print Assumptions C12_bits32.
