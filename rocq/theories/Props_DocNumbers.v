(** Property C58: the numbers given in the documentation. *)
From Coq Require Import Arith NArith String Bool List Lia.
From Verif Require Import Words Config Spec SpecMem ConfigFacts Pointer PointerFacts Mem MemFacts Box BoxFacts Bump
  Arms Macro SpecMacro MacroFacts Props_Pointer Props_Macro Props_Variants.
Import ListNotations.
Local Open Scope N_scope.

(** The table of settings, [/repo/src/lib.rs:113-128] and [/repo/README.md:104-119]: name, reserved
    bits, bits for data, marked as default. *)
Definition doc_table : list (string * N * N * bool) :=
  [("48bits", 48, 16, false); ("49bits", 49, 15, false); ("50bits", 50, 14, false); ("51bits", 51, 13, false);
   ("52bits", 52, 12, false); ("53bits", 53, 11, false); ("54bits", 54, 10, false); ("55bits", 55, 9, false);
   ("56bits", 56, 8, false); ("57bits", 57, 7, false); ("58bits", 58, 6, false); ("59bits", 59, 5, false);
   ("60bits", 60, 4, true); ("61bits", 61, 3, false); ("62bits", 62, 2, false); ("63bits", 63, 1, false)]%string.

(** All lines are right: the data bits are those a tag can occupy, and the marked one is used when
    nothing is set. *)
Theorem C58_table : forall name reserved data default, In (name, reserved, data, default) doc_table ->
  exists c, selected (Some name) = Some c /\ pointer_width c = reserved /\ discriminant_bits c = data /\
    (forall t p d, cfg t = c -> target_ok t -> p < 2 ^ reserved -> d < 2 ^ data ->
       tp_discriminant t (store_discriminant t p d) = d) /\
    (default = true <-> selected None = Some c).
Proof.
  intros name reserved data default H.
  assert (G : exists c, selected (Some name) = Some c /\ pointer_width c = reserved /\ discriminant_bits c = data /\
    (default = true <-> selected None = Some c)).
  { cbn [doc_table In] in H.
    repeat match type of H with _ \/ _ => destruct H as [H|H] | False => destruct H end; injection H as <- <- <- <-;
      eexists; (split; [vm_compute; reflexivity|]); (split; [reflexivity|]); (split; [reflexivity|]);
      (split; intros X; [first [discriminate X | vm_compute; reflexivity]|]);
      first [reflexivity | apply (f_equal (option_map pointer_width)) in X; vm_compute in X; discriminate X]. }
  destruct G as (c & G1 & G2 & G3 & G4). exists c. split; [exact G1|]. split; [exact G2|]. split; [exact G3|].
  split; [|exact G4]. intros t p d <- Ht Hp Hd. rewrite <- G2 in Hp. rewrite <- G3 in Hd. unfold tp_discriminant.
  apply fetch_store_in; assumption.
Qed.

(** "anywhere from 7 to 16 bits of arbitrary data", [/repo/src/lib.rs:83]: true exactly up to 57bits. *)
Theorem C58_seven : forall env c, selected env = Some c ->
  (7 <= discriminant_bits c <= 16 <-> pointer_width c <= 57).
Proof.
  intros env c H. pose proof (selected_in_table env c H) as Hin.
  pose proof (proj1 (Forall_forall (fun c => 7 <= discriminant_bits c <= 16 <-> pointer_width c <= 57) table)) as F.
  apply F; [|exact Hin]. clear. repeat (constructor; [cbn; lia|]). constructor.
Qed.

(** Not in the default setting. *)
Theorem C58_refuted : ~ forall env c, selected env = Some c -> 7 <= discriminant_bits c.
Proof. intros H. specialize (H None cfg60 eq_refl). cbn in H. lia. Qed.

(** "The number of variants must be <= MAX_DISCRIMINANT", [/repo/src/tagged_box_macro/mod.rs:622]:
    such enums work, but so do those with one more variant. *)
Theorem C58_variants : forall E def x v s, macro_setup E def x ->
  N.of_nat (length (e_variants def)) <= max_discriminant (cfg (tgt E)) + 1 -> evalue_ok def v ->
  (exists w s1, container_from E x v s = Ok w s1 /\ keeps s s1 /\
     forall s2, keeps s1 s2 -> macro_into_inner E x w s2 = Ok v s2) \/
  (exists k U s1, In (ev_variant v, k) (e_variants def) /\ storage k = Some U /\ h_size U <> 0 /\
     alloc_fn E s (h_size U) (h_align U) = None /\ container_from E x v s = Panicked PanicNullAlloc s1).
Proof.
  intros E def x v s Hs Hn Hv.
  assert (Hf : evalue_fits E def v) by (eapply variants_all_fit; [exact (setup_u8 _ _ _ Hs)|exact Hn|exact Hv]).
  destruct (C26_round_trip E def x v s Hs Hf) as [H | H]; [left; exact H|right; exact H].
Qed.

(** ** Examples *)

(** Sixteen variants in the default setting, one more than documented: the last one works. *)
Example C58_example :
  let x := match expand (units 16) with Some x => x | None => item_x end in
  macro_setup (bump_env dbg60) (units 16) x /\ N.of_nat (length (e_variants (units 16))) = max_discriminant cfg60 + 1 /\
  evalue_ok (units 16) (EV (vname 15) []) /\
  result (bind (container_from (bump_env dbg60) x (EV (vname 15) [])) (macro_into_inner (bump_env dbg60) x) st0)
    = Some (EV (vname 15) []).
Proof.
  split; [|split; [reflexivity|split; [|vm_compute; reflexivity]]].
  - constructor.
    + apply bump_env_ok, example_targets_ok.
    + apply units_ok. lia.
    + vm_compute. reflexivity.
    + vm_compute. reflexivity.
  - exists KUnit. split; [vm_compute; tauto|constructor].
Qed.

(** ** Instances: each theorem applied to a concrete case that meets its hypotheses *)

Example C58_table_example : exists c, selected (Some "50bits"%string) = Some c /\ pointer_width c = 50 /\ discriminant_bits c = 14 /\
  selected None <> Some c.
Proof.
  destruct (C58_table "50bits" 50 14 false) as (c & A & B & C & _ & D); [cbn; tauto|]. exists c. repeat (split; [assumption|]).
  intros H. apply D in H. discriminate H.
Qed.

Example C58_seven_example : ~ 7 <= discriminant_bits cfg60 <= 16 /\ 7 <= discriminant_bits cfg48 <= 16.
Proof.
  rewrite (C58_seven None cfg60 eq_refl), (C58_seven (Some "48bits"%string) cfg48 eq_refl). vm_compute. split; [intros H; apply H; reflexivity|discriminate].
Qed.

Example C58_variants_example : exists x w s, expand (units 16) = Some x /\
  container_from (bump_env dbg60) x (EV (vname 15) []) st0 = Ok w s /\ macro_into_inner (bump_env dbg60) x w s = Ok (EV (vname 15) []) s.
Proof.
  destruct C58_example as (S & L & V & R). set (x := match expand (units 16) with Some x => x | None => item_x end) in *.
  destruct (C58_variants _ _ _ _ st0 S ltac:(rewrite L; apply N.le_refl) V) as [(w & s & H & _ & K)|(k & U & s & _ & _ & _ & _ & H)].
  - exists x, w, s. split; [exact (ms_expand _ _ _ S)|]. split; [exact H|apply K, keeps_refl].
  - unfold bind in R. rewrite H in R. discriminate R.
Qed.

Print Assumptions C58_table.
Print Assumptions C58_seven.
Print Assumptions C58_refuted.
Print Assumptions C58_variants.
