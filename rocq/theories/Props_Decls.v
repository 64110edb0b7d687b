(** What a container looks like from outside: size and auto traits, C54. *)
From Coq Require Import Arith NArith String Bool List Lia.
From Verif Require Import Words Config Mem Macro SpecMacro MacroFacts Bump Decls Props_Macro.
Import ListNotations.
Local Open Scope N_scope.

(** A tagged pointer, a box and a container all have the size and alignment of [u64], whatever the
    enum. *)
Theorem C54_size a64 x size : layout a64 tagged_pointer_decl = Some (8, a64) /\
  (forall T, layout a64 (tagged_box_decl T) = Some (8, a64)) /\ layout a64 (container_decl x size) = Some (8, a64).
Proof. repeat split. Qed.

(** A container is [Send] (or [Sync], or any other auto trait) exactly if all the enum's field types are. *)
Theorem C54_auto def x size part_has : expand def = Some x ->
  (auto part_has (container_decl x size) = true <-> forall f, In f (all_types def) -> part_has f = true).
Proof.
  intros H. unfold container_decl, tagged_box_decl, tagged_pointer_decl, enum_decl. cbn [auto].
  rewrite (xp_enum _ _ (expand_inv _ _ H)), flat_map_concat_map. fold (all_types def). rewrite !andb_true_r. cbn [andb].
  apply forallb_forall.
Qed.

(** So it is as good as the enum itself. *)
Theorem C54_like_enum def x size part_has : expand def = Some x ->
  auto part_has (container_decl x size) = auto part_has (enum_decl x size).
Proof. intros _. unfold container_decl, tagged_box_decl, tagged_pointer_decl. cbn [auto]. rewrite !andb_true_r. reflexivity. Qed.

(** A box has the auto traits of the type it is associated with; the type of the value in it
    ([new::<U>]) plays no part. *)
Theorem C54_box part_has T : auto part_has (tagged_box_decl T) = auto part_has T.
Proof. unfold tagged_box_decl, tagged_pointer_decl. cbn [auto]. rewrite !andb_true_r. reflexivity. Qed.

(** [String] is [Send]; let [i32] not be, then neither is the container, but [TaggedBox<()>] is, and
    one of these may hold an [i32]. *)
Example C54_example : expand item = Some item_x /\
  auto (fun f => true) (container_decl item_x 24) = true /\
  auto (fun f => negb (String.eqb (ty_name f) "i32")) (container_decl item_x 24) = false /\
  auto (fun f => negb (String.eqb (ty_name f) "i32")) (tagged_box_decl (DUser 0 1 [])) = true /\
  layout 4 (container_decl item_x 24) = Some (8, 4) /\
  layout 8 (DStruct [DU64; DU64]) = None.
Proof. repeat split; vm_compute; reflexivity. Qed.

(** ** Instances: each theorem applied to a concrete case that meets its hypotheses *)

(** On a 32-bit target whose [u64] is aligned to four bytes. *)
Example C54_size_example : layout 4 (container_decl item_x 24) = Some (8, 4).
Proof. apply C54_size. Qed.

Example C54_auto_example : auto (fun f => negb (String.eqb (ty_name f) "i32")) (container_decl item_x 24) <> true /\
  auto (fun f => true) (container_decl item_x 24) = true.
Proof.
  split; [intros H|apply (C54_auto item); [reflexivity|reflexivity]].
  apply (proj1 (C54_auto item item_x 24 _ eq_refl)) with (f := ty_i32) in H; [discriminate H|cbn; tauto].
Qed.

Example C54_like_enum_example : auto (fun f => negb (String.eqb (ty_name f) "i32")) (enum_decl item_x 24) = false.
Proof. rewrite <- (C54_like_enum item) by reflexivity. apply C54_example. Qed.

Example C54_box_example : auto (fun f => negb (String.eqb (ty_name f) "i32")) (tagged_box_decl (enum_decl item_x 24)) = false.
Proof. rewrite C54_box. apply C54_like_enum_example. Qed.

Print Assumptions C54_size.
Print Assumptions C54_auto.
Print Assumptions C54_like_enum.
Print Assumptions C54_box.
