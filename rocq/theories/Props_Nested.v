(** Containers inside containers: C55. *)
From Coq Require Import Arith NArith String Bool List Lia.
From Verif Require Import Words Config Spec SpecMem ConfigFacts Pointer PointerFacts Mem MemFacts Box BoxFacts Bump
  Macro SpecMacro MacroFacts Props_Pointer Props_Box Props_Macro Props_Clone Nested.
Import ListNotations.
Local Open Scope N_scope.

(** ** Spec: trees as plain data *)

Section Spec.
Variable def : edef.

(** A tree of the enum: every node is a variant with fields of its types; [FSub] stands where the field
    type is the container. *)
Fixpoint tree_ok (t : tree) : Prop :=
  match t with
  | Node v f => exists k, In (v, k) (e_variants def) /\ forest_ok (kind_types k) f
  end
with forest_ok (tys : list rty) (f : forest) : Prop :=
  match f with
  | FNil => tys = []
  | FLeaf t b r => exists tys', tys = t :: tys' /\ ty_name t <> e_container def /\ has_type t b /\ forest_ok tys' r
  | FSub u r => exists t tys', tys = t :: tys' /\ ty_name t = e_container def /\ tree_ok u /\ forest_ok tys' r
  end.

Fixpoint names (t : tree) : list string :=
  match t with Node v f => v :: forest_names f end
with forest_names (f : forest) : list string :=
  match f with FNil => [] | FLeaf _ _ r => forest_names r | FSub t r => names t ++ forest_names r end.

(** How many nodes are on the longest way down. *)
Fixpoint depth (t : tree) : nat :=
  match t with Node _ f => S (forest_depth f) end
with forest_depth (f : forest) : nat :=
  match f with FNil => 0 | FLeaf _ _ r => forest_depth r | FSub t r => Nat.max (depth t) (forest_depth r) end.

(** Nodes that take a heap block. *)
Definition takes_block (v : string) : nat :=
  match assoc v (e_variants def) with
  | Some k => match storage k with Some U => if h_size U =? 0 then 0 else 1 | None => 0 end
  | None => 0
  end.
Definition heap_nodes (t : tree) : nat := list_sum (map takes_block (names t)).

(** Same shape, corresponding leaves related. *)
Inductive alike (R : rty -> leafval -> leafval -> Prop) : tree -> tree -> Prop :=
| alike_node v f g : forest_alike R f g -> alike R (Node v f) (Node v g)
with forest_alike (R : rty -> leafval -> leafval -> Prop) : forest -> forest -> Prop :=
| alike_nil : forest_alike R FNil FNil
| alike_leaf t b c f g : R t b c -> forest_alike R f g -> forest_alike R (FLeaf t b f) (FLeaf t c g)
| alike_sub t u f g : alike R t u -> forest_alike R f g -> forest_alike R (FSub t f) (FSub u g).

(** Order of trees: the earlier variant first, then field by field. *)
Variable leaf_cmp : rty -> leafval -> leafval -> comparison.

Fixpoint before (v w : string) (l : list (string * vkind)) : comparison :=
  match l with
  | [] => Eq
  | (n, _) :: r => match String.eqb n v, String.eqb n w with
                   | true, true => Eq | true, false => Lt | false, true => Gt | false, false => before v w r end
  end.

Fixpoint tree_cmp (t u : tree) : comparison :=
  match t, u with
  | Node v f, Node w g => match before v w (e_variants def) with Eq => forest_cmp f g | c => c end
  end
with forest_cmp (f g : forest) : comparison :=
  match f, g with
  | FLeaf t b r, FLeaf _ c q => match leaf_cmp t b c with Eq => forest_cmp r q | o => o end
  | FSub t r, FSub u q => match tree_cmp t u with Eq => forest_cmp r q | o => o end
  | _, _ => Eq
  end.
End Spec.

(** Trees that are the same up to [leaf_eq] at the leaves. *)
Fixpoint tree_eqb (leaf_eq : rty -> leafval -> leafval -> bool) (t u : tree) : bool :=
  match t, u with Node v f, Node w g => String.eqb v w && forest_eqb leaf_eq f g end
with forest_eqb (leaf_eq : rty -> leafval -> leafval -> bool) (f g : forest) : bool :=
  match f, g with
  | FNil, FNil => true
  | FLeaf t b r, FLeaf _ c q => leaf_eq t b c && forest_eqb leaf_eq r q
  | FSub t r, FSub u q => tree_eqb leaf_eq t u && forest_eqb leaf_eq r q
  | _, _ => false
  end.

Scheme tree_ind2 := Induction for tree Sort Prop with forest_ind2 := Induction for forest Sort Prop.
Combined Scheme tree_forest_ind from tree_ind2, forest_ind2.

Lemma before_position v w l : In v (map fst l) -> In w (map fst l) ->
  (position v l ?= position w l) = before v w l /\ (before v w l = Eq -> v = w).
Proof.
  induction l as [|[n k] l IH]; intros Hv Hw; [destruct Hv|]. cbn [map fst position before] in *.
  destruct (String.eqb_spec n v) as [Ev|Nv], (String.eqb_spec n w) as [Ew|Nw].
  - split; [reflexivity|congruence].
  - split; [|discriminate]. apply N.compare_lt_iff. lia.
  - split; [|discriminate]. apply N.compare_gt_iff. lia.
  - destruct IH as [IH1 IH2]; [destruct Hv; [contradiction|assumption]|destruct Hw; [contradiction|assumption]|].
    split; [|exact IH2]. rewrite <- IH1. destruct (N.compare_spec (position v l) (position w l)).
    + apply N.compare_eq_iff. lia.
    + apply N.compare_lt_iff. lia.
    + apply N.compare_gt_iff. lia.
Qed.

(** ** The bytes of a word *)

Lemma bytes_of_word n : forall w, w < 256 ^ N.of_nat n -> bytes_word (word_bytes n w) = w.
Proof.
  induction n as [|n IH]; intros w H.
  - cbn in H. cbn. lia.
  - cbn [word_bytes bytes_word]. rewrite IH.
    + pose proof (N.div_mod w 256 ltac:(discriminate)). lia.
    + rewrite Nnat.Nat2N.inj_succ, N.pow_succ_r' in H. apply N.div_lt_upper_bound; [discriminate|exact H].
Qed.

Lemma dec_enc w : w < 2 ^ 64 -> dec (enc w) = w.
Proof. intros H. apply bytes_of_word. exact H. Qed.

Lemma word_bytes_len n : forall w, length (word_bytes n w) = n.
Proof. induction n; intros w; cbn; [reflexivity|now rewrite IHn]. Qed.

Lemma word_bytes_valid n : forall w, word_valid (word_bytes n w) = true.
Proof.
  induction n as [|n IH]; intros w; [reflexivity|]. cbn [word_bytes word_valid forallb].
  apply andb_true_iff. split; [apply N.ltb_lt, N.mod_lt; discriminate|apply IH].
Qed.

Lemma enc_type name align copy w : has_type (container_ty name align copy) (enc w).
Proof. split; [apply word_bytes_len|apply word_bytes_valid]. Qed.

(** ** A tree in memory *)

(** The enum mentions its own container, as [List] in [enum Cell { Nil, Cons(u32, List) }]. *)
Record recursive (E : env) (def : edef) (x : expansion) : Prop := {
  rc_setup : macro_setup E def x;
  rc_some : exists t, In t (all_types def) /\ ty_name t = e_container def;
  rc_self : forall t, In t (all_types def) -> ty_name t = e_container def ->
    exists a, t = container_ty (e_container def) a (e_copy def)
}.

(** Such an enum cannot have a [Drop] impl (the generated code moves fields out of it, so they would
    have to be [Copy], hence the enum as well). *)
Theorem C55_no_drop E def x : recursive E def x -> e_drop def = false.
Proof.
  intros H. destruct (e_drop def) eqn:D; [exfalso|reflexivity].
  destruct (rc_some _ _ _ H) as (t & Ht & Hn). destruct (rc_self _ _ _ H t Ht Hn) as (a & Et).
  pose proof (ms_def _ _ _ (rc_setup _ _ _ H)) as Hd.
  pose proof (proj1 (Forall_forall _ _) (do_copy _ Hd (or_intror D)) t Ht) as C. rewrite Et in C. cbn in C.
  rewrite (do_copy_drop _ Hd C) in D. discriminate.
Qed.

(** Nor can it be the only field of a tuple variant ([From<List> for List] exists already). *)
Theorem C55_no_wrapper E def x v t : recursive E def x -> In (v, KTuple [t]) (e_variants def) -> ty_name t <> e_container def.
Proof.
  intros H Hin Hn. pose proof (do_from _ (ms_def _ _ _ (rc_setup _ _ _ H))) as N. apply NoDup_cons_iff in N as [N _].
  apply N. right. apply in_concat. exists (from_keys (KTuple [t])). split; [|left; exact Hn].
  apply in_map_iff. exists (v, KTuple [t]). auto.
Qed.

(** [n] bytes at [a] overlap no block of [s]. *)
Definition clear_of (s : st) (a n : N) : Prop := forall b, In b (blocks s) -> a + n <= b_base b \/ b_base b + b_size b <= a.

Section Held.
Variables (E : env) (def : edef) (x : expansion).

(** Where a node lives. *)
Definition node_at (P : N -> N -> Prop) (w : tagged_ptr) (k : vkind) : Prop :=
  match storage k with Some U => h_size U = 0 \/ P (tb_as_ptr E w) (h_size U) | None => True end.

(** [w] is a container holding the tree, all blocks of which satisfy [P] (address, size). *)
Fixpoint holds (P : N -> N -> Prop) (s : st) (w : tagged_ptr) (t : tree) : Prop :=
  w < 2 ^ 64 /\
  match t with
  | Node v f => exists vs k, In (v, k) (e_variants def) /\ boxed E def s w (EV v vs) /\ node_at P w k /\
      holds_fields P s (kind_types k) vs f
  end
with holds_fields (P : N -> N -> Prop) (s : st) (tys : list rty) (vs : hval) (f : forest) : Prop :=
  match f with
  | FNil => tys = [] /\ vs = []
  | FLeaf t b r => exists tys' vs', tys = t :: tys' /\ vs = b :: vs' /\ ty_name t <> e_container def /\ has_type t b /\
      holds_fields P s tys' vs' r
  | FSub u r => exists t tys' vs' w, tys = t :: tys' /\ vs = enc w :: vs' /\ ty_name t = e_container def /\
      holds P s w u /\ holds_fields P s tys' vs' r
  end.

Hypothesis Hr : recursive E def x.
Let Hs := rc_setup _ _ _ Hr.
Let Hself := rc_self _ _ _ Hr.
Let Hdrop := C55_no_drop _ _ _ Hr.
Let Hd := ms_def _ _ _ Hs.
Let Hx := ms_expand _ _ _ Hs.
Let H8 := setup_u8 _ _ _ Hs.
Let He := ms_env _ _ _ Hs.
Let X := expand_inv def x Hx.

Lemma holds_mono (P Q : N -> N -> Prop) s s' : (forall a n, P a n -> Q a n) -> keeps s s' ->
  (forall t w, holds P s w t -> holds Q s' w t) /\
  (forall f tys vs, holds_fields P s tys vs f -> holds_fields Q s' tys vs f).
Proof.
  intros HP K. apply tree_forest_ind.
  - intros v f IH w (Hw & vs & k & H1 & H2 & H3 & H4). split; [exact Hw|]. exists vs, k. split; [exact H1|].
    split; [eapply boxed_keeps; eassumption|]. split; [|apply IH, H4].
    unfold node_at in *. destruct (storage k); [|exact I]. destruct H3; auto.
  - auto.
  - intros t b r IH tys vs (tys' & vs' & H1 & H2 & H3 & H4 & H5). exists tys', vs'. auto 6.
  - intros u IHu r IHr tys vs (t & tys' & vs' & w & H1 & H2 & H3 & H4 & H5). exists t, tys', vs', w. auto 7.
Qed.

Lemma holds_keeps P s s' w t : keeps s s' -> holds P s w t -> holds P s' w t.
Proof. intros K. apply (holds_mono P P s s'); auto. Qed.
Lemma holds_fields_keeps P s s' tys vs f : keeps s s' -> holds_fields P s tys vs f -> holds_fields P s' tys vs f.
Proof. intros K. apply (holds_mono P P s s'); auto. Qed.

Lemma clear_keeps s s' a n : keeps s s' -> clear_of s' a n -> clear_of s a n.
Proof. intros K H b Hb. apply H, K, Hb. Qed.

(** Fields held are values of their types. *)
Lemma held_types P s : forall f tys vs, (forall t, In t tys -> In t (all_types def)) ->
  holds_fields P s tys vs f -> Forall2 has_type tys vs.
Proof.
  induction f as [|t b r IH|u r IH]; intros tys vs Hin H.
  - destruct H as [-> ->]. constructor.
  - destruct H as (tys' & vs' & -> & -> & H1 & H2 & H3). constructor; [exact H2|]. apply IH; [|exact H3].
    intros t' H'. apply Hin. right. exact H'.
  - destruct H as (t & tys' & vs' & w & -> & -> & H1 & H2 & H3). constructor.
    + destruct (Hself t (Hin t (or_introl eq_refl)) H1) as (a & ->). apply enc_type.
    + apply IH; [|exact H3]. intros t' H'. apply Hin. right. exact H'.
Qed.

Lemma kind_all v k t : In (v, k) (e_variants def) -> In t (kind_types k) -> In t (all_types def).
Proof.
  intros H Ht. unfold all_types. rewrite <- flat_map_concat_map. apply in_flat_map. exists (v, k). auto.
Qed.

Lemma kind_unique v k k' : In (v, k) (e_variants def) -> In (v, k') (e_variants def) -> k = k'.
Proof.
  intros H H'. pose proof (assoc_in _ _ _ (do_names _ Hd) H). pose proof (assoc_in _ _ _ (do_names _ Hd) H'). congruence.
Qed.

Lemma is_self_eq t : is_self x t = String.eqb (ty_name t) (e_container def).
Proof. unfold is_self. rewrite (xp_container _ _ X). reflexivity. Qed.

Lemma enum_kind v k : In (v, k) (e_variants def) -> assoc v (x_enum x) = Some k.
Proof. intros H. rewrite (xp_enum _ _ X). apply assoc_in; [apply (do_names _ Hd)|exact H]. Qed.

(** *** Words made are words *)

Lemma packed_word p d : p < 2 ^ pointer_width (cfg (tgt E)) -> store_discriminant (tgt E) p d < 2 ^ 64.
Proof. intros L. apply store_lt; [apply He|]. pose proof (w_le_64 (tgt E) (eo_target _ He)). lia. Qed.

Lemma container_word c k s w s' : In (ev_variant c, k) (e_variants def) -> Forall2 has_type (kind_types k) (ev_fields c) ->
  tag_fits E def (ev_variant c) -> container_from E x c s = Ok w s' -> w < 2 ^ 64.
Proof.
  intros Hin Ht Hf R. destruct c as [v vs]. cbn [ev_variant ev_fields] in *. destruct (In_nth_error _ _ Hin) as [i Hi].
  destruct (fits_nth E def Hd H8 He i v k Hi Hf) as [Hm Hmod].
  unfold container_from in R. rewrite (macro_into_eq E def x Hd Hx i v k vs s Hi) in R by (symmetry; eapply Forall2_len, Ht).
  rewrite at_exit_eq, Hmod in R. unfold store_kind in R.
  pose proof (max_disc_lt _ (eo_target _ He) _ Hm) as Hm'.
  destruct (storage k) as [U|] eqn:Es.
  - destruct (storage_legal k U (kind_types_wf _ _ _ Hd Hin) Es) as [Hl Hty].
    assert (Hv : hval_ok U vs) by (unfold hval_ok; rewrite Hty; exact Ht).
    destruct (tb_new_spec E (eo_target _ He) (eo_alloc _ He) U vs (N.of_nat i) s (eo_fits _ He) Hl Hv Hm)
      as [(Hz & w' & R' & _ & _ & W & _) | [(Hz & Hn & R') | (Hz & p & w' & Hp & R' & _ & _ & W & _)]];
      rewrite R' in R; [| discriminate |]; injection R as <- _; rewrite W; unfold pack.
    + destruct (pow2_small E (eo_target _ He) _ (ll_align U Hl)) as [L1 _].
      rewrite <- (store_in_range (tgt E) (eo_target _ He)) by assumption. apply packed_word, L1.
    + assert (L : p < 2 ^ pointer_width (cfg (tgt E))).
      { apply (max_ptr_eq (tgt E) (eo_target _ He)). eapply (eo_fits _ He); [|apply (ll_align U Hl)|exact Hp]. lia. }
      rewrite <- (store_in_range (tgt E) (eo_target _ He)) by assumption. apply packed_word, L.
  - cbn [ret] in R. injection R as <- _. apply packed_word, (proj1 (pow2_small E (eo_target _ He) _ (do_align _ Hd))).
Qed.

(** The allocator had no memory for a node, when the live blocks were those of [s']. *)
Definition short (s' : st) : Prop := exists v k U s0, In (v, k) (e_variants def) /\ storage k = Some U /\ h_size U <> 0 /\
  alloc_fn E s0 (h_size U) (h_align U) = None /\ keeps s0 s' /\ blocks s' = blocks s0.

(** Storing a node whose fields are held already. *)
Lemma store_node s0 s v k vs f : keeps s0 s -> In (v, k) (e_variants def) -> holds_fields (clear_of s0) s (kind_types k) vs f ->
  tag_fits E def v ->
  (exists w s', container_from E x (EV v vs) s = Ok w s' /\ keeps s s' /\ holds (clear_of s0) s' w (Node v f) /\
     length (blocks s') = (length (blocks s) + takes_block def v)%nat) \/
  (exists s', container_from E x (EV v vs) s = Panicked PanicNullAlloc s' /\ keeps s s' /\ short s').
Proof.
  intros K Hin Hf Hfit.
  assert (Ht : Forall2 has_type (kind_types k) vs) by (eapply held_types; [|exact Hf]; intros t; eapply kind_all, Hin).
  destruct (container_from_fresh E def x (EV v vs) k s Hs Hin Ht Hfit)
    as [(w & s3 & F1 & F2 & F3 & F4 & _) | (U & s3 & A1 & A2 & A3 & F1 & F2 & F3 & _)];
    [left|right; exists s3; split; [exact F1|]; split; [exact F2|]; exists v, k, U, s; auto 6].
  exists w, s3. split; [exact F1|]. split; [exact F2|].
  assert (Tk : takes_block def v = match storage k with Some U => if h_size U =? 0 then 0%nat else 1%nat | None => 0%nat end)
    by (unfold takes_block; rewrite (assoc_in _ _ _ (do_names _ Hd) Hin); reflexivity).
  rewrite Tk. unfold own_block in F4. split.
  - split; [exact (container_word (EV v vs) k s w s3 Hin Ht Hfit F1)|]. exists vs, k. split; [exact Hin|]. split; [exact F3|].
    split; [|eapply holds_fields_keeps; eassumption]. unfold node_at. destruct (storage k) as [U|]; [|exact I].
    destruct (N.eqb_spec (h_size U) 0); [left; assumption|right]. eapply clear_keeps; [exact K|]. exact (proj2 F4).
  - destruct (storage k) as [U|]; [destruct (N.eqb_spec (h_size U) 0)|].
    + rewrite F4. lia.
    + destruct F4 as [-> _]. cbn [length]. lia.
    + rewrite F4. lia.
Qed.

(** *** Putting a tree together *)

Definition outcome_of {A} (good : A -> st -> Prop) (bad : panic -> st -> Prop) (s : st) (r : res A) : Prop :=
  (exists a s', r = Ok a s' /\ keeps s s' /\ good a s') \/ (exists p s', r = Panicked p s' /\ keeps s s' /\ bad p s').

Lemma outcome_bind {A B} (good : A -> st -> Prop) good' bad (m : M A) (f : A -> M B) s :
  outcome_of good bad s (m s) ->
  (forall a s', keeps s s' -> good a s' -> outcome_of good' bad s' (f a s')) ->
  outcome_of (fun b s' => good' b s') bad s (bind m f s).
Proof.
  intros [(a & s1 & R & K & G) | (p & s1 & R & K & G)] H; unfold bind; rewrite R.
  - destruct (H a s1 K G) as [(b & s2 & R2 & K2 & G2) | (p & s2 & R2 & K2 & G2)]; [left|right].
    + exists b, s2. split; [exact R2|]. split; [eapply keeps_trans; eassumption|exact G2].
    + exists p, s2. split; [exact R2|]. split; [eapply keeps_trans; eassumption|exact G2].
  - right. exists p, s1. auto.
Qed.

Lemma outcome_ret {A} (good : A -> st -> Prop) bad a s : good a s -> outcome_of good bad s (ret a s).
Proof. intros H. left. exists a, s. split; [reflexivity|]. split; [apply keeps_refl|exact H]. Qed.

Lemma outcome_weaken {A} (good good' : A -> st -> Prop) (bad bad' : panic -> st -> Prop) s r :
  (forall a s', keeps s s' -> good a s' -> good' a s') -> (forall p s', bad p s' -> bad' p s') ->
  outcome_of good bad s r -> outcome_of good' bad' s r.
Proof. intros H H' [(a & s' & -> & K & G) | (p & s' & -> & K & G)]; [left|right]; eauto 6. Qed.

Lemma build_spec :
  (forall t s, tree_ok def t -> Forall (tag_fits E def) (names t) ->
     outcome_of (fun w s' => holds (clear_of s) s' w t /\ length (blocks s') = (length (blocks s) + heap_nodes def t)%nat)
       (fun p s' => p = PanicNullAlloc /\ short s') s (build E x t s)) /\
  (forall f tys s, forest_ok def tys f -> Forall (tag_fits E def) (forest_names f) ->
     outcome_of (fun vs s' => holds_fields (clear_of s) s' tys vs f /\
         length (blocks s') = (length (blocks s) + list_sum (map (takes_block def) (forest_names f)))%nat)
       (fun p s' => p = PanicNullAlloc /\ short s') s (build_fields E x f s)).
Proof.
  apply tree_forest_ind.
  - intros v f IH s (k & Hin & Hf) Hn. cbn [names] in Hn. inversion Hn; subst. cbn [build].
    eapply outcome_bind; [apply (IH (kind_types k)); assumption|]. cbn beta. intros vs s1 K [Hv Hl].
    destruct (store_node s s1 v k vs f K Hin Hv) as [(w & s2 & R & K2 & Hh & Hl2) | (s2 & R & K2 & Sh)]; [assumption|left|right].
    + exists w, s2. split; [exact R|]. split; [exact K2|]. split; [exact Hh|]. rewrite Hl2, Hl. unfold heap_nodes.
      cbn [names map list_sum fold_right]. unfold list_sum. lia.
    + exists PanicNullAlloc, s2. auto.
  - intros tys s -> _. cbn [build_fields]. apply outcome_ret. cbn. split; [auto|lia].
  - intros t b r IH tys s (tys' & -> & Hn & Ht & Hr') Hf. cbn [build_fields forest_names] in *.
    eapply outcome_bind; [apply (IH tys'); assumption|]. cbn beta. intros vs s1 K [Hv Hl]. apply outcome_ret.
    split; [|exact Hl]. exists tys', vs. auto 6.
  - intros u IHu r IHr tys s (t & tys' & -> & Hn & Hu & Hr') Hf. cbn [build_fields forest_names] in *.
    apply Forall_app in Hf as [Hf1 Hf2].
    eapply outcome_bind; [apply IHu; assumption|]. cbn beta. intros w s1 K [Hw Hl].
    eapply outcome_bind; [apply (IHr tys'); assumption|]. cbn beta. intros vs s2 K2 [Hv Hl2]. apply outcome_ret. split.
    + exists t, tys', vs, w. split; [reflexivity|]. split; [reflexivity|]. split; [exact Hn|]. split.
      * eapply holds_keeps; eassumption.
      * eapply (proj2 (holds_mono (clear_of s1) (clear_of s) s2 s2 ltac:(intros a n; apply clear_keeps, K) (keeps_refl s2))), Hv.
    + rewrite Hl2, Hl, map_app, list_sum_app. unfold heap_nodes. lia.
Qed.

(** *** Taking it apart *)

Lemma take_spec P n s :
  (forall t w, (depth t <= n)%nat -> holds P s w t -> take E x n w s = Ok t s) /\
  (forall f tys vs, (forest_depth f <= n)%nat -> holds_fields P s tys vs f -> take_fields x (take E x n) tys vs s = Ok f s).
Proof.
  revert n. assert (G :
  (forall t n w, (depth t <= n)%nat -> holds P s w t -> take E x n w s = Ok t s) /\
  (forall f n tys vs, (forest_depth f <= n)%nat -> holds_fields P s tys vs f -> take_fields x (take E x n) tys vs s = Ok f s)).
  { apply tree_forest_ind.
    - intros v f IH n w Hn (Hw & vs & k & Hin & B & _ & Hf). cbn [depth] in Hn. destruct n as [|n]; [lia|]. cbn [take].
      unfold bind at 1. rewrite (boxed_into_inner E def x Hd Hx H8 s w _ B). cbn [ev_variant ev_fields].
      rewrite (enum_kind v k Hin). unfold bind. rewrite (IH n); [reflexivity|lia|exact Hf].
    - intros n tys vs _ [-> ->]. reflexivity.
    - intros t b r IH n tys vs Hn (tys' & vs' & -> & -> & Ht & _ & Hf). cbn [take_fields forest_depth] in *.
      rewrite is_self_eq, (proj2 (String.eqb_neq _ _) Ht). unfold bind. rewrite (IH n); auto.
    - intros u IHu r IHr n tys vs Hn (t & tys' & vs' & w & -> & -> & Ht & Hu & Hf). cbn [take_fields forest_depth] in *.
      rewrite is_self_eq, (proj2 (String.eqb_eq _ _) Ht).
      rewrite dec_enc by (destruct u; apply Hu). unfold bind. rewrite (IHu n); [|lia|exact Hu]. rewrite (IHr n); [reflexivity|lia|exact Hf]. }
  intros n. split; intros; apply G; assumption.
Qed.

(** *** Cloning *)

Variable L : leaf_impls.
Variable R : rty -> leafval -> leafval -> Prop.
Variable Pl : panic -> Prop.

Definition a_leaf (t : rty) : Prop := In t (all_types def) /\ ty_name t <> e_container def.

Definition clones_leaves : Prop := forall t b s, a_leaf t -> has_type t b ->
  outcome_of (fun c _ => has_type t c /\ R t b c) (fun p _ => Pl p) s (l_clone L t b s).

Lemma ref_held s w v T (cb : evalue -> T -> M T) c : boxed E def s w v -> ref_from_tagged_box (macro_taggable E x) w cb c s = cb v c s.
Proof. intros B. apply (boxed_ref E def x Hd Hx H8 s w v T cb c B). left. exact Hdrop. Qed.

Definition clone_panic (p : panic) (s' : st) : Prop := (p = PanicNullAlloc /\ short s') \/ Pl p.

Lemma names_fit v f : Forall (tag_fits E def) (names (Node v f)) -> tag_fits E def v /\ Forall (tag_fits E def) (forest_names f).
Proof. intros H. inversion H. auto. Qed.

Lemma clone_spec P : clones_leaves ->
  (forall t n w s, (depth t <= n)%nat -> Forall (tag_fits E def) (names t) -> holds P s w t ->
     outcome_of (fun w' s' => exists t', alike R t t' /\ holds (clear_of s) s' w' t') clone_panic s (container_clone E x L n w s)) /\
  (forall f n tys vs s, (forest_depth f <= n)%nat -> Forall (tag_fits E def) (forest_names f) ->
     (forall t, In t tys -> In t (all_types def)) -> holds_fields P s tys vs f ->
     outcome_of (fun vs' s' => exists f', forest_alike R f f' /\ holds_fields (clear_of s) s' tys vs' f') clone_panic s
       (clone_fields x L (container_clone E x L n) tys vs s)).
Proof.
  intros HL. apply tree_forest_ind.
  - intros v f IH n w s Hn Hfit (Hw & vs & k & Hin & B & _ & Hf). apply names_fit in Hfit as [Hfit Hfit'].
    cbn [depth] in Hn. destruct n as [|n]; [lia|]. cbn [container_clone].
    assert (Eq : tb_clone (macro_taggable E x) (enum_clone x L (container_clone E x L n)) w s =
       bind (clone_fields x L (container_clone E x L n) (kind_types k) vs) (fun vs' => container_from E x (EV v vs')) s).
    { unfold tb_clone, bind at 1. rewrite (ref_held s w _ _ _ _ B). unfold enum_clone. cbn [ev_variant ev_fields].
      rewrite (enum_kind v k Hin). unfold bind, ret.
      destruct (clone_fields x L (container_clone E x L n) (kind_types k) vs s); reflexivity. }
    rewrite Eq. eapply outcome_bind; [apply IH; [lia|exact Hfit'|intros t; apply (kind_all v k t Hin)|exact Hf]|].
    cbn beta. intros vs' s1 K (f' & A & Hf').
    destruct (store_node s s1 v k vs' f' K Hin Hf' Hfit) as [(w' & s2 & R2 & K2 & Hh & _) | (s2 & R2 & K2 & Sh)]; [left|right].
    + exists w', s2. split; [exact R2|]. split; [exact K2|]. exists (Node v f'). split; [constructor; exact A|exact Hh].
    + exists PanicNullAlloc, s2. split; [exact R2|]. split; [exact K2|left; auto].
  - intros n tys vs s _ _ _ [-> ->]. cbn [clone_fields]. apply outcome_ret. exists FNil. split; [constructor|split; reflexivity].
  - intros t b r IH n tys vs s Hn Hfit Hall (tys' & vs' & -> & -> & Ht & Hb & Hf). cbn [clone_fields forest_depth forest_names] in *.
    rewrite is_self_eq, (proj2 (String.eqb_neq _ _) Ht).
    eapply outcome_bind.
    { eapply outcome_weaken; [| |apply HL; [split; [apply Hall; left; reflexivity|exact Ht]|exact Hb]].
      - intros a s' _ G. exact G.
      - intros p s' Hp. right. exact Hp. }
    cbn beta. intros c s1 K1 [Hc HR].
    eapply outcome_bind; [apply (IH n tys' vs'); [exact Hn|exact Hfit|intros; apply Hall; right; assumption|eapply holds_fields_keeps; eassumption]|].
    cbn beta. intros vs2 s2 K2 (f' & A & Hf'). apply outcome_ret. exists (FLeaf t c f'). split; [constructor; assumption|].
    exists tys', vs2. split; [reflexivity|]. split; [reflexivity|]. split; [exact Ht|]. split; [exact Hc|].
    eapply (proj2 (holds_mono (clear_of s1) (clear_of s) s2 s2 ltac:(intros a m; apply clear_keeps, K1) (keeps_refl s2))), Hf'.
  - intros u IHu r IHr n tys vs s Hn Hfit Hall (t & tys' & vs' & w & -> & -> & Ht & Hu & Hf).
    cbn [clone_fields forest_depth forest_names] in *. apply Forall_app in Hfit as [Hfit1 Hfit2].
    rewrite is_self_eq, (proj2 (String.eqb_eq _ _) Ht). rewrite dec_enc by (destruct u; apply Hu).
    eapply outcome_bind with (good := fun c s' => exists w' u', c = enc w' /\ alike R u u' /\ holds (clear_of s) s' w' u').
    { eapply outcome_bind; [apply (IHu n w s); [lia|exact Hfit1|exact Hu]|]. cbn beta.
      intros w' s1 K1 (u' & A & Hh). apply outcome_ret. exists w', u'. auto. }
    intros c s1 K1 (w' & u' & -> & A & Hh).
    eapply outcome_bind; [apply (IHr n tys' vs'); [lia|exact Hfit2|intros; apply Hall; right; assumption|eapply holds_fields_keeps; eassumption]|].
    cbn beta. intros vs2 s2 K2 (f' & A' & Hf'). apply outcome_ret. exists (FSub u' f'). split; [constructor; assumption|].
    exists t, tys', vs2, w'. split; [reflexivity|]. split; [reflexivity|]. split; [exact Ht|]. split; [eapply holds_keeps; eassumption|].
    eapply (proj2 (holds_mono (clear_of s1) (clear_of s) s2 s2 ltac:(intros a m; apply clear_keeps, K1) (keeps_refl s2))), Hf'.
Qed.

(** *** Comparing *)

Variable leq : rty -> leafval -> leafval -> bool.
Definition compares_leaves : Prop := forall t b c s, a_leaf t -> has_type t b -> has_type t c ->
  exists s', l_eq L t b c s = Ok (leq t b c) s' /\ keeps s s'.

Lemma eq_spec P Q : compares_leaves ->
  (forall t n w u w' s, (depth t <= n)%nat -> holds P s w t -> holds Q s w' u ->
     exists s', container_eq E x L n w w' s = Ok (tree_eqb leq t u) s' /\ keeps s s') /\
  (forall f n tys vs g vs' s, (forest_depth f <= n)%nat -> (forall t, In t tys -> In t (all_types def)) ->
     holds_fields P s tys vs f -> holds_fields Q s tys vs' g ->
     exists s', eq_fields x L (container_eq E x L n) tys vs vs' s = Ok (forest_eqb leq f g) s' /\ keeps s s').
Proof.
  intros HL. apply tree_forest_ind.
  - intros v f IH n w [v' g] w' s Hn (_ & vs & k & Hin & B & _ & Hf) (_ & vs' & k' & Hin' & B' & _ & Hg).
    cbn [depth] in Hn. destruct n as [|n]; [lia|]. cbn [container_eq tree_eqb]. unfold tb_eq.
    rewrite (ref_held s w _ _ _ _ B), (ref_held s w' _ _ _ _ B'). unfold enum_eq. cbn [ev_variant ev_fields].
    destruct (String.eqb_spec v v') as [<-|]; [|exists s; split; [reflexivity|apply keeps_refl]]. cbn [andb].
    rewrite (enum_kind v k Hin). rewrite <- (kind_unique v k k' Hin Hin') in Hg.
    apply IH; [lia|intros t; apply (kind_all v k t Hin)|exact Hf|exact Hg].
  - intros n tys vs [|t b r|u r] vs' s _ _ [-> ->] Hg; cbn [holds_fields] in Hg.
    + exists s. split; [reflexivity|apply keeps_refl].
    + destruct Hg as (? & ? & Hg & _). discriminate.
    + destruct Hg as (? & ? & ? & ? & Hg & _). discriminate.
  - intros t b r IH n tys vs [|t' c r'|u r'] vs' s Hn Hall (tys1 & vs1 & -> & -> & Ht & Hb & Hf) Hg; cbn [holds_fields] in Hg.
    + destruct Hg as [Hg _]. discriminate.
    + destruct Hg as (tys2 & vs2 & Hg & -> & _ & Hc & Hg'). injection Hg as <- <-.
      cbn [eq_fields forest_depth forest_eqb] in *. rewrite is_self_eq, (proj2 (String.eqb_neq _ _) Ht).
      destruct (HL t b c s) as (s1 & R1 & K1); [split; [apply Hall; left; reflexivity|exact Ht]|exact Hb|exact Hc|].
      unfold bind. rewrite R1. destruct (leq t b c); [|exists s1; split; [reflexivity|exact K1]]. cbn [andb].
      destruct (IH n tys1 vs1 r' vs2 s1) as (s2 & R2 & K2); [exact Hn|intros; apply Hall; right; assumption
        |eapply holds_fields_keeps; eassumption|eapply holds_fields_keeps; eassumption|].
      exists s2. split; [exact R2|eapply keeps_trans; eassumption].
    + destruct Hg as (t' & ? & ? & ? & Hg & _ & Hn' & _). injection Hg as <- <-. contradiction.
  - intros u IHu r IHr n tys vs [|t' c r'|u' r'] vs' s Hn Hall (t & tys1 & vs1 & w1 & -> & -> & Ht & Hu & Hf) Hg; cbn [holds_fields] in Hg.
    + destruct Hg as [Hg _]. discriminate.
    + destruct Hg as (? & ? & Hg & _ & Hn' & _). injection Hg as <- <-. contradiction.
    + destruct Hg as (t' & tys2 & vs2 & w2 & Hg & -> & _ & Hu' & Hg'). injection Hg as <- <-.
      cbn [eq_fields forest_depth forest_eqb] in *. rewrite is_self_eq, (proj2 (String.eqb_eq _ _) Ht).
      rewrite !dec_enc by (first [destruct u; apply Hu | destruct u'; apply Hu']).
      destruct (IHu n w1 u' w2 s) as (s1 & R1 & K1); [lia|exact Hu|exact Hu'|].
      unfold bind. rewrite R1. destruct (tree_eqb leq u u'); [|exists s1; split; [reflexivity|exact K1]]. cbn [andb].
      destruct (IHr n tys1 vs1 r' vs2 s1) as (s2 & R2 & K2); [lia|intros; apply Hall; right; assumption
        |eapply holds_fields_keeps; eassumption|eapply holds_fields_keeps; eassumption|].
      exists s2. split; [exact R2|eapply keeps_trans; eassumption].
Qed.

Variable lcmp : rty -> leafval -> leafval -> comparison.
Definition orders_leaves : Prop := forall t b c s, a_leaf t -> has_type t b -> has_type t c ->
  exists s', l_cmp L t b c s = Ok (lcmp t b c) s' /\ keeps s s'.

Lemma forest_cmp_leaf t b c f g : forest_cmp def lcmp (FLeaf t b f) (FLeaf t c g) =
  match lcmp t b c with Eq => forest_cmp def lcmp f g | o => o end.
Proof. reflexivity. Qed.
Lemma forest_cmp_sub t u f g : forest_cmp def lcmp (FSub t f) (FSub u g) =
  match tree_cmp def lcmp t u with Eq => forest_cmp def lcmp f g | o => o end.
Proof. reflexivity. Qed.

Lemma cmp_spec P Q : orders_leaves ->
  (forall t n w u w' s, (depth t <= n)%nat -> holds P s w t -> holds Q s w' u ->
     exists s', container_cmp E x L n w w' s = Ok (tree_cmp def lcmp t u) s' /\ keeps s s') /\
  (forall f n tys vs g vs' s, (forest_depth f <= n)%nat -> (forall t, In t tys -> In t (all_types def)) ->
     holds_fields P s tys vs f -> holds_fields Q s tys vs' g ->
     exists s', cmp_fields x L (container_cmp E x L n) tys vs vs' s = Ok (forest_cmp def lcmp f g) s' /\ keeps s s').
Proof.
  intros HL. apply tree_forest_ind.
  - intros v f IH n w [v' g] w' s Hn (_ & vs & k & Hin & B & _ & Hf) (_ & vs' & k' & Hin' & B' & _ & Hg).
    cbn [depth] in Hn. destruct n as [|n]; [lia|]. cbn [container_cmp tree_cmp]. unfold tb_cmp.
    rewrite (ref_held s w _ _ _ _ B), (ref_held s w' _ _ _ _ B'). unfold enum_cmp. cbn [ev_variant ev_fields].
    rewrite (xp_enum _ _ X).
    destruct (before_position v v' (e_variants def)) as [-> Same]; [apply (in_map fst _ _ Hin)|apply (in_map fst _ _ Hin')|].
    destruct (before v v' (e_variants def)); [|exists s; split; [reflexivity|apply keeps_refl]..].
    rewrite <- (Same eq_refl) in *. rewrite (assoc_in _ _ _ (do_names _ Hd) Hin).
    rewrite <- (kind_unique v k k' Hin Hin') in Hg.
    apply IH; [lia|intros t; apply (kind_all v k t Hin)|exact Hf|exact Hg].
  - intros n tys vs [|t b r|u r] vs' s _ _ [-> ->] Hg; cbn [holds_fields] in Hg.
    + exists s. split; [reflexivity|apply keeps_refl].
    + destruct Hg as (? & ? & Hg & _). discriminate.
    + destruct Hg as (? & ? & ? & ? & Hg & _). discriminate.
  - intros t b r IH n tys vs [|t' c r'|u r'] vs' s Hn Hall (tys1 & vs1 & -> & -> & Ht & Hb & Hf) Hg; cbn [holds_fields] in Hg.
    + destruct Hg as [Hg _]. discriminate.
    + destruct Hg as (tys2 & vs2 & Hg & -> & _ & Hc & Hg'). injection Hg as <- <-.
      rewrite (forest_cmp_leaf t b c r r'). cbn [cmp_fields forest_depth] in *. rewrite is_self_eq, (proj2 (String.eqb_neq _ _) Ht).
      destruct (HL t b c s) as (s1 & R1 & K1); [split; [apply Hall; left; reflexivity|exact Ht]|exact Hb|exact Hc|].
      unfold bind. rewrite R1. destruct (lcmp t b c); [|exists s1; split; [reflexivity|exact K1]..].
      destruct (IH n tys1 vs1 r' vs2 s1) as (s2 & R2 & K2); [exact Hn|intros; apply Hall; right; assumption
        |eapply holds_fields_keeps; eassumption|eapply holds_fields_keeps; eassumption|].
      exists s2. split; [exact R2|eapply keeps_trans; eassumption].
    + destruct Hg as (t' & ? & ? & ? & Hg & _ & Hn' & _). injection Hg as <- <-. contradiction.
  - intros u IHu r IHr n tys vs [|t' c r'|u' r'] vs' s Hn Hall (t & tys1 & vs1 & w1 & -> & -> & Ht & Hu & Hf) Hg; cbn [holds_fields] in Hg.
    + destruct Hg as [Hg _]. discriminate.
    + destruct Hg as (? & ? & Hg & _ & Hn' & _). injection Hg as <- <-. contradiction.
    + destruct Hg as (t' & tys2 & vs2 & w2 & Hg & -> & _ & Hu' & Hg'). injection Hg as <- <-.
      rewrite (forest_cmp_sub u u' r r'). cbn [cmp_fields forest_depth] in *. rewrite is_self_eq, (proj2 (String.eqb_eq _ _) Ht).
      rewrite !dec_enc by (first [destruct u; apply Hu | destruct u'; apply Hu']).
      destruct (IHu n w1 u' w2 s) as (s1 & R1 & K1); [lia|exact Hu|exact Hu'|].
      unfold bind. rewrite R1. destruct (tree_cmp def lcmp u u'); [|exists s1; split; [reflexivity|exact K1]..].
      destruct (IHr n tys1 vs1 r' vs2 s1) as (s2 & R2 & K2); [lia|intros; apply Hall; right; assumption
        |eapply holds_fields_keeps; eassumption|eapply holds_fields_keeps; eassumption|].
      exists s2. split; [exact R2|eapply keeps_trans; eassumption].
Qed.
End Held.

(** ** The property *)

(** Building a tree of nested containers succeeds or runs out of memory. It takes one block per node
    with fields, each of them new, and [into_inner] all the way down gives the tree back. *)
Theorem C55_build E def x t s : recursive E def x -> tree_ok def t -> Forall (tag_fits E def) (names t) ->
  (exists w s1, build E x t s = Ok w s1 /\ keeps s s1 /\ holds E def (clear_of s) s1 w t /\
     length (blocks s1) = (length (blocks s) + heap_nodes def t)%nat /\
     forall n, (depth t <= n)%nat -> take E x n w s1 = Ok t s1) \/
  (exists s1, build E x t s = Panicked PanicNullAlloc s1 /\ keeps s s1 /\ short E def s1).
Proof.
  intros Hr Ht Hf. destruct (proj1 (build_spec E def x Hr) t s Ht Hf) as [(w & s1 & R & K & H & Hl) | (p & s1 & R & K & -> & Sh)];
    [left|right; eauto 7]. exists w, s1. repeat (split; [assumption|]). intros n Hn. apply (proj1 (take_spec E def x Hr _ n s1) t w Hn H).
Qed.

(** Whatever is done to other memory in between, [into_inner] all the way down gives back the tree. *)
Theorem C55_take E def x P t w s s' n : recursive E def x -> holds E def P s w t -> keeps s s' -> (depth t <= n)%nat ->
  take E x n w s' = Ok t s'.
Proof.
  intros Hr H K Hn. apply (proj1 (take_spec E def x Hr P n s') t w Hn). eapply holds_keeps; eassumption.
Qed.

(** Containers have no destructor. A node taken out and dropped takes only its own leaves along: the containers in it are lost, with
    everything below them still in memory. *)
Fixpoint leaves_dropped (f : forest) : list (string * leafval) :=
  match f with
  | FNil => []
  | FLeaf t b r => (if ty_drop t then [(ty_name t, b)] else []) ++ leaves_dropped r
  | FSub _ r => leaves_dropped r
  end.

Lemma own_leaves E def x P s : recursive E def x -> forall f tys vs, Forall (fun t => In t (all_types def)) tys ->
  holds_fields E def P s tys vs f -> destroyed (drop_events tys vs) = leaves_dropped f.
Proof.
  intros Hr. induction f as [|t b r IH|u r IH]; intros tys vs Hin H; cbn [holds_fields leaves_dropped] in *.
  - destruct H as [-> ->]. reflexivity.
  - destruct H as (tys' & vs' & -> & -> & _ & _ & H). inversion_clear Hin as [|? ? Hi1 Hi2]. cbn [drop_events].
    rewrite destroyed_app, (IH _ _ Hi2 H). destruct (ty_drop t); reflexivity.
  - destruct H as (t & tys' & vs' & w & -> & -> & Hn & _ & H). inversion_clear Hin as [|? ? Hi1 Hi2]. cbn [drop_events].
    destruct (rc_self _ _ _ Hr t Hi1 Hn) as (a & ->). rewrite destroyed_app, (IH _ _ Hi2 H). reflexivity.
Qed.

Theorem C55_lost E def x P v f w s : recursive E def x -> holds E def P s w (Node v f) ->
  exists s', bind (macro_into_inner E x w) (drop_evalue x) s = Ok tt s' /\ blocks s' = blocks s /\
    destroyed (events s') = destroyed (events s) ++ leaves_dropped f /\ holds E def P s' w (Node v f).
Proof.
  intros Hr H. pose proof (rc_setup _ _ _ Hr) as Hs. pose proof (ms_def _ _ _ Hs) as Hd. pose proof (ms_expand _ _ _ Hs) as Hx.
  pose proof (expand_inv _ _ Hx) as X.
  pose proof H as (_ & vs & k & Hin & B & _ & Hf). unfold bind.
  rewrite (boxed_into_inner E def x Hd Hx (setup_u8 _ _ _ Hs) s w (EV v vs) B). unfold drop_evalue. cbn [ev_variant ev_fields].
  rewrite (xp_enum _ _ X), (assoc_in _ _ _ (do_names _ Hd) Hin), (xp_drop _ _ X), (C55_no_drop _ _ _ Hr). eexists. split; [reflexivity|].
  cbn [blocks events]. split; [reflexivity|]. split.
  - rewrite destroyed_app. f_equal. cbn [app]. eapply own_leaves; [exact Hr| |exact Hf]. apply Forall_forall. intros t Ht.
    unfold all_types. apply in_concat. exists (kind_types k). split; [|exact Ht]. apply in_map_iff. exists (v, k). auto.
  - eapply holds_keeps; [exact Hr| |exact H]. intros b Hb. auto.
Qed.

(** [clone] of the outermost container copies the whole tree to new blocks; the leaves are copied with
    their own [clone]s, which may panic. *)
Theorem C55_clone E def x L R Pl P t w s n : recursive E def x -> clones_leaves def L R Pl ->
  Forall (tag_fits E def) (names t) -> holds E def P s w t -> (depth t <= n)%nat ->
  (exists w' s' t', container_clone E x L n w s = Ok w' s' /\ keeps s s' /\ alike R t t' /\
     holds E def (clear_of s) s' w' t' /\ holds E def P s' w t) \/
  (exists p s', container_clone E x L n w s = Panicked p s' /\ keeps s s' /\ holds E def P s' w t /\
     (p = PanicNullAlloc /\ short E def s' \/ Pl p)).
Proof.
  intros Hr HL Hf H Hn.
  destruct (proj1 (clone_spec E def x Hr L R Pl P HL) t n w s Hn Hf H) as [(w' & s' & Rn & K & t' & A & H') | (p & s' & Rn & K & Hp)];
    [left; exists w', s', t'|right; exists p, s']; repeat (split; [assumption|]);
    [|split; [|exact Hp]]; eapply holds_keeps; eassumption.
Qed.

(** Changing a node of the clone in place (or anything else in new blocks) does not show in the original. *)
Theorem C55_independent E def x P t w s s' w' v f k U old g : recursive E def x -> holds E def P s w t -> keeps s s' ->
  holds E def (clear_of s) s' w' (Node v f) -> In (v, k) (e_variants def) -> storage k = Some U ->
  box_holds E s' U w' old -> hval_ok U (g old) ->
  exists s'', tb_modify E U w' g s' = Ok tt s'' /\ box_holds E s'' U w' (g old) /\ holds E def P s'' w t.
Proof.
  intros Hr H K (_ & vs & k' & Hin' & _ & Hat & _) Hin Es Hold Hnew.
  pose proof (rc_setup _ _ _ Hr) as Hs. pose proof (ms_def _ _ _ Hs) as Hd.
  rewrite (kind_unique E def x Hr v k' k Hin' Hin) in *.
  destruct (storage_legal k U (kind_types_wf _ _ _ Hd Hin) Es) as [Hl _].
  destruct (C17_modify E U w' old g s' (ms_env _ _ _ Hs) Hl Hnew Hold) as (s2 & R & B & Bl & _ & _ & Other).
  exists s2. split; [exact R|]. split; [exact B|]. eapply holds_keeps; [exact Hr| |exact H].
  unfold node_at in Hat. rewrite Es in Hat. intros b Hb. destruct (K b Hb) as [K1 K2]. rewrite Bl. split; [exact K1|].
  intros y Hy. rewrite <- K2 by exact Hy. apply Other. destruct Hat as [Z|A]; [lia|]. destruct (A b Hb); lia.
Qed.

(** [==] compares the trees: the same variants in the same places, and equal leaves. *)
Theorem C55_eq E def x L leq P Q t u w w' s n : recursive E def x -> compares_leaves def L leq ->
  holds E def P s w t -> holds E def Q s w' u -> (depth t <= n)%nat ->
  exists s', container_eq E x L n w w' s = Ok (tree_eqb leq t u) s' /\ keeps s s'.
Proof. intros Hr HL H H' Hn. apply (proj1 (eq_spec E def x Hr L leq P Q HL)); assumption. Qed.

(** [cmp]: the first difference from left to right decides; earlier variants are smaller. *)
Theorem C55_cmp E def x L lcmp P Q t u w w' s n : recursive E def x -> orders_leaves def L lcmp ->
  holds E def P s w t -> holds E def Q s w' u -> (depth t <= n)%nat ->
  exists s', container_cmp E x L n w w' s = Ok (tree_cmp def lcmp t u) s' /\ keeps s s'.
Proof. intros Hr HL H H' Hn. apply (proj1 (cmp_spec E def x Hr L lcmp P Q HL)); assumption. Qed.

(** Leaves copied exactly give an equal tree. *)
Lemma alike_same : forall t u, alike (fun _ b c => b = c) t u -> t = u.
Proof.
  assert (G : (forall t u, alike (fun _ b c => b = c) t u -> t = u) /\
              (forall f g, forest_alike (fun _ b c => b = c) f g -> f = g)); [|apply G].
  apply tree_forest_ind.
  - intros v f IH u H. inversion H; subst. f_equal. apply IH. assumption.
  - intros g H. inversion H. reflexivity.
  - intros t b r IH g H. inversion H; subst. f_equal. apply IH. assumption.
  - intros t IHt r IHr g H. inversion H; subst. f_equal; [apply IHt|apply IHr]; assumption.
Qed.

(** A tree held is a tree of the enum. *)
Lemma held_ok E def P s : forall t w, holds E def P s w t -> tree_ok def t.
Proof.
  assert (G : (forall t w, holds E def P s w t -> tree_ok def t) /\
              (forall f tys vs, holds_fields E def P s tys vs f -> forest_ok def tys f)); [|apply G].
  apply tree_forest_ind.
  - intros v f IH w (_ & vs & k & Hin & _ & _ & H). exists k. split; [exact Hin|]. eapply IH, H.
  - intros tys vs [H _]. exact H.
  - intros t b r IH tys vs (tys' & vs' & H1 & _ & H2 & H3 & H4). exists tys'. repeat (split; [assumption|]). eapply IH, H4.
  - intros t IHt r IHr tys vs (t0 & tys' & vs' & w & H1 & _ & H2 & H3 & H4). exists t0, tys'.
    split; [exact H1|]. split; [exact H2|]. split; [eapply IHt, H3|eapply IHr, H4].
Qed.

(** [==] and [cmp] agree if they do on the leaves. *)
Theorem C55_consistent def leq lcmp t u : NoDup (map fst (e_variants def)) ->
  (forall t b c, leq t b c = true <-> lcmp t b c = Eq) -> tree_ok def t -> tree_ok def u ->
  (tree_eqb leq t u = true <-> tree_cmp def lcmp t u = Eq).
Proof.
  intros Nd HL.
  assert (G : (forall t u, tree_ok def t -> tree_ok def u -> (tree_eqb leq t u = true <-> tree_cmp def lcmp t u = Eq)) /\
    (forall f g tys, forest_ok def tys f -> forest_ok def tys g -> (forest_eqb leq f g = true <-> forest_cmp def lcmp f g = Eq)));
    [|apply G]. clear t u. apply tree_forest_ind.
  - intros v f IH [v' g] (k & Hin & Hf) (k' & Hin' & Hg). cbn [tree_eqb tree_cmp].
    destruct (before_position v v' (e_variants def) (in_map fst _ _ Hin) (in_map fst _ _ Hin')) as [Pos Same].
    destruct (String.eqb_spec v v') as [<-|Ne].
    + assert (Hk : k = k') by (pose proof (assoc_in _ _ _ Nd Hin); pose proof (assoc_in _ _ _ Nd Hin'); congruence).
      rewrite <- Pos, N.compare_refl. cbn [andb]. subst k'. apply (IH g (kind_types k)); assumption.
    + cbn [andb]. destruct (before v v' (e_variants def)); [exfalso; auto|split; discriminate..].
  - intros [|t b r|u r] tys -> Hg; cbn [forest_ok] in Hg.
    + split; reflexivity.
    + destruct Hg as (? & Hg & _). discriminate.
    + destruct Hg as (? & ? & Hg & _). discriminate.
  - intros t b r IH [|t' c r'|u r'] tys (tys1 & -> & Hn & _ & Hf) Hg; cbn [forest_ok] in Hg.
    + discriminate.
    + destruct Hg as (tys2 & Hg & _ & _ & Hg'). injection Hg as <- <-. rewrite (forest_cmp_leaf def lcmp t b c r r').
      cbn [forest_eqb]. rewrite andb_true_iff, (IH r' tys1 Hf Hg'), (HL t b c). destruct (lcmp t b c); intuition discriminate.
    + destruct Hg as (t' & tys2 & Hg & Hn' & _). injection Hg as <- <-. contradiction.
  - intros u IHu r IHr [|t' c r'|u' r'] tys (t & tys1 & -> & Hn & Hu & Hf) Hg; cbn [forest_ok] in Hg.
    + discriminate.
    + destruct Hg as (tys2 & Hg & Hn' & _). injection Hg as <- <-. contradiction.
    + destruct Hg as (t' & tys2 & Hg & _ & Hu' & Hg'). injection Hg as <- <-. rewrite (forest_cmp_sub def lcmp u u' r r').
      cbn [forest_eqb]. rewrite andb_true_iff, (IHr r' tys1 Hf Hg'), (IHu u' Hu Hu').
      destruct (tree_cmp def lcmp u u'); intuition discriminate.
Qed.

(** ** An example: linked lists

    [struct List, enum Cell { Nil, Cons(u32, List) }], derived [Clone], [PartialEq] and [Ord]. *)

Definition list_def : edef := Edef "List" "Cell" 8 false false
  [("Nil", KUnit); ("Cons", KTuple [ty_u32; container_ty "List" 8 false])]%string.
Definition list_x : expansion :=
  match expand list_def with Some x => x | None => Expansion "" "" 1 false false [] [] 0 [] [] [] [] [] end.

Lemma list_ok : def_ok list_def.
Proof.
  constructor.
  - discriminate.
  - repeat constructor; cbn; intuition discriminate.
  - intros v ms H. cbn in H. intuition discriminate.
  - intros v tys H. cbn in H. intuition try discriminate;
      match goal with H : (_, KTuple _) = _ |- _ => injection H as <- <-; cbn; lia end.
  - cbn. constructor; [apply wf_u32|]. constructor; [|constructor]. split; cbn; [exists 3; split; [lia|reflexivity]|reflexivity].
  - exists 3. split; [lia|reflexivity].
  - cbn. intuition discriminate.
  - discriminate.
  - cbn. repeat constructor; cbn; intros; try reflexivity; discriminate.
  - cbn. repeat constructor; cbn; intuition discriminate.
Qed.

Lemma list_recursive : recursive (bump_env dbg60) list_def list_x.
Proof.
  constructor.
  - constructor; try reflexivity; [apply bump_env_ok, example_targets_ok|apply list_ok].
  - exists (container_ty "List" 8 false). split; [right; left; reflexivity|reflexivity].
  - intros t [<- | [<- | []]] H; [discriminate|exists 8; reflexivity].
Qed.

Definition u32_impls : leaf_impls := LeafImpls (fun _ b => ret b)
  (fun _ b c => ret (bytes_word b =? bytes_word c)) (fun _ b c => ret (bytes_word b ?= bytes_word c)).

Fixpoint list_of (l : list N) : tree :=
  match l with
  | [] => Node "Nil" FNil
  | a :: l => Node "Cons" (FLeaf ty_u32 (le_bytes 4 a) (FSub (list_of l) FNil))
  end.

(** It meets the hypotheses above. *)
Lemma list_of_ok l : Forall (fun a => a < 2 ^ 32) l -> tree_ok list_def (list_of l).
Proof.
  induction 1 as [|a l Ha _ IH].
  - exists KUnit. split; [left; reflexivity|reflexivity].
  - exists (KTuple [ty_u32; container_ty "List" 8 false]). split; [right; left; reflexivity|].
    exists [container_ty "List" 8 false]. split; [reflexivity|]. split; [discriminate|]. split.
    + split; [reflexivity|]. cbn -[N.div N.modulo N.ltb]. rewrite !(proj2 (N.ltb_lt _ _) (N.mod_lt _ 256 ltac:(discriminate))). reflexivity.
    + exists (container_ty "List" 8 false), []. auto.
Qed.

Lemma list_of_fits l : Forall (tag_fits (bump_env dbg60) list_def) (names (list_of l)).
Proof.
  induction l as [|a l IH]; (constructor; [|try (cbn [forest_names]; rewrite app_nil_r; exact IH); constructor]).
  - exists 0%nat, KUnit. split; [reflexivity|]. vm_compute. discriminate.
  - exists 1%nat, (KTuple [ty_u32; container_ty "List" 8 false]). split; [reflexivity|]. vm_compute. discriminate.
Qed.

Lemma u32_impls_ok : clones_leaves list_def u32_impls (fun _ b c => b = c) (fun _ => False) /\
  compares_leaves list_def u32_impls (fun _ b c => bytes_word b =? bytes_word c) /\
  orders_leaves list_def u32_impls (fun _ b c => bytes_word b ?= bytes_word c).
Proof.
  split; [|split].
  - intros t b s _ Hb. apply outcome_ret. auto.
  - intros t b c s _ _ _. exists s. split; [reflexivity|apply keeps_refl].
  - intros t b c s _ _ _. exists s. split; [reflexivity|apply keeps_refl].
Qed.

(** Build 3, 1, 2 and 3, 1, 4, clone the first, change the head of the clone; take apart and compare. *)
Example C55_example : let E := bump_env dbg60 in let x := list_x in
  result (bind (build E x (list_of [3; 1; 2])) (fun a =>
          bind (build E x (list_of [3; 1; 4])) (fun b =>
          bind (container_clone E x u32_impls 10 a) (fun c =>
          bind (container_eq E x u32_impls 10 a c) (fun same =>
          bind (container_cmp E x u32_impls 10 a b) (fun order =>
          bind (tb_modify E (match storage (KTuple [ty_u32; container_ty "List" 8 false]) with Some U => U | None => leaf_hty ty_u8 end) c
                  (fun vs => le_bytes 4 7 :: tl vs)) (fun _ =>
          bind (take E x 10 a) (fun ta => bind (take E x 10 c) (fun tc =>
          bind (container_eq E x u32_impls 10 a c) (fun same' => ret (same, order, ta, tc, same')))))))))) st0)
  = Some (true, Lt, list_of [3; 1; 2], list_of [7; 1; 2], false).
Proof. vm_compute; reflexivity. Qed.

(** ** Instances: each theorem applied to a concrete case that meets its hypotheses *)

Example C55_no_drop_example : e_drop list_def = false.
Proof. exact (C55_no_drop _ _ _ list_recursive). Qed.

(** [Cons] has two fields; no single-field variant of the container's type can be added. *)
Example C55_no_wrapper_example : forall E def x v, recursive E def x -> e_container def = "List"%string ->
  ~ In (v, KTuple [container_ty "List" 8 false]) (e_variants def).
Proof. intros E def x v R C I. apply (C55_no_wrapper _ _ _ _ _ R I). rewrite C. reflexivity. Qed.

(** The list 3, 1, 2 in an empty heap. *)
Lemma small_ok l : Forall (fun a => a < 256) l -> tree_ok list_def (list_of l).
Proof. intros H. apply list_of_ok. eapply Forall_impl; [|exact H]. intros a A. cbv beta. eapply N.lt_trans; [exact A|reflexivity]. Qed.

Lemma a_list l s : Forall (fun a => a < 256) l -> (exists w, result (build (bump_env dbg60) list_x (list_of l) s) = Some w) ->
  exists w s1, build (bump_env dbg60) list_x (list_of l) s = Ok w s1 /\ keeps s s1 /\ holds (bump_env dbg60) list_def (clear_of s) s1 w (list_of l) /\
     List.length (blocks s1) = (List.length (blocks s) + heap_nodes list_def (list_of l))%nat.
Proof.
  intros H (w & R). destruct (C55_build (bump_env dbg60) _ _ (list_of l) s list_recursive (small_ok l H) (list_of_fits l)) as [(w' & s1 & B & K & H' & Hl & _)|(s1 & B & _)]; [exists w', s1; auto|].
  rewrite B in R. discriminate R.
Qed.

Example C55_build_example : exists w s1, build (bump_env dbg60) list_x (list_of [3; 1; 2]) st0 = Ok w s1 /\ List.length (blocks s1) = 3%nat /\
  holds (bump_env dbg60) list_def (clear_of st0) s1 w (list_of [3; 1; 2]).
Proof.
  destruct (a_list [3; 1; 2] st0) as (w & s1 & A & _ & B & C); [repeat constructor|eexists; vm_compute; reflexivity|].
  exists w, s1. split; [exact A|]. split; [rewrite C; vm_compute; reflexivity|exact B].
Qed.

Example C55_take_example : exists w s1, build (bump_env dbg60) list_x (list_of [3; 1; 2]) st0 = Ok w s1 /\
  take (bump_env dbg60) list_x 10 w s1 = Ok (list_of [3; 1; 2]) s1.
Proof.
  destruct C55_build_example as (w & s1 & A & _ & B). exists w, s1. split; [exact A|].
  apply (C55_take _ _ _ _ _ _ _ _ _ list_recursive B (keeps_refl s1)). cbn. lia.
Qed.

(** The head of the list 3, 1, 2 is taken out and dropped: all three blocks are still there. *)
Example C55_lost_example : exists w s1 s', build (bump_env dbg60) list_x (list_of [3; 1; 2]) st0 = Ok w s1 /\
  bind (macro_into_inner (bump_env dbg60) list_x w) (drop_evalue list_x) s1 = Ok tt s' /\ List.length (blocks s') = 3%nat /\
  destroyed (events s') = destroyed (events s1).
Proof.
  destruct C55_build_example as (w & s1 & A & L & B).
  change (list_of [3; 1; 2]) with (Node "Cons" (FLeaf ty_u32 (le_bytes 4 3) (FSub (list_of [1; 2]) FNil))) in B.
  destruct (C55_lost _ _ _ _ _ _ _ _ list_recursive B) as (s' & R & Bl & D & _). exists w, s1, s'.
  split; [exact A|]. split; [exact R|]. rewrite Bl. split; [exact L|]. rewrite D. apply app_nil_r.
Qed.

(** Its clone. *)
Example C55_clone_example : exists w s1 w' s', build (bump_env dbg60) list_x (list_of [3; 1; 2]) st0 = Ok w s1 /\
  container_clone (bump_env dbg60) list_x u32_impls 10 w s1 = Ok w' s' /\ keeps s1 s' /\
  holds (bump_env dbg60) list_def (clear_of s1) s' w' (list_of [3; 1; 2]) /\ holds (bump_env dbg60) list_def (clear_of st0) s1 w (list_of [3; 1; 2]).
Proof.
  destruct C55_build_example as (w & s1 & A & _ & B).
  destruct (C55_clone _ _ _ _ _ _ _ _ _ _ 10 list_recursive (proj1 u32_impls_ok) (list_of_fits _) B) as [(w' & s' & t' & C & K & L & H & _)|(p & s' & C & _)];
    [cbn; lia|..].
  - apply alike_same in L. subst t'. exists w, s1, w', s'. auto.
  - exfalso. assert (R : result (bind (build (bump_env dbg60) list_x (list_of [3; 1; 2])) (container_clone (bump_env dbg60) list_x u32_impls 10) st0) <> None)
      by (vm_compute; discriminate).
    unfold bind at 1 in R. rewrite A in R. rewrite C in R. apply R. reflexivity.
Qed.

(** Changing the clone's head to 7. *)
Definition cons_storage : hty := match storage (KTuple [ty_u32; container_ty "List" 8 false]) with Some U => U | None => leaf_hty ty_u8 end.

Example C55_independent_example : exists w w' s' s'' v, tb_modify (bump_env dbg60) cons_storage w' (fun vs => le_bytes 4 7 :: tl vs) s' = Ok tt s'' /\
  box_holds (bump_env dbg60) s'' cons_storage w' (le_bytes 4 7 :: v) /\ take (bump_env dbg60) list_x 10 w s'' = Ok (list_of [3; 1; 2]) s''.
Proof.
  destruct C55_clone_example as (w & s1 & w' & s' & _ & _ & K & H & B).
  pose proof H as H0. destruct H0 as (_ & vs & k & I & (i & k2 & J & _ & Bx) & _ & F). destruct I as [I|[I|[]]]; [discriminate I|]. injection I as <-.
  destruct i as [|[|i]]; [discriminate J| |destruct i; discriminate J]. injection J as <-.
  destruct F as (tys & vs' & _ & -> & _ & _ & t & tys' & vs'' & w1 & _ & -> & _ & _ & _ & ->).
  assert (V : hval_ok cons_storage [le_bytes 4 7; enc w1]).
  { constructor; [split; vm_compute; reflexivity|]. constructor; [apply enc_type|constructor]. }
  destruct (C55_independent _ _ _ _ _ _ _ _ _ _ _ (KTuple [ty_u32; container_ty "List" 8 false]) cons_storage _ (fun vs => le_bytes 4 7 :: tl vs)
    list_recursive B K H (or_intror (or_introl eq_refl)) eq_refl Bx V) as (s'' & M & A & C).
  exists w, w', s', s'', [enc w1]. split; [exact M|]. split; [exact A|].
  apply (C55_take _ _ _ _ _ _ _ _ _ list_recursive C (keeps_refl s'')). cbn. lia.
Qed.

(** The list and its clone compare equal; the list 3, 1, 4 is greater. *)
Example C55_eq_example : exists w s1 w' s' s'', build (bump_env dbg60) list_x (list_of [3; 1; 2]) st0 = Ok w s1 /\
  container_clone (bump_env dbg60) list_x u32_impls 10 w s1 = Ok w' s' /\ container_eq (bump_env dbg60) list_x u32_impls 10 w w' s' = Ok true s''.
Proof.
  destruct C55_clone_example as (w & s1 & w' & s' & A & C & K & H & B).
  apply (holds_keeps _ _ _ list_recursive _ _ _ _ _ K) in B.
  destruct (C55_eq _ _ _ _ _ _ _ _ _ _ _ s' 10 list_recursive (proj1 (proj2 u32_impls_ok)) B H) as (s'' & Q & _); [cbn; lia|].
  exists w, s1, w', s', s''. split; [exact A|]. split; [exact C|]. rewrite Q. vm_compute tree_eqb. reflexivity.
Qed.

Example C55_cmp_example : exists w s1 w' s2 s3, build (bump_env dbg60) list_x (list_of [3; 1; 2]) st0 = Ok w s1 /\
  build (bump_env dbg60) list_x (list_of [3; 1; 4]) s1 = Ok w' s2 /\ container_cmp (bump_env dbg60) list_x u32_impls 10 w w' s2 = Ok Lt s3.
Proof.
  destruct C55_build_example as (w & s1 & A & _ & B).
  destruct (a_list [3; 1; 4] s1) as (w' & s2 & A' & K & B' & _); [repeat constructor| |].
  - assert (R : result (bind (build (bump_env dbg60) list_x (list_of [3; 1; 2])) (fun _ => build (bump_env dbg60) list_x (list_of [3; 1; 4])) st0) <> None)
      by (vm_compute; discriminate).
    unfold bind at 1 in R. rewrite A in R. destruct (result (build _ _ (list_of [3; 1; 4]) s1)); [eauto|elim R; reflexivity].
  - apply (holds_keeps _ _ _ list_recursive _ _ _ _ _ K) in B.
    destruct (C55_cmp _ _ _ _ _ _ _ _ _ _ _ s2 10 list_recursive (proj2 (proj2 u32_impls_ok)) B B') as (s3 & Q & _); [cbn; lia|].
    exists w, s1, w', s2, s3. split; [exact A|]. split; [exact A'|]. rewrite Q. vm_compute tree_cmp. reflexivity.
Qed.

Example C55_consistent_example : tree_eqb (fun _ b c => bytes_word b =? bytes_word c) (list_of [3; 1; 2]) (list_of [3; 1; 4]) <> true /\
  tree_cmp list_def (fun _ b c => bytes_word b ?= bytes_word c) (list_of [3; 1; 2]) (list_of [3; 1; 2]) = Eq.
Proof.
  assert (N : NoDup (map fst (e_variants list_def))) by (repeat constructor; cbn; intuition discriminate).
  assert (C : forall (t : rty) b c, (bytes_word b =? bytes_word c) = true <-> (bytes_word b ?= bytes_word c) = Eq).
  { intros _ b c. rewrite N.eqb_eq, N.compare_eq_iff. reflexivity. }
  split; [intros H|]; apply (C55_consistent list_def _ _ _ _ N C) in H || apply (C55_consistent list_def _ _ _ _ N C); try (apply small_ok; repeat constructor).
  - vm_compute in H. discriminate H.
  - vm_compute. reflexivity.
Qed.

Print Assumptions C55_no_drop.
Print Assumptions C55_no_wrapper.
Print Assumptions C55_build.
Print Assumptions C55_take.
Print Assumptions C55_lost.
Print Assumptions C55_clone.
Print Assumptions C55_independent.
Print Assumptions C55_eq.
Print Assumptions C55_cmp.
Print Assumptions C55_consistent.
