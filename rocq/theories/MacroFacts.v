(** Proofs about the code generated by [tagged_box!]. *)
From Coq Require Import Arith NArith String Bool List Lia.
From Verif Require Import Words Config Spec SpecMem ConfigFacts Pointer PointerFacts Mem MemFacts Box BoxFacts
  Arms Macro SpecMacro.
Import ListNotations.
Local Open Scope N_scope.

(** ** The hand-expanded arms *)

Lemma find_arm_in {A} n (arms : list (nat * A)) a : find_arm n arms = Some a -> In (n, a) arms.
Proof.
  induction arms as [|[k b] arms IH]; cbn [find_arm In]; [discriminate|].
  destruct (Nat.eqb_spec k n) as [->|]; [|auto]. intros E. injection E as ->. auto.
Qed.

Lemma expand_tuple_arms_ok : Forall (fun a => snd a = seq 0 (fst a)) expand_tuple_arms.
Proof. repeat constructor. Qed.

Lemma expand_tuple_arms_all n : (exists a, find_arm n expand_tuple_arms = Some a) <-> (n <= 32)%nat.
Proof.
  split.
  - intros [a H]. apply find_arm_in in H.
    assert (F : Forall (fun a => (fst a <= 32)%nat) expand_tuple_arms) by (repeat constructor).
    rewrite Forall_forall in F. exact (F _ H).
  - intros H. do 33 (destruct n as [|n]; [eexists; reflexivity|]). lia.
Qed.

Definition arm_ok (a : nat * (list string * list string)) : bool :=
  let '(n, (pat, args)) := a in
  Nat.eqb (length pat) n && forallb (fun xy => String.eqb (fst xy) (snd xy)) (combine pat args)
  && Nat.eqb (length args) n && (fix nodup (l : list string) := match l with [] => true | x :: r => negb (existsb (String.eqb x) r) && nodup r end) pat.

Lemma expand_tuple_arm_arms_ok : forallb arm_ok expand_tuple_arm_arms = true.
Proof. reflexivity. Qed.

Lemma expand_tuple_arm_arms_all n : (exists a, find_arm n expand_tuple_arm_arms = Some a) <-> (n <= 32)%nat.
Proof.
  split.
  - intros [a H]. apply find_arm_in in H.
    assert (F : Forall (fun a => (fst a <= 32)%nat) expand_tuple_arm_arms) by (repeat constructor).
    rewrite Forall_forall in F. exact (F _ H).
  - intros H. do 33 (destruct n as [|n]; [eexists; reflexivity|]). lia.
Qed.

Lemma combine_eqb_eq (a b : list string) : length a = length b ->
  forallb (fun xy => String.eqb (fst xy) (snd xy)) (combine a b) = true -> a = b.
Proof.
  revert b. induction a as [|x a IH]; intros [|y b]; cbn; try discriminate; auto.
  intros E H. apply andb_true_iff in H as [H1 H2]. apply String.eqb_eq in H1. f_equal; auto.
Qed.

Lemma find_arm_names n pat args : find_arm n expand_tuple_arm_arms = Some (pat, args) ->
  length pat = n /\ pat = args /\ NoDup pat.
Proof.
  intros H. apply find_arm_in in H. pose proof expand_tuple_arm_arms_ok as F. rewrite forallb_forall in F.
  specialize (F _ H). unfold arm_ok in F. rewrite !andb_true_iff, !Nat.eqb_eq in F.
  destruct F as [[[F1 F2] F3] F4]. split; [exact F1|]. split; [apply combine_eqb_eq; [lia|exact F2]|].
  clear -F4. induction pat as [|x pat IH]; [constructor|]. apply andb_true_iff in F4 as [F5 F6].
  constructor; [|auto]. intros Hin. apply negb_true_iff in F5. rewrite <- not_true_iff_false in F5.
  apply F5. apply existsb_exists. exists x. split; [exact Hin|apply String.eqb_refl].
Qed.

Lemma expand_tuple_seq tys idx : expand_tuple tys = Some idx -> idx = seq 0 (length tys).
Proof.
  intros H. apply find_arm_in in H. pose proof expand_tuple_arms_ok as F. rewrite Forall_forall in F.
  exact (F _ H).
Qed.

(** ** Names *)

Lemma Forall2_len {A B} (R : A -> B -> Prop) l m : Forall2 R l m -> length l = length m.
Proof. induction 1; cbn; congruence. Qed.


Lemma lookup_all_skip {A} ns x (a : A) l : ~ In x ns -> lookup_all ns ((x, a) :: l) = lookup_all ns l.
Proof.
  induction ns as [|n ns IH]; intros H; cbn [lookup_all assoc]; [reflexivity|].
  cbn in H. destruct (String.eqb_spec n x) as [->|]; [tauto|]. rewrite IH by tauto. reflexivity.
Qed.

Lemma lookup_all_same {A} ns (vs : list A) : NoDup ns -> length vs = length ns ->
  lookup_all ns (combine ns vs) = Some vs.
Proof.
  revert vs. induction ns as [|n ns IH]; intros [|v vs] Hd; cbn [length]; try discriminate; [reflexivity|].
  intros E. inversion Hd; subst. cbn [combine lookup_all assoc]. rewrite String.eqb_refl.
  rewrite lookup_all_skip by assumption. rewrite IH; auto.
Qed.

Lemma project_seq_id {A} (vs : list A) : forall pre, project (pre ++ vs) (seq (length pre) (length vs)) = Some vs.
Proof.
  induction vs as [|v vs IH]; intros pre; cbn [length seq project]; [reflexivity|].
  rewrite nth_error_app2, Nat.sub_diag by lia. cbn [nth_error].
  specialize (IH (pre ++ [v])). rewrite app_length, <- app_assoc in IH. cbn in IH.
  rewrite Nat.add_1_r in IH. rewrite IH. reflexivity.
Qed.

Lemma project_all {A} (vs : list A) n : length vs = n -> project vs (seq 0 n) = Some vs.
Proof. intros <-. apply (project_seq_id vs []). Qed.

Lemma index_of_nth names : NoDup names -> forall i n, nth_error names i = Some n -> index_of n names = Some (N.of_nat i).
Proof.
  induction names as [|m names IH]; intros Hd i n; [destruct i; discriminate|].
  inversion Hd as [|? ? Hni Hd']; subst. destruct i as [|i]; cbn [nth_error index_of].
  - intros E. injection E as ->. rewrite String.eqb_refl. reflexivity.
  - intros E. destruct (String.eqb_spec n m) as [->|].
    + apply nth_error_In in E. contradiction.
    + rewrite (IH Hd' i n E). cbn [option_map]. f_equal. lia.
Qed.

Lemma assoc_in {A} (l : list (string * A)) n a : NoDup (map fst l) -> In (n, a) l -> assoc n l = Some a.
Proof.
  induction l as [|[x b] l IH]; cbn [map fst In assoc]; [tauto|]. intros Hd [E|H].
  - injection E as -> ->. rewrite String.eqb_refl. reflexivity.
  - inversion Hd; subst. destruct (String.eqb_spec n x) as [->|]; [|auto].
    apply (in_map fst) in H. contradiction.
Qed.

(** ** Expansion of a definition *)

Lemma gen_all_nth {A} (g : string -> vkind -> option A) vs : forall l, gen_all g vs = Some l ->
  length l = length vs /\
  forall i, match nth_error vs i with
            | Some (v, k) => exists a, g v k = Some a /\ nth_error l i = Some a
            | None => nth_error l i = None
            end.
Proof.
  induction vs as [|[v k] vs IH]; cbn [gen_all]; intros l.
  - intros E. injection E as <-. split; [reflexivity|]. intros [|i]; reflexivity.
  - destruct (g v k) as [a|] eqn:Ga; [|discriminate]. destruct (gen_all g vs) as [r|]; [|discriminate].
    intros E. injection E as <-. destruct (IH r eq_refl) as [L N]. split; [cbn; lia|].
    intros [|i]; cbn [nth_error]; [eauto|apply N].
Qed.

Lemma gen_all_some {A} (g : string -> vkind -> option A) vs :
  (exists l, gen_all g vs = Some l) <-> (forall v k, In (v, k) vs -> g v k <> None).
Proof.
  induction vs as [|[v k] vs IH]; cbn [gen_all In]; [split; [tauto|eauto]|]. split.
  - intros [l E]. destruct (g v k) eqn:Ga; [|discriminate]. destruct (gen_all g vs) eqn:Gr; [|discriminate].
    intros v' k' [H|H]; [injection H as -> ->; congruence|]. apply IH; eauto.
  - intros H. destruct (g v k) eqn:Ga; [|exfalso; apply (H v k); auto].
    destruct (proj2 IH) as [r ->]; [intros v' k' H'; apply H; auto|]. eauto.
Qed.

(** Everything an expansion consists of. *)
Record expanded (def : edef) (x : expansion) : Prop := {
  xp_container : x_container x = e_container def;
  xp_name : x_name x = e_name def;
  xp_align : x_align x = e_align def;
  xp_drop : x_drop x = e_drop def;
  xp_copy : x_copy x = e_copy def;
  xp_enum : x_enum x = e_variants def;
  xp_counter : x_counter x = map fst (e_variants def);
  xp_total : x_total x = N.of_nat (length (e_variants def));
  xp_into : gen_all gen_into (e_variants def) = Some (x_into x);
  xp_inner : gen_all gen_inner (e_variants def) = Some (x_inner x);
  xp_from : gen_all gen_from (e_variants def) = Some (x_from x);
  xp_ref : gen_all gen_ref (e_variants def) = Some (x_ref x);
  xp_froms : exists l, gen_all gen_from_impl (e_variants def) = Some l /\ x_froms x = concat l;
  xp_some : e_variants def <> []
}.

Lemma expand_inv def x : expand def = Some x -> expanded def x.
Proof.
  unfold expand. destruct (e_variants def) as [|v0 vs] eqn:Ev; [discriminate|]. rewrite <- Ev.
  destruct (gen_all gen_into (e_variants def)) eqn:G1; [|discriminate].
  destruct (gen_all gen_inner (e_variants def)) eqn:G2; [|discriminate].
  destruct (gen_all gen_from (e_variants def)) eqn:G3; [|discriminate].
  destruct (gen_all gen_ref (e_variants def)) eqn:G4; [|discriminate].
  destruct (gen_all gen_from_impl (e_variants def)) eqn:G5; [|discriminate].
  intros E. injection E as <-. constructor; cbn; eauto. rewrite Ev. discriminate.
Qed.

Definition arity_ok (k : vkind) : Prop := match k with KTuple tys => (length tys <= 32)%nat | _ => True end.

Lemma gen_into_some v k : gen_into v k <> None <-> arity_ok k.
Proof.
  destruct k as [|[|t [|t2 tys]]|ms]; cbn [gen_into arity_ok length]; try (split; intros; [lia || exact I|discriminate]).
  destruct (find_arm _ expand_tuple_arm_arms) as [[p a]|] eqn:F; split; intros H; try discriminate; try contradiction.
  - apply expand_tuple_arm_arms_all. eauto.
  - apply expand_tuple_arm_arms_all in H as [y H]. cbn [length] in F. congruence.
Qed.

Ltac gen_some := 
  match goal with |- context [expand_tuple ?tys] =>
    unfold expand_tuple; cbn [length];
    destruct (find_arm _ expand_tuple_arms) as [idx|] eqn:F; split; intros H; try discriminate; try contradiction;
    [apply expand_tuple_arms_all; eauto | apply expand_tuple_arms_all in H as [y H]; congruence]
  end.

Lemma gen_inner_some v k : gen_inner v k <> None <-> arity_ok k.
Proof.
  destruct k as [|[|t [|t2 tys]]|ms]; cbn [gen_inner arity_ok length]; try (split; intros; [lia || exact I|discriminate]).
  gen_some.
Qed.
Lemma gen_from_some v k : gen_from v k <> None <-> arity_ok k.
Proof.
  destruct k as [|[|t [|t2 tys]]|ms]; cbn [gen_from arity_ok length]; try (split; intros; [lia || exact I|discriminate]).
  gen_some.
Qed.
Lemma gen_ref_some v k : gen_ref v k <> None <-> arity_ok k.
Proof.
  destruct k as [|[|t [|t2 tys]]|ms]; cbn [gen_ref arity_ok length]; try (split; intros; [lia || exact I|discriminate]).
  gen_some.
Qed.
Lemma gen_from_impl_some v k : gen_from_impl v k <> None <-> arity_ok k.
Proof.
  destruct k as [|[|t [|t2 tys]]|ms]; cbn [gen_from_impl arity_ok length]; try (split; intros; [lia || exact I|discriminate]).
  gen_some.
Qed.

Lemma expand_some def :
  (exists x, expand def = Some x) <->
  e_variants def <> [] /\ forall v k, In (v, k) (e_variants def) -> arity_ok k.
Proof.
  split.
  - intros [x H]. apply expand_inv in H. split; [apply H|]. intros v k Hin.
    apply (gen_into_some v k). apply (proj1 (gen_all_some gen_into (e_variants def))); [|exact Hin].
    eexists. apply (xp_into _ _ H).
  - intros [Hn H]. unfold expand. cbv zeta.
    assert (G : forall A (g : string -> vkind -> option A), (forall v k, g v k <> None <-> arity_ok k) ->
                exists l, gen_all g (e_variants def) = Some l).
    { intros A g Hg. apply gen_all_some. intros v k Hin. apply Hg. eauto. }
    destruct (e_variants def) as [|v0 vs]; [contradiction|].
    destruct (G _ _ gen_into_some) as [l1 ->]. destruct (G _ _ gen_inner_some) as [l2 ->].
    destruct (G _ _ gen_from_some) as [l3 ->]. destruct (G _ _ gen_ref_some) as [l4 ->].
    destruct (G _ _ gen_from_impl_some) as [l5 ->]. eauto.
Qed.

Lemma def_expands def : def_ok def -> exists x, expand def = Some x.
Proof.
  intros H. apply expand_some. split; [apply H|]. intros v [|tys|ms] Hin; cbn; auto. eapply do_arity; eauto.
Qed.

(** ** Running the generated code *)

Lemma kind_types_wf def v k : def_ok def -> In (v, k) (e_variants def) -> Forall wf_ty (kind_types k).
Proof.
  intros Hd Hin. pose proof (do_types _ Hd) as H. rewrite Forall_forall in *. intros t Ht. apply H.
  unfold all_types. apply in_concat. exists (kind_types k). split; [|exact Ht].
  apply (in_map (fun vk => kind_types (snd vk))) in Hin. exact Hin.
Qed.

Lemma storage_legal k U : Forall wf_ty (kind_types k) -> storage k = Some U ->
  layout_legal U /\ h_types U = kind_types k.
Proof.
  intros Hw. destruct k as [|[|t [|t2 tys]]|ms]; cbn [storage kind_types] in *; intros E; try discriminate; injection E as <-.
  - split; [apply leaf_legal; inversion Hw; assumption|apply leaf_types].
  - split; [apply reprC_legal, Hw|apply reprC_types, Hw].
  - split; [apply reprC_legal, Hw|apply reprC_types, Hw].
Qed.

Lemma storage_none k : storage k = None -> kind_types k = [].
Proof. destruct k as [|[|t [|t2 tys]]|ms]; cbn; congruence. Qed.

(** What [into_tagged_box] amounts to. *)
Definition store_kind (E : env) (align : N) (k : vkind) (vs : hval) (tag : N) : M tagged_ptr :=
  match storage k with
  | Some U => tb_new E U vs tag
  | None => ret (tb_dangling E align tag)
  end.

(** What reading a variant amounts to. *)
Definition read_kind (rd : hty -> M hval) (v : string) (k : vkind) : M evalue :=
  match storage k with
  | Some U => (vs <- rd U ;; ret (EV v vs))%M
  | None => ret (EV v [])
  end.

Section Gen.
Variables (E : env) (def : edef) (x : expansion).
Hypothesis Hd : def_ok def.
Hypothesis Hx : expand def = Some x.
Let X := expand_inv def x Hx.

Lemma nth_in i v k : nth_error (e_variants def) i = Some (v, k) -> In (v, k) (e_variants def).
Proof. apply nth_error_In. Qed.

Lemma eval_tag_nth i v k : nth_error (e_variants def) i = Some (v, k) ->
  eval_tag x (tag_of v) = Some (N.of_nat i mod 256).
Proof.
  intros H. unfold eval_tag, tag_of. cbn [tg_variant tg_bits]. rewrite (xp_counter _ _ X).
  rewrite (index_of_nth _ (do_names _ Hd) i v).
  - reflexivity.
  - rewrite nth_error_map, H. reflexivity.
Qed.

Lemma enum_members_struct v ms : In (v, KStruct ms) (e_variants def) -> enum_members x v = map fst ms.
Proof.
  intros H. unfold enum_members. rewrite (xp_enum _ _ X), (assoc_in _ v (KStruct ms)); auto. apply (do_names _ Hd).
Qed.

Lemma find_into_nth i v k : nth_error (e_variants def) i = Some (v, k) ->
  exists a, gen_into v k = Some a /\ find_into v (x_into x) = Some a.
Proof.
  pose proof (xp_into _ _ X) as H. pose proof (do_names _ Hd) as Hn. revert H Hn i.
  generalize (x_into x). induction (e_variants def) as [|[v0 k0] vs IH]; intros l; [destruct i; discriminate|].
  cbn [gen_all]. destruct (gen_into v0 k0) as [a|] eqn:Ga; [|discriminate].
  destruct (gen_all gen_into vs) as [r|]; [|discriminate]. intros El Hn i. injection El as <-.
  cbn [map fst] in Hn. inversion Hn as [|? ? Hni Hn']; subst.
  assert (Ev : ia_variant a = v0).
  { clear -Ga. destruct k0 as [|[|t [|t2 tys]]|ms]; cbn [gen_into] in Ga; try (injection Ga as <-; reflexivity).
    destruct (find_arm _ _) as [[p q]|]; [|discriminate]. injection Ga as <-. reflexivity. }
  destruct i as [|i]; cbn [nth_error find_into].
  - intros E'. injection E' as -> ->. rewrite Ev, String.eqb_refl. eauto.
  - intros E'. rewrite Ev. destruct (String.eqb_spec v v0) as [->|].
    + apply nth_error_In, (in_map fst) in E'. contradiction.
    + eapply IH; eauto.
Qed.

Lemma bind_ret {A B} (o : option A) a (f : A -> M B) s : o = Some a -> bind (resolved o) f s = f a s.
Proof. intros ->. reflexivity. Qed.

Lemma macro_into_eq i v k vs s : nth_error (e_variants def) i = Some (v, k) ->
  length vs = length (kind_types k) ->
  macro_into E x (EV v vs) s =
    at_exit (e_drop def) (EvDrop (e_name def) (concat vs))
      (store_kind E (e_align def) k vs (N.of_nat i mod 256)) s.
Proof.
  intros Hi Hl. unfold macro_into. rewrite (xp_drop _ _ X). unfold enum_drop. rewrite (xp_name _ _ X).
  cbn [ev_fields ev_variant]. unfold at_exit.
  assert (R : bind (resolved (find_into v (x_into x))) (fun a =>
     bind (resolved (bind_pattern x (ia_pat a) (EV v vs))) (fun binds =>
     bind (resolved (eval_tag x (ia_tag a))) (fun tag => run_into_body E x (ia_body a) binds tag))) s =
     store_kind E (e_align def) k vs (N.of_nat i mod 256) s); [|rewrite R; reflexivity].
  destruct (find_into_nth i v k Hi) as (a & Ga & Hf). rewrite (bind_ret _ a) by exact Hf.
  pose proof (eval_tag_nth i v k Hi) as Ht.
  destruct k as [|[|t [|t2 tys]]|ms]; cbn [gen_into kind_types] in *;
    try (injection Ga as <-; cbn [ia_pat ia_tag ia_body bind_pattern ev_fields ev_variant]).
  - rewrite (bind_ret _ []) by reflexivity. rewrite (bind_ret _ _ _ _ Ht). cbn [run_into_body].
    rewrite (xp_align _ _ X). reflexivity.
  - destruct vs; [|discriminate Hl]. cbn [length Nat.eqb combine].
    rewrite (bind_ret _ []) by reflexivity. rewrite (bind_ret _ _ _ _ Ht). cbn [run_into_body].
    rewrite (xp_align _ _ X). reflexivity.
  - destruct vs as [|y [|]]; try discriminate Hl. cbn [length Nat.eqb combine].
    rewrite (bind_ret _ [("var"%string, y)]) by reflexivity. rewrite (bind_ret _ _ _ _ Ht). reflexivity.
  - destruct (find_arm _ expand_tuple_arm_arms) as [[p q]|] eqn:Fa; [|discriminate]. injection Ga as <-.
    cbn [ia_pat ia_tag ia_body bind_pattern ev_fields ev_variant].
    destruct (find_arm_names _ _ _ Fa) as (L & <- & Nd). rewrite L, Hl, Nat.eqb_refl.
    rewrite (bind_ret _ (combine p vs)) by reflexivity. rewrite (bind_ret _ _ _ _ Ht). cbn [run_into_body].
    rewrite (bind_ret _ vs) by (apply lookup_all_same; [assumption|lia]). reflexivity.
  - rewrite (enum_members_struct v ms) by (eapply nth_in; eauto).
    pose proof (do_members _ Hd v ms (nth_in _ _ _ Hi)) as Nd. rewrite map_length in Hl.
    assert (L : lookup_all (map fst ms) (combine (map fst ms) vs) = Some vs)
      by (apply lookup_all_same; [assumption|rewrite map_length; exact Hl]).
    rewrite L. cbn [option_map]. rewrite (bind_ret _ (combine (map fst ms) vs)) by reflexivity.
    rewrite (bind_ret _ _ _ _ Ht). cbn [run_into_body]. rewrite (bind_ret _ vs) by exact L.
    rewrite (bind_ret _ vs) by exact L. reflexivity.
Qed.

(** Reading arms: which one runs. *)
Lemma match_disc_nth {A} (g : string -> vkind -> option read_arm)
    (arms : list read_arm) (body : read_arm -> M A) (default : M A) d s :
  (forall v k a, g v k = Some a -> ra_tag a = tag_of v /\ ra_variant a = v) ->
  gen_all g (e_variants def) = Some arms -> d < 256 ->
  match_disc x d arms body default s =
    match nth_error arms (N.to_nat d) with Some a => body a s | None => default s end.
Proof.
  intros Hg Ha Hd256. destruct (gen_all_nth _ _ _ Ha) as [Hlen Hnth].
  assert (Gen : forall j l, (forall i a, nth_error l i = Some a ->
                  eval_tag x (ra_tag a) = Some (N.of_nat (j + i) mod 256)) -> N.of_nat j <= d ->
     match_disc x d l body default s =
       match nth_error l (N.to_nat d - j) with Some a => body a s | None => default s end).
  { intros j l. revert j. induction l as [|a l IH]; intros j Hl Hj.
    - cbn [match_disc]. destruct (N.to_nat d - j)%nat; reflexivity.
    - cbn [match_disc]. rewrite (bind_ret _ (N.of_nat (j + 0) mod 256)) by (apply (Hl 0%nat); reflexivity).
      rewrite Nat.add_0_r. rewrite N.mod_small by lia. destruct (N.eqb_spec d (N.of_nat j)) as [->|Hne].
      + rewrite Nnat.Nat2N.id, Nat.sub_diag. reflexivity.
      + replace (N.to_nat d - j)%nat with (S (N.to_nat d - S j)) by lia. cbn [nth_error]. apply IH; [|lia].
        intros i b Hb. rewrite (Hl (S i) b Hb). do 2 f_equal. lia. }
  rewrite (Gen 0%nat arms); [rewrite Nat.sub_0_r; reflexivity| |lia].
  intros i a Hi. specialize (Hnth i). destruct (nth_error (e_variants def) i) as [[v k]|] eqn:Ev.
  - destruct Hnth as (b & Hb & Hb'). assert (b = a) by congruence. subst b.
    destruct (Hg _ _ _ Hb) as [-> _]. apply (eval_tag_nth i v k Ev).
  - congruence.
Qed.

Ltac gen_tag Ga := intros v k a Ga; destruct k as [|[|t [|t2 tys]]|ms];
  cbn [gen_inner gen_from gen_ref] in Ga; try (injection Ga as <-; auto; fail);
  destruct (expand_tuple _); [|discriminate]; injection Ga as <-; auto.

Lemma gen_inner_tag : forall v k a, gen_inner v k = Some a -> ra_tag a = tag_of v /\ ra_variant a = v.
Proof. gen_tag Ga. Qed.
Lemma gen_from_tag : forall v k a, gen_from v k = Some a -> ra_tag a = tag_of v /\ ra_variant a = v.
Proof. gen_tag Ga. Qed.
Lemma gen_ref_tag : forall v k a, gen_ref v k = Some a -> ra_tag a = tag_of v /\ ra_variant a = v.
Proof. gen_tag Ga. Qed.

(** Reads return one value per field. *)
Definition reads_fields (rd : hty -> M hval) : Prop :=
  forall H s vs s', rd H s = Ok vs s' -> length vs = length (h_types H).

Lemma bind_eq {A B} (m : M A) (f g : A -> M B) s :
  (forall a s', m s = Ok a s' -> f a s' = g a s') -> bind m f s = bind m g s.
Proof. intros H. unfold bind. destruct (m s); auto. Qed.

Lemma bind_cong {A B} (m m' : M A) (f : A -> M B) s : m s = m' s -> bind m f s = bind m' f s.
Proof. intros H. unfold bind. rewrite H. reflexivity. Qed.

Lemma run_build_reprC rd v tys idxs s : reads_fields rd -> Forall wf_ty tys ->
  Forall (fun i => i = seq 0 (length tys)) idxs ->
  run_build E x rd v (BReprC tys idxs) s = bind (rd (reprC tys)) (fun vs => ret (EV v vs)) s.
Proof.
  intros Hr Hw Hi. cbn [run_build]. apply bind_eq. intros vs s' R. apply Hr in R. rewrite reprC_types in R by assumption.
  rewrite (bind_ret _ vs); [reflexivity|]. induction Hi as [|i r -> Hi IH]; [reflexivity|]. cbn [project_seq].
  rewrite project_all by assumption. exact IH.
Qed.

Lemma run_build_struct rd v ms s : reads_fields rd -> Forall wf_ty (map snd ms) ->
  In (v, KStruct ms) (e_variants def) ->
  run_build E x rd v (BStruct ms (map fst ms) (map fst ms)) s =
    bind (rd (reprC (map snd ms))) (fun vs => ret (EV v vs)) s.
Proof.
  intros Hr Hw Hin. cbn [run_build]. apply bind_eq. intros vs s' R. apply Hr in R. rewrite reprC_types in R by assumption.
  rewrite map_length in R. pose proof (do_members _ Hd v ms Hin) as Nd.
  assert (L : lookup_all (map fst ms) (combine (map fst ms) vs) = Some vs)
    by (apply lookup_all_same; [assumption|rewrite map_length; exact R]).
  rewrite (enum_members_struct v ms Hin). rewrite !(bind_ret _ vs) by exact L. reflexivity.
Qed.

Lemma into_inner_fields w : reads_fields (fun H => tb_into_inner E H w).
Proof.
  intros H s vs s' R. apply read_at_types in R. unfold hval_ok in R. symmetry. eapply Forall2_len, R.
Qed.
Lemma as_ptr_fields w : reads_fields (fun H => read_at H (tb_as_ptr E w)).
Proof.
  intros H s vs s' R. apply read_at_types in R. unfold hval_ok in R. symmetry. eapply Forall2_len, R.
Qed.

Lemma disc_u8 w : disc_ty_bits (cfg (tgt E)) = 8 -> tb_discriminant E w < 256.
Proof.
  intros H8. unfold tb_discriminant, tp_discriminant, fetch_discriminant, cast. rewrite H8.
  apply N.mod_lt. discriminate.
Qed.

(** The variant with the box's tag as its number, read at its storage type. *)
Lemma macro_into_inner_eq w s : disc_ty_bits (cfg (tgt E)) = 8 ->
  macro_into_inner E x w s =
    match nth_error (e_variants def) (N.to_nat (tb_discriminant E w)) with
    | Some (v, k) => read_kind (fun H => tb_into_inner E H w) v k s
    | None => Panicked PanicNoVariantInto s
    end.
Proof.
  intros H8. unfold macro_into_inner.
  rewrite (match_disc_nth gen_inner _ _ _ _ _ gen_inner_tag (xp_inner _ _ X)) by (apply disc_u8, H8).
  destruct (gen_all_nth _ _ _ (xp_inner _ _ X)) as [_ Hn]. specialize (Hn (N.to_nat (tb_discriminant E w))).
  destruct (nth_error (e_variants def) _) as [[v k]|] eqn:Ev; [|rewrite Hn; reflexivity].
  destruct Hn as (a & Ga & Ha). rewrite Ha. apply nth_in in Ev. pose proof (kind_types_wf _ _ _ Hd Ev) as Hw.
  clear Ha. destruct k as [|[|t [|t2 tys]]|ms]; cbn [gen_inner kind_types] in *;
    try (injection Ga as <-; cbn [ra_variant ra_build]; try reflexivity).
  - destruct (expand_tuple _) as [idx|] eqn:Ex; [|discriminate]. injection Ga as <-. cbn [ra_variant ra_build].
    apply expand_tuple_seq in Ex. rewrite run_build_reprC; auto using into_inner_fields.
  - rewrite run_build_struct; auto using into_inner_fields.
Qed.

Lemma macro_ref_eq S w cb (c : S) s : disc_ty_bits (cfg (tgt E)) = 8 ->
  macro_ref E x S w cb c s =
    match nth_error (e_variants def) (N.to_nat (tb_discriminant E w)) with
    | Some (v, k) =>
        bind (read_kind (fun H => read_at H (tb_as_ptr E w)) v k) (fun ev =>
          at_exit (e_drop def && match k with KUnit => true | _ => false end)
                  (EvDrop (e_name def) (concat (ev_fields ev))) (cb ev c)) s
    | None => Panicked (PanicNoVariantRef (N.of_nat (length (e_variants def))) (tb_discriminant E w)) s
    end.
Proof.
  intros H8. unfold macro_ref. rewrite (xp_total _ _ X), (xp_drop _ _ X). unfold enum_drop. rewrite (xp_name _ _ X).
  rewrite (match_disc_nth gen_ref _ _ _ _ _ gen_ref_tag (xp_ref _ _ X)) by (apply disc_u8, H8).
  destruct (gen_all_nth _ _ _ (xp_ref _ _ X)) as [_ Hn]. specialize (Hn (N.to_nat (tb_discriminant E w))).
  destruct (nth_error (e_variants def) _) as [[v k]|] eqn:Ev; [|rewrite Hn; reflexivity].
  destruct Hn as (a & Ga & Ha). rewrite Ha. apply nth_in in Ev. pose proof (kind_types_wf _ _ _ Hd Ev) as Hw.
  clear Ha.
  destruct k as [|[|t [|t2 tys]]|ms]; cbn [gen_ref kind_types] in *;
    try (injection Ga as <-; cbn [ra_variant ra_build ra_guarded negb]; try reflexivity).
  - destruct (expand_tuple _) as [idx|] eqn:Ex; [|discriminate]. injection Ga as <-.
    cbn [ra_variant ra_build ra_guarded negb].
    apply expand_tuple_seq in Ex. apply bind_cong. rewrite run_build_reprC; auto using as_ptr_fields.
  - apply bind_cong. rewrite run_build_struct; auto using as_ptr_fields.
Qed.

(** [from_tagged_box] reads tuple variants with several fields at the Rust tuple type. *)
Definition from_storage (k : vkind) : option hty :=
  match k with
  | KTuple ((_ :: _ :: _) as tys) => Some (tuple_layout E tys)
  | _ => storage k
  end.

Lemma macro_from_eq w s : disc_ty_bits (cfg (tgt E)) = 8 -> tuples_legal E ->
  macro_from E x w s =
    match nth_error (e_variants def) (N.to_nat (tb_discriminant E w)) with
    | Some (v, k) =>
        match from_storage k with
        | Some U => bind (tb_into_inner E U w) (fun vs => ret (EV v vs)) s
        | None => Ok (EV v []) s
        end
    | None => Panicked (PanicNoVariantFrom (N.of_nat (length (e_variants def))) (tb_discriminant E w)) s
    end.
Proof.
  intros H8 Htl. unfold macro_from. rewrite (xp_total _ _ X).
  rewrite (match_disc_nth gen_from _ _ _ _ _ gen_from_tag (xp_from _ _ X)) by (apply disc_u8, H8).
  destruct (gen_all_nth _ _ _ (xp_from _ _ X)) as [_ Hn]. specialize (Hn (N.to_nat (tb_discriminant E w))).
  destruct (nth_error (e_variants def) _) as [[v k]|] eqn:Ev; [|rewrite Hn; reflexivity].
  destruct Hn as (a & Ga & Ha). rewrite Ha. apply nth_in in Ev. pose proof (kind_types_wf _ _ _ Hd Ev) as Hw.
  clear Ha. destruct k as [|[|t [|t2 tys]]|ms]; cbn [gen_from kind_types] in *;
    try (injection Ga as <-; cbn [ra_variant ra_build]; try reflexivity).
  - destruct (expand_tuple _) as [idx|] eqn:Ex; [|discriminate]. injection Ga as <-. cbn [ra_variant ra_build].
    apply expand_tuple_seq in Ex. cbn [from_storage run_build]. apply bind_eq. intros vs s' R.
    apply into_inner_fields in R. rewrite (proj2 (Htl (t :: t2 :: tys) Hw)) in R.
    rewrite Ex, (bind_ret _ vs) by (apply project_all; exact R). reflexivity.
  - rewrite run_build_struct; auto using into_inner_fields.
Qed.

End Gen.

(** ** Boxes made by [into_tagged_box] *)

Definition logged (evs : list event) (s : st) : st := St (bytes s) (blocks s) (events s ++ evs).

Lemma logged_nil s : logged [] s = s.
Proof. unfold logged. rewrite app_nil_r. destruct s; reflexivity. Qed.

Lemma logged_app a b s : logged b (logged a s) = logged (a ++ b) s.
Proof. unfold logged. cbn. rewrite app_assoc. reflexivity. Qed.

Lemma keeps_logged evs s : keeps s (logged evs s).
Proof. apply keeps_same; reflexivity. Qed.

(** The user's [Drop] for the enum, run when [into_tagged_box] returns. *)
Definition exit_log (def : edef) (vs : hval) : list event :=
  if e_drop def then [EvDrop (e_name def) (concat vs)] else [].

Lemma at_exit_eq {A} def vs (m : M A) s :
  at_exit (e_drop def) (EvDrop (e_name def) (concat vs)) m s =
    match m s with
    | Ok a s' => Ok a (logged (exit_log def vs) s')
    | Panicked p s' => Panicked p (logged (exit_log def vs) s')
    | UB u => UB u
    end.
Proof.
  unfold at_exit, exit_log. destruct (e_drop def).
  - destruct (m s); reflexivity.
  - destruct (m s); rewrite ?logged_nil; reflexivity.
Qed.

(** [w] is a box holding the enum value [v]. *)
Definition boxed (E : env) (def : edef) (s : st) (w : tagged_ptr) (v : evalue) : Prop :=
  exists i k, nth_error (e_variants def) i = Some (ev_variant v, k) /\
    tb_discriminant E w = N.of_nat i /\
    match storage k with
    | Some U => box_holds E s U w (ev_fields v)
    | None => ev_fields v = []
    end.

Lemma boxed_keeps E def s s' w v : def_ok def -> keeps s s' -> boxed E def s w v -> boxed E def s' w v.
Proof.
  intros Hd Hk (i & k & Hi & Ht & H). exists i, k. split; [exact Hi|]. split; [exact Ht|].
  destruct (storage k) as [U|] eqn:Es; [|exact H]. eapply box_holds_keeps; [|exact Hk|exact H].
  eapply storage_legal; [|exact Es]. eapply kind_types_wf; [exact Hd|]. eapply nth_error_In, Hi.
Qed.

Section Boxed.
Variables (E : env) (def : edef) (x : expansion).
Hypothesis Hd : def_ok def.
Hypothesis Hx : expand def = Some x.
Hypothesis H8 : disc_ty_bits (cfg (tgt E)) = 8.

Lemma boxed_into_inner s w v : boxed E def s w v -> macro_into_inner E x w s = Ok v s.
Proof.
  intros (i & k & Hi & Ht & H). rewrite (macro_into_inner_eq E def x Hd Hx w s H8), Ht, Nnat.Nat2N.id, Hi.
  unfold read_kind. destruct v as [n vs]. cbn [ev_variant ev_fields] in *.
  destruct (storage k); [|subst vs; reflexivity]. destruct H as (_ & _ & H). unfold bind. rewrite H. reflexivity.
Qed.

(** Viewing runs the closure on the value; only the [Drop] of a unit variant can follow. *)
Definition quiet (v : evalue) : Prop :=
  e_drop def = false \/ ~ In (ev_variant v, KUnit) (e_variants def).

Lemma boxed_ref s w v S (cb : evalue -> S -> M S) c : boxed E def s w v -> quiet v ->
  macro_ref E x S w cb c s = cb v c s.
Proof.
  intros (i & k & Hi & Ht & H) Hq.
  rewrite (macro_ref_eq E def x Hd Hx S w cb c s H8), Ht, Nnat.Nat2N.id, Hi.
  assert (Q : e_drop def && match k with KUnit => true | _ => false end = false).
  { destruct Hq as [-> | Hn]; [reflexivity|]. destruct k; try apply andb_false_r.
    exfalso. apply Hn. eapply nth_error_In, Hi. }
  unfold bind, read_kind. destruct v as [n vs]. cbn [ev_variant ev_fields] in *.
  destruct (storage k) as [U|] eqn:Es.
  - destruct H as (_ & H & _). unfold bind. rewrite H. cbn [ret]. rewrite Q. reflexivity.
  - subst vs. cbn [ret]. rewrite Q. reflexivity.
Qed.

Lemma boxed_ref_unit s w v S (cb : evalue -> S -> M S) c : boxed E def s w v ->
  In (ev_variant v, KUnit) (e_variants def) ->
  macro_ref E x S w cb c s = at_exit (e_drop def) (EvDrop (e_name def) []) (cb v c) s.
Proof.
  intros (i & k & Hi & Ht & H) Hu.
  rewrite (macro_ref_eq E def x Hd Hx S w cb c s H8), Ht, Nnat.Nat2N.id, Hi.
  assert (k = KUnit).
  { pose proof (assoc_in _ _ _ (do_names _ Hd) Hu). pose proof (assoc_in _ _ _ (do_names _ Hd) (nth_error_In _ _ Hi)).
    congruence. }
  subst k. cbn [storage] in H. unfold bind, read_kind. cbn [storage ret ev_fields concat].
  rewrite andb_true_r. destruct v as [n vs]; cbn in *; subst vs. reflexivity.
Qed.

Hypothesis He : env_ok E.

(** With enough tags, all variants fit. *)
Lemma variants_all_fit v : variants_fit (cfg (tgt E)) def -> evalue_ok def v -> evalue_fits E def v.
Proof.
  intros Hf (k & Hin & Ht). split; [exists k; auto|]. destruct (In_nth_error _ _ Hin) as [i Hi]. exists i, k. split; [exact Hi|].
  assert (L : (i < length (e_variants def))%nat) by (apply nth_error_Some; congruence). unfold variants_fit in Hf. lia.
Qed.

Lemma fits_nth i v k : nth_error (e_variants def) i = Some (v, k) -> tag_fits E def v ->
  N.of_nat i <= max_discriminant (cfg (tgt E)) /\ N.of_nat i mod 256 = N.of_nat i.
Proof.
  intros H (j & k' & Hj & L).
  assert (i = j); [|subst j].
  { pose proof (do_names _ Hd) as Nd. rewrite NoDup_nth_error in Nd. apply Nd.
    - rewrite map_length. apply nth_error_Some. congruence.
    - rewrite !nth_error_map, H, Hj. reflexivity. }
  assert (M : max_discriminant (cfg (tgt E)) < 256).
  { pose proof (max_disc_lt _ (eo_target _ He) _ (N.le_refl _)) as M.
    pose proof (disc_bits_le_ty _ (eo_target _ He)) as M'. rewrite H8 in M'. change (2 ^ 8) with 256 in M'. lia. }
  split; [exact L|]. apply N.mod_small. lia.
Qed.

Lemma macro_into_spec v k s : In (ev_variant v, k) (e_variants def) ->
  Forall2 has_type (kind_types k) (ev_fields v) -> tag_fits E def (ev_variant v) ->
  let gone := drop_events (kind_types k) (ev_fields v) ++ exit_log def (ev_fields v) in
  (match storage k with Some U => h_size U = 0 | None => True end /\
   exists w, macro_into E x v s = Ok w (logged gone s) /\ boxed E def (logged gone s) w v) \/
  (exists U, storage k = Some U /\ h_size U <> 0 /\ alloc_fn E s (h_size U) (h_align U) = None /\
     macro_into E x v s = Panicked PanicNullAlloc (logged gone s)) \/
  (exists U p w, storage k = Some U /\ h_size U <> 0 /\ alloc_fn E s (h_size U) (h_align U) = Some p /\
     macro_into E x v s = Ok w (logged (exit_log def (ev_fields v)) (stored U p (ev_fields v) s)) /\
     tb_as_ptr E w = p /\
     boxed E def (logged (exit_log def (ev_fields v)) (stored U p (ev_fields v) s)) w v).
Proof.
  intros Hin Ht Hfit gone. destruct v as [n vs]. cbn [ev_variant ev_fields] in *.
  destruct (In_nth_error _ _ Hin) as [i Hi]. destruct (fits_nth i n k Hi Hfit) as [Hm Hmod].
  rewrite (macro_into_eq E def x Hd Hx i n k vs s Hi) by (symmetry; eapply Forall2_len, Ht).
  rewrite at_exit_eq, Hmod. unfold store_kind.
  pose proof (kind_types_wf _ _ _ Hd Hin) as Hw. destruct (storage k) as [U|] eqn:Es.
  - destruct (storage_legal k U Hw Es) as [Hl Hty].
    assert (Hv : hval_ok U vs) by (unfold hval_ok; rewrite Hty; exact Ht).
    destruct (tb_new_spec E (eo_target _ He) (eo_alloc _ He) U vs (N.of_nat i) s (eo_fits _ He) Hl Hv Hm)
      as [(Hz & w & -> & Hdisc & _ & _ & Hb) | [(Hz & Hn & ->) | (Hz & p & w & Hp & -> & Hdisc & Has & _ & Hb)]].
    + left. split; [exact Hz|]. exists w. unfold dropped. rewrite Hty.
      change (St (bytes s) (blocks s) (events s ++ drop_events (kind_types k) vs))
        with (logged (drop_events (kind_types k) vs) s). rewrite logged_app. split; [reflexivity|].
      exists i, k. cbn [ev_variant ev_fields]. rewrite Es. split; [exact Hi|]. split; [exact Hdisc|].
      eapply box_holds_keeps; [exact Hl| |exact Hb]. apply keeps_same; reflexivity.
    + right. left. exists U. split; [reflexivity|]. split; [exact Hz|]. split; [exact Hn|]. unfold dropped. rewrite Hty.
      change (St (bytes s) (blocks s) (events s ++ drop_events (kind_types k) vs))
        with (logged (drop_events (kind_types k) vs) s). rewrite logged_app. reflexivity.
    + right. right. exists U, p, w. split; [reflexivity|]. split; [exact Hz|]. split; [exact Hp|].
      split; [reflexivity|]. split; [exact Has|].
      exists i, k. cbn [ev_variant ev_fields]. rewrite Es. split; [exact Hi|]. split; [exact Hdisc|].
      eapply box_holds_keeps; [exact Hl|apply keeps_logged|exact Hb].
  - left. split; [exact I|]. exists (tb_dangling E (e_align def) (N.of_nat i)). cbn [ret].
    unfold gone. rewrite (storage_none k Es) in *. inversion Ht; subst. cbn [drop_events app]. split; [reflexivity|].
    exists i, k. cbn [ev_variant ev_fields]. rewrite Es. split; [exact Hi|]. split; [|reflexivity].
    unfold tb_discriminant, tb_dangling, tp_dangling. apply fetch_store_in.
    + apply (eo_target _ He).
    + apply (proj1 (pow2_small E (eo_target _ He) _ (do_align _ Hd))).
    + apply (max_disc_lt _ (eo_target _ He)). exact Hm.
Qed.

End Boxed.
