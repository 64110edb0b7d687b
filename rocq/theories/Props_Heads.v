(** C62: the head of a definition. *)
From Coq Require Import Arith NArith String Bool List Lia.
From Verif Require Import Words Config Pointer Mem Box Arms Macro Tokens SpecTokens TokensFacts Props_Tokens Heads SpecHeads.
Import ListNotations.
Local Open Scope string_scope.
Local Open Scope list_scope.

(** ** Matching and writing are inverse *)

Definition no_colons (ts : list tree) : Prop := match ts with TOp o :: _ => o <> "::" | _ => True end.

Lemma path_write p ts : p <> [] -> no_colons ts -> p_path (write_path p ++ ts) = Some (p, ts).
Proof.
  intros Hp Hn. induction p as [|a p IH]; [contradiction|]. destruct p as [|b p].
  - cbn [write_path app p_path]. destruct ts as [|[] ts]; try reflexivity. cbn [no_colons] in Hn.
    destruct (String.eqb_spec s "::"); [contradiction|reflexivity].
  - change (write_path (a :: b :: p)) with (TId a :: TOp "::" :: write_path (b :: p)). cbn [app p_path].
    rewrite String.eqb_refl, IH by discriminate. reflexivity.
Qed.

Lemma path_read ts : forall p r, p_path ts = Some (p, r) -> ts = write_path p ++ r /\ p <> [].
Proof.
  remember (List.length ts) as n eqn:L. revert ts L. induction n as [n IH] using lt_wf_ind. intros [|t ts] L p r H; [discriminate H|].
  destruct t as [a| | | | | | |]; try discriminate H. cbn [p_path] in H.
  assert (K : (p, r) = ([a], ts) -> TId a :: ts = write_path p ++ r /\ p <> []).
  { intros E. injection E as -> ->. split; [reflexivity|discriminate]. }
  destruct ts as [|[] ts']; try (injection H as <- <-; apply K; reflexivity).
  destruct (String.eqb_spec s "::") as [->|]; [|injection H as <- <-; apply K; reflexivity].
  destruct (p_path ts') as [[q r']|] eqn:Q; [|discriminate H]. cbn in H. injection H as <- <-.
  destruct (IH (List.length ts') ltac:(cbn in L; lia) ts' eq_refl q r' Q) as [-> N]. destruct q as [|b q]; [contradiction|].
  split; [reflexivity|discriminate].
Qed.

Lemma meta_write m : m_path m <> [] -> p_meta (write_meta m) = Some m.
Proof.
  destruct m as [p [|d l|s]]; cbn [m_path]; intros Hp; unfold p_meta, write_meta; cbn [m_path m_args];
    rewrite path_write; try exact Hp; try exact I; try reflexivity. discriminate.
Qed.

Lemma meta_read ts m : p_meta ts = Some m -> ts = write_meta m /\ m_path m <> [].
Proof.
  unfold p_meta. destruct (p_path ts) as [[p r]|] eqn:P; [|discriminate]. apply path_read in P as [-> N].
  destruct r as [|[s|s| | | | |o|d l] r]; try discriminate.
  - intros H. injection H as <-. split; [reflexivity|exact N].
  - destruct r as [|[] [|]]; try discriminate. destruct (String.eqb_spec o "=") as [->|]; [|discriminate].
    intros H. injection H as <-. split; [reflexivity|exact N].
  - destruct r; [|discriminate]. intros H. injection H as <-. split; [reflexivity|exact N].
Qed.

Definition no_attr (ts : list tree) : Prop := match ts with TOp _ :: _ => False | _ => True end.

Lemma metas_write ms ts : Forall (fun m => m_path m <> []) ms -> no_attr ts ->
  p_metas (flat_map (fun m => [TOp "#"; TGroup Bracket (write_meta m)]) ms ++ ts) = Some (ms, ts).
Proof.
  intros F N. induction F as [|m ms Hm _ IH].
  - cbn [flat_map app]. destruct ts as [|[] ts]; try reflexivity. destruct N.
  - cbn [flat_map app p_metas]. rewrite String.eqb_refl, (meta_write m Hm), IH. reflexivity.
Qed.

Lemma metas_read ts : forall ms r, p_metas ts = Some (ms, r) ->
  ts = flat_map (fun m => [TOp "#"; TGroup Bracket (write_meta m)]) ms ++ r /\ Forall (fun m => m_path m <> []) ms.
Proof.
  remember (List.length ts) as n eqn:L. revert ts L. induction n as [n IH] using lt_wf_ind. intros ts L ms r H.
  assert (K : Some ([], ts) = Some (ms, r) -> ts = flat_map (fun m => [TOp "#"; TGroup Bracket (write_meta m)]) ms ++ r /\
    Forall (fun m => m_path m <> []) ms).
  { intros E. injection E as <- <-. split; [reflexivity|constructor]. }
  destruct ts as [|[| | | | | |h|] ts]; try (apply K; exact H). destruct ts as [|[| | | | | | |[] l] ts]; try (apply K; exact H).
  cbn [p_metas] in H. destruct (String.eqb_spec h "#") as [->|]; [|apply K; exact H].
  destruct (p_meta l) as [m|] eqn:M; [|discriminate H]. destruct (p_metas ts) as [[ms' r']|] eqn:R; [|discriminate H].
  injection H as <- <-. apply meta_read in M as [-> N].
  destruct (IH (List.length ts) ltac:(cbn in L; lia) ts eq_refl ms' r' R) as [-> F]. split; [reflexivity|constructor; assumption].
Qed.

(** What follows a visibility here is a word other than [pub]. *)
Definition no_vis (ts : list tree) : Prop := match ts with TId s :: _ => s <> "pub" | _ => False end.

Lemma vis_write v ts : vis_wf v -> no_vis ts -> p_vis (write_vis v ++ ts) = Some (v, ts).
Proof.
  intros W N. destruct ts as [|[s| | | | | | |] ts]; try contradiction. cbn [no_vis] in N.
  destruct v as [| | | | |p]; try reflexivity.
  - cbn [write_vis app p_vis]. destruct (String.eqb_spec s "pub"); [contradiction|reflexivity].
  - cbn [write_vis app p_vis vis_wf] in *. destruct p as [|a p]; [contradiction|].
    pose proof (path_write (a :: p) [] W I) as P. rewrite app_nil_r in P.
    assert (Q : exists b l, write_path (a :: p) = b :: l) by (destruct p; do 2 eexists; reflexivity).
    destruct Q as (b & l & Q). rewrite Q in *. cbn [String.eqb Ascii.eqb Bool.eqb]. rewrite P. reflexivity.
Qed.

Lemma vis_read ts v r : p_vis ts = Some (v, r) -> ts = write_vis v ++ r /\ vis_wf v.
Proof.
  unfold p_vis. destruct ts as [|[p| | | | | | |] ts]; try (intros H; injection H as <- <-; split; [reflexivity|exact I]).
  destruct (String.eqb_spec p "pub") as [->|]; [|intros H; injection H as <- <-; split; [reflexivity|exact I]].
  destruct ts as [|[| | | | | | |[] l] ts]; try (intros H; injection H as <- <-; split; [reflexivity|exact I]).
  destruct l as [|[w| | | | | | |] l]; try discriminate. destruct l as [|t l].
  - destruct (String.eqb_spec w "crate") as [->|]; [intros H; injection H as <- <-; split; [reflexivity|exact I]|].
    destruct (String.eqb_spec w "super") as [->|]; [intros H; injection H as <- <-; split; [reflexivity|exact I]|].
    destruct (String.eqb_spec w "self") as [->|]; [intros H; injection H as <- <-; split; [reflexivity|exact I]|discriminate].
  - destruct (String.eqb_spec w "in") as [->|]; [|discriminate].
    destruct (p_path (t :: l)) as [[q [|]]|] eqn:P; try discriminate. intros H. injection H as <- <-.
    apply path_read in P as [P N]. rewrite app_nil_r in P. rewrite P. split; [reflexivity|exact N].
Qed.

Lemma word_write w ts : p_word w (TId w :: ts) = Some ts.
Proof. unfold p_word. rewrite String.eqb_refl. reflexivity. Qed.

Lemma ident_write s ts : s <> "_" -> p_ident (TId s :: ts) = Some (s, ts).
Proof. intros N. unfold p_ident. destruct (String.eqb_spec s "_"); [contradiction|reflexivity]. Qed.

(** The tokens accepted are exactly the heads written as documented, with a token for variants: no generics, no [where], container first,
    one visibility for each. *)
Theorem C62_syntax : forall ts h vs,
  p_head ts = Some (h, vs) <-> ts = write_head h vs /\ head_wf h /\ vs <> [].
Proof.
  intros ts h vs. split.
  - unfold p_head. intros H.
    destruct (p_metas ts) as [[ms t1]|] eqn:H1; [|discriminate H]. apply metas_read in H1 as [-> F].
    destruct (p_vis t1) as [[sv t2]|] eqn:H2; [|discriminate H]. apply vis_read in H2 as [-> W1].
    unfold p_word at 1 in H. destruct t2 as [|[w| | | | | | |] t2]; try discriminate H.
    destruct (String.eqb_spec w "struct") as [->|]; [|discriminate H].
    unfold p_ident at 1 in H. destruct t2 as [|[s| | | | | | |] t2]; try discriminate H.
    destruct (String.eqb_spec s "_") as [|Ns]; [discriminate H|]. destruct t2 as [|[| | | | | | |] t2]; try discriminate H.
    destruct (p_vis t2) as [[ev t3]|] eqn:H3; [|discriminate H]. apply vis_read in H3 as [-> W2].
    unfold p_word in H. destruct t3 as [|[w| | | | | | |] t3]; try discriminate H.
    destruct (String.eqb_spec w "enum") as [->|]; [|discriminate H].
    unfold p_ident in H. destruct t3 as [|[e| | | | | | |] t3]; try discriminate H.
    destruct (String.eqb_spec e "_") as [|Ne]; [discriminate H|].
    destruct t3 as [|[| | | | | | |[] l] [|]]; try discriminate H; destruct l as [|t0 l]; try discriminate H.
    injection H as <- <-. unfold write_head, head_wf. cbn [h_metas h_svis h_struct h_evis h_enum]. 
    split; [reflexivity|]. split; [auto|discriminate].
  - intros (-> & (F & W1 & W2 & Ns & Ne) & Nv). unfold p_head, write_head.
    rewrite metas_write; [|exact F|destruct (h_svis h); exact I].
    rewrite vis_write; [|exact W1|discriminate]. cbn [app]. rewrite word_write, (ident_write _ _ Ns).
    rewrite vis_write; [|exact W2|discriminate]. rewrite word_write, (ident_write _ _ Ne). destruct vs as [|t vs]; [contradiction|]. destruct h; reflexivity.
Qed.

(** ** What is generated *)

(** Every attribute goes to both items, in order; only the container has one more. Names and visibilities are those given, and the
    variants are read as without the head. *)
Theorem C62_items : forall parse limit align d c ts s e x,
  tagged_box_call parse limit align d c ts = Done (s, e, x) <->
  exists h vs, ts = write_head h vs /\ head_wf h /\ vs <> [] /\
    s = Item (h_metas h ++ [Meta ["repr"] (AGroup Paren [TId "transparent"])]) (h_svis h) (h_struct h) /\
    e = Item (h_metas h) (h_evis h) (h_enum h) /\
    tagged_box_m parse limit (h_struct h) (h_enum h) align d c vs = Done x.
Proof.
  intros parse limit align d c ts s e x. unfold tagged_box_call. split.
  - destruct (p_head ts) as [[h vs]|] eqn:P; [|discriminate]. apply C62_syntax in P as (-> & W & N).
    destruct (tagged_box_m parse limit (h_struct h) (h_enum h) align d c vs) as [y| | |] eqn:T; try discriminate.
    cbn [and_then]. intros H. injection H as <- <- <-. exists h, vs. auto 10.
  - intros (h & vs & -> & W & N & -> & -> & T). rewrite (proj2 (C62_syntax _ h vs) (conj eq_refl (conj W N))), T. reflexivity.
Qed.

(** ** What the compiler accepts *)

Lemma around_app p q : around p q = true <-> exists r, q = p ++ r.
Proof.
  revert q. induction p as [|a p IH]; intros q; [split; [exists q; reflexivity|reflexivity]|].
  destruct q as [|b q]; cbn [around]; [split; [discriminate|intros [r H]; discriminate H]|].
  rewrite andb_true_iff, String.eqb_eq, IH. split.
  - intros [-> [r ->]]. exists r. reflexivity.
  - intros [r H]. injection H as -> ->. split; [reflexivity|exists r; reflexivity].
Qed.

Definition named_from (r : reach) (x : site) : Prop :=
  match r, x with Everywhere, _ => True | Within _, OtherCrate => False | Within p, InModule q => exists l, q = p ++ l end.

Lemma reach_valid here v : vis_valid here v <-> exists r, reach_of here v = Some r.
Proof.
  destruct v as [| | | | |l]; cbn [vis_valid reach_of]; try (split; [eauto|exact (fun _ => I)]).
  - destruct here; (split; [intros H; try contradiction; eauto|intros [r H]; discriminate]).
  - split.
    + intros (up & q & -> & E). rewrite (proj2 (around_app up here) (ex_intro _ q E)). eauto.
    + intros [r H]. destruct (in_path here l) as [up|]; [|discriminate H]. destruct (around up here) eqn:A; [|discriminate H].
      apply around_app in A as [q E]. eauto.
Qed.

Lemma reach_named here v r : reach_of here v = Some r -> forall x, can_name here v x <-> named_from r x.
Proof.
  intros H x. destruct v as [| | | | |l]; cbn [reach_of] in H; try (injection H as <-); destruct x as [|m]; cbn [can_name named_from]; try tauto.
  - split; [exists m; reflexivity|exact (fun _ => I)].
  - destruct here; [discriminate H|]. injection H as <-. tauto.
  - assert (A : here <> [] /\ r = Within (removelast here)) by (destruct here; [discriminate H|split; [discriminate|congruence]]).
    destruct A as [A ->]. apply (app_removelast_last "") in A. cbn [named_from]. split.
    + intros (up & z & q & E & ->). rewrite E, removelast_last. eauto.
    + intros [q ->]. eauto 10.
  - destruct (in_path here l) as [up|]; [|discriminate H]. destruct (around up here); [|discriminate H]. injection H as <-. tauto.
  - destruct (in_path here l) as [up|]; [|discriminate H]. destruct (around up here); [|discriminate H]. injection H as <-. cbn [named_from]. split.
    + intros (up' & q & E & ->). injection E as <-. eauto.
    + intros [q ->]. eauto.
Qed.

Lemma covers_named a b : covers a b = true <-> forall x, named_from b x -> named_from a x.
Proof.
  destruct a as [|p], b as [|q]; cbn [covers named_from]; try (split; [intros _ []; tauto|reflexivity]).
  - split; [discriminate|]. intros H. destruct (H OtherCrate I).
  - rewrite around_app. split.
    + intros [r ->] [|m]; [tauto|]. intros [l ->]. exists (r ++ l). rewrite app_assoc. reflexivity.
    + intros H. apply (H (InModule q)). exists []. rewrite app_nil_r. reflexivity.
Qed.

Lemma hints_last ms m l : all_hints (ms ++ [m]) = Some l <-> exists a b, all_hints ms = Some a /\ repr_hints m = Some b /\ l = a ++ b.
Proof.
  revert l. induction ms as [|x ms IH]; intros l; cbn [app all_hints].
  - destruct (repr_hints m) as [b|]; [|split; [discriminate|intros (a & b & _ & H & _); discriminate H]].
    split; [intros H; injection H as <-; exists [], b; rewrite app_nil_r; auto|].
    intros (a & b' & H & H' & ->). injection H as <-. injection H' as <-. rewrite app_nil_r. reflexivity.
  - destruct (repr_hints x) as [c|]; [|split; [discriminate|intros (a & b & H & _); discriminate H]].
    destruct (all_hints (ms ++ [m])) as [r|].
    + destruct (proj1 (IH r) eq_refl) as (a & b & -> & -> & ->). split.
      * intros H. injection H as <-. exists (c ++ a), b. rewrite app_assoc. auto.
      * intros (a' & b' & H & H' & ->). injection H as <-. injection H' as <-. rewrite app_assoc. reflexivity.
    + split; [discriminate|]. intros (a & b & H & H' & ->). destruct (all_hints ms) as [a'|]; [|discriminate H].
      assert (K : None = Some (a' ++ b)) by (apply IH; exists a', b; auto). discriminate K.
Qed.

Lemma no_names l : flat_map (fun t => match t with TId s => [s] | _ => [] end) l = [] <-> forall s, ~ In (TId s) l.
Proof.
  induction l as [|t l IH]; cbn [flat_map In]; [split; auto|]. destruct t as [n| | | | | | |]; cbn [app];
    [split; [discriminate|intros H; destruct (H n (or_introl eq_refl))]|rewrite IH..];
    (split; intros H n K; apply (H n); [destruct K as [K|K]; [discriminate K|exact K]|auto]).
Qed.

Lemma is_attr_path n m : is_attr n m = true <-> m_path m = [n].
Proof.
  unfold is_attr. destruct (m_path m) as [|p [|q r]]; try (split; discriminate). rewrite String.eqb_eq. split; [intros ->; reflexivity|intros H; injection H; auto].
Qed.

Lemma hints_empty ms : all_hints ms = Some [] <-> Forall repr_empty ms.
Proof.
  assert (One : forall m, repr_hints m = Some [] <-> repr_empty m).
  { intros m. unfold repr_hints, repr_empty. destruct (is_attr "repr" m) eqn:A.
    - apply is_attr_path in A. destruct (m_args m) as [|[] l|]; try (split; [discriminate|intros H; destruct (H A) as (l' & H' & _); discriminate H']).
      split.
      + intros H _. injection H as H. exists l. split; [reflexivity|]. apply no_names, H.
      + intros H. destruct (H A) as (l' & H' & N). injection H' as <-. f_equal. apply no_names, N.
    - split; [|reflexivity]. intros _ H. apply is_attr_path in H. rewrite A in H. discriminate H. }
  induction ms as [|m ms IH]; cbn [all_hints]; [split; [constructor|reflexivity]|]. rewrite Forall_cons_iff, <- One, <- IH.
  destruct (repr_hints m) as [a|], (all_hints ms) as [b|]; try (split; [discriminate|intros [H H']; first [discriminate H|discriminate H']]).
  split.
  - intros H. injection H as H. apply app_eq_nil in H as [-> ->]. auto.
  - intros [H H']. injection H as ->. injection H' as ->. reflexivity.
Qed.

Lemma repr_ok_transparent ms : repr_ok (ms ++ [repr_transparent]) = true <-> Forall repr_empty ms.
Proof.
  rewrite <- hints_empty. unfold repr_ok. destruct (all_hints (ms ++ [repr_transparent])) as [l|] eqn:A.
  - apply hints_last in A as (a & b & A & B & ->). injection B as <-. rewrite A.
    rewrite existsb_app. cbn [existsb]. rewrite String.eqb_refl, orb_true_l, orb_true_r. cbn [negb orb]. rewrite app_length. cbn [length].
    rewrite Nat.eqb_eq. split; [intros H; destruct a; [reflexivity|cbn in H; lia]|intros H; injection H as ->; reflexivity].
  - split; [discriminate|]. intros H. assert (K : all_hints (ms ++ [repr_transparent]) = Some ["transparent"]).
    { apply hints_last. exists [], ["transparent"]. auto. } rewrite A in K. discriminate K.
Qed.

Lemma kept_all on i : kept on i = true <-> forall m, In m (i_attrs i) -> m_path m = ["cfg"] -> on (m_args m) = true.
Proof.
  unfold kept. rewrite forallb_forall. split; intros H m Hm.
  - intros P. specialize (H m Hm). rewrite (proj2 (is_attr_path "cfg" m) P) in H. exact H.
  - destruct (is_attr "cfg" m) eqn:A; [|reflexivity]. apply is_attr_path in A. cbn. exact (H m Hm A).
Qed.

(** The items of a head are accepted exactly if both visibilities are valid, every place that can name the container can name its enum,
    no attribute asks for a representation, and no [cfg] is off. *)
Theorem C62_accepted : forall on here h,
  complaints on here (struct_item h) (enum_item h) = [] <->
  vis_valid here (h_svis h) /\ vis_valid here (h_evis h) /\
  (forall x, can_name here (h_svis h) x -> can_name here (h_evis h) x) /\
  Forall repr_empty (h_metas h) /\
  (forall m, In m (h_metas h) -> m_path m = ["cfg"] -> on (m_args m) = true).
Proof.
  intros on here h. rewrite !reach_valid.
  assert (K : kept on (struct_item h) && kept on (enum_item h) = true <->
    forall m, In m (h_metas h) -> m_path m = ["cfg"] -> on (m_args m) = true).
  { rewrite andb_true_iff, !kept_all. cbn [struct_item enum_item i_attrs]. split; [intros [_ H]; exact H|].
    intros H. split; [|exact H]. intros m Hm P. apply in_app_iff in Hm as [Hm|[<-|[]]]; [exact (H m Hm P)|discriminate P]. }
  unfold complaints. cbn [struct_item enum_item i_vis i_attrs] in *. fold (struct_item h) (enum_item h).
  split.
  - intros H. apply app_eq_nil in H as [H1 H]. apply app_eq_nil in H as [H2 H3].
    destruct (kept on (struct_item h) && kept on (enum_item h)) eqn:Kp; [|discriminate H1].
    pose proof Kp as Kp'. apply andb_true_iff in Kp' as [Ks _]. rewrite Ks in H2. cbn [andb] in H2.
    destruct (repr_ok (h_metas h ++ [repr_transparent])) eqn:R; [|discriminate H2].
    destruct (reach_of here (h_svis h)) as [rs|] eqn:Rs; [|discriminate H3].
    destruct (reach_of here (h_evis h)) as [re|] eqn:Re; [|discriminate H3].
    destruct (covers re rs) eqn:C; [|discriminate H3].
    split; [eauto|]. split; [eauto|]. split; [|split; [apply repr_ok_transparent, R|apply K; reflexivity]].
    intros x Hx. apply (reach_named here _ _ Re). apply (proj1 (covers_named re rs) C). apply (reach_named here _ _ Rs), Hx.
  - intros ([rs Rs] & [re Re] & Hv & Hr & Hc). apply K in Hc. rewrite Hc. apply andb_true_iff in Hc as [Ks _]. rewrite Ks, Rs, Re.
    rewrite (proj2 (repr_ok_transparent _) Hr). cbn [andb negb app].
    rewrite (proj2 (covers_named re rs)); [reflexivity|]. intros x Hx. apply (reach_named here _ _ Re), Hv. apply (reach_named here _ _ Rs), Hx.
Qed.

(** Consequences for the user: a public container needs a public enum, with or without a [repr] the enum's layout is the compiler's choice, and
    a [cfg] on the definition does not switch it off but breaks the build. *)
Theorem C62_refused : forall on here h,
  (h_svis h = VPub -> h_evis h <> VPub -> vis_valid here (h_evis h) -> In PrivateInPublic (complaints on here (struct_item h) (enum_item h))) /\
  (forall m s l, In m (h_metas h) -> m_path m = ["repr"] -> m_args m = AGroup Paren l -> In (TId s) l ->
     complaints on here (struct_item h) (enum_item h) <> []) /\
  (forall m, In m (h_metas h) -> m_path m = ["cfg"] -> on (m_args m) = false ->
     In NoSuchType (complaints on here (struct_item h) (enum_item h))).
Proof.
  intros on here h. split; [|split].
  - intros Hs He Hv. apply reach_valid in Hv as [re Re]. unfold complaints. cbn [struct_item enum_item i_vis]. rewrite Hs, Re. cbn [reach_of].
    apply in_app_iff. right. apply in_app_iff. right.
    assert (C : covers re Everywhere = false); [|rewrite C; left; reflexivity].
    destruct re; [|reflexivity]. exfalso. apply He. destruct (h_evis h) as [| | | | |l]; try reflexivity; cbn [reach_of] in Re.
    all: try discriminate Re. { destruct here; discriminate Re. } destruct (in_path here l) as [p|]; [|discriminate Re]. destruct (around p here); discriminate Re.
  - intros m s l Hm P A Hl H. apply C62_accepted in H as (_ & _ & _ & R & _). rewrite Forall_forall in R.
    destruct (R m Hm P) as (l' & A' & N). rewrite A in A'. injection A' as <-. exact (N s Hl).
  - intros m Hm P A. unfold complaints. apply in_app_iff. left.
    destruct (kept on (struct_item h) && kept on (enum_item h)) eqn:K; [|left; reflexivity].
    apply andb_true_iff in K as [_ K]. rewrite kept_all in K. rewrite (K m Hm P) in A. discriminate A.
Qed.

(** ** Examples *)

(** [/// Some items.] [#[derive(Debug, Clone)]] [pub(crate) struct Container, pub enum Item { .. }] *)
Definition demo_head : head :=
  Head [Meta ["doc"] (AEq " Some items."); Meta ["derive"] (AGroup Paren [TId "Debug"; TComma; TId "Clone"])] VCrate "Container" VPub "Item".
Definition demo_head_tokens : list tree :=
  [TOp "#"; TGroup Bracket [TId "doc"; TOp "="; TLit " Some items."];
   TOp "#"; TGroup Bracket [TId "derive"; TGroup Paren [TId "Debug"; TComma; TId "Clone"]];
   TId "pub"; TGroup Paren [TId "crate"]; TId "struct"; TId "Container"; TComma; TId "pub"; TId "enum"; TId "Item"].

Example C62_syntax_example : p_head (demo_head_tokens ++ [TGroup Brace item_tokens]) = Some (demo_head, item_tokens) /\
  map p_head
    [[TId "struct"; TId "C"; TComma; TId "enum"; TId "E"; TGroup Brace []];
     [TId "struct"; TId "C"; TOp "<"; TId "T"; TOp ">"; TComma; TId "enum"; TId "E"; TGroup Brace [TId "A"; TComma]];
     [TId "enum"; TId "E"; TComma; TId "struct"; TId "C"; TGroup Brace [TId "A"; TComma]];
     [TId "pub"; TGroup Paren [TId "elsewhere"]; TId "struct"; TId "C"; TComma; TId "enum"; TId "E"; TGroup Brace [TId "A"; TComma]]]
  = [None; None; None; None].
Proof.
  split; [|reflexivity]. apply C62_syntax. split; [reflexivity|]. split; [|discriminate].
  split; [repeat constructor; discriminate|]. split; [exact I|]. split; [exact I|]. split; discriminate.
Qed.

Example C62_items_example : exists x,
  tagged_box_call demo 12 8 false false (demo_head_tokens ++ [TGroup Brace item_tokens]) = Done (struct_item demo_head, enum_item demo_head, x) /\
  x_enum x = item_variants.
Proof.
  destruct item_expansion as (x & H & V). exists x. split; [|exact V]. apply C62_items. exists demo_head, item_tokens.
  destruct (proj1 (C62_syntax _ _ _) (proj1 C62_syntax_example)) as (T & W & N). auto 10.
Qed.

(** In module [crate::a::b]: accepted; a public container with an enum for the crate; a [repr]; a [cfg] that is off; [pub(super)] and
    [pub(in crate::a)] mean the same. *)
Example C62_accepted_example : let look h := complaints (fun _ => false) ["a"; "b"] (struct_item h) (enum_item h) in
  look demo_head = [] /\
  look (Head [] VPub "C" VCrate "E") = [PrivateInPublic] /\
  look (Head [Meta ["repr"] (AGroup Paren [TId "u8"])] VPub "C" VPub "E") = [ReprConflict] /\
  look (Head [Meta ["repr"] (AGroup Paren [TId "transparent"])] VPub "C" VPub "E") = [ReprConflict] /\
  look (Head [Meta ["cfg"] (AGroup Paren [TId "test"])] VPub "C" VPub "E") = [NoSuchType] /\
  look (Head [] VSuper "C" (VIn ["crate"; "a"]) "E") = [] /\ look (Head [] (VIn ["crate"; "a"]) "C" VSuper "E") = [] /\
  look (Head [] VSuper "C" VNone "E") = [PrivateInPublic] /\ look (Head [] VNone "C" (VIn ["crate"; "c"]) "E") = [BadVisibility] /\
  forall x, can_name ["a"; "b"] VCrate x -> can_name ["a"; "b"] VPub x.
Proof.
  cbv zeta. do 9 (split; [reflexivity|]). 
  exact (proj1 (proj2 (proj2 (proj1 (C62_accepted (fun _ => false) ["a"; "b"] demo_head) eq_refl)))).
Qed.

Example C62_refused_example :
  In PrivateInPublic (complaints (fun _ => true) [] (struct_item (Head [] VPub "C" VNone "E")) (enum_item (Head [] VPub "C" VNone "E"))).
Proof. apply (C62_refused (fun _ => true) [] (Head [] VPub "C" VNone "E")); [reflexivity|discriminate|exact I]. Qed.

Print Assumptions C62_syntax.
Print Assumptions C62_items.
Print Assumptions C62_accepted.
Print Assumptions C62_refused.
