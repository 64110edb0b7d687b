(** Proofs about the settings and the build script. *)
From Coq Require Import NArith List String Ascii Bool Lia.
From Verif Require Import Words Config Spec.
Import ListNotations.
Local Open Scope N_scope.

(** Everything arithmetic we need to know about a row, checked on the 16 rows. *)
Definition row_ok (c : config) : bool :=
  (pointer_width c + discriminant_bits c =? 64)
  && (1 <=? discriminant_bits c) && (48 <=? pointer_width c) && (pointer_width c <? 64)
  && (discriminant_bits c <=? disc_ty_bits c)
  && (max_discriminant c <? 2 ^ discriminant_bits c)
  && ((disc_ty_bits c =? 8) || (disc_ty_bits c =? 16))
  && (1 <=? max_discriminant c)
  && (max_pointer_value c =? 2 ^ pointer_width c - 1)
  && (discriminant_mask c =? N.ones (pointer_width c)).

Lemma table_rows_ok : forallb row_ok table = true.
Proof. vm_compute. reflexivity. Qed.

Lemma row_facts c : In c table ->
  pointer_width c + discriminant_bits c = 64 /\ 1 <= discriminant_bits c /\
  48 <= pointer_width c /\ pointer_width c < 64 /\ discriminant_bits c <= disc_ty_bits c /\
  max_discriminant c < 2 ^ discriminant_bits c /\ (disc_ty_bits c = 8 \/ disc_ty_bits c = 16) /\
  1 <= max_discriminant c /\
  max_pointer_value c = 2 ^ pointer_width c - 1 /\ discriminant_mask c = N.ones (pointer_width c).
Proof.
  intros Hin. pose proof table_rows_ok as H. rewrite forallb_forall in H.
  specialize (H c Hin). unfold row_ok in H.
  rewrite !andb_true_iff, orb_true_iff in H.
  rewrite !N.eqb_eq, !N.leb_le, !N.ltb_lt in H. tauto.
Qed.

(** ** Lines *)

Fixpoint no_nl (s : string) : bool :=
  match s with
  | EmptyString => true
  | String c r => negb (Ascii.eqb c nl) && no_nl r
  end.

Lemma split_lines_app s rest : no_nl s = true ->
  split_lines (s ++ String nl rest)%string = s :: split_lines rest.
Proof.
  induction s as [|c s IH]; cbn [no_nl append split_lines]; intros H.
  - rewrite Ascii.eqb_refl. reflexivity.
  - apply andb_true_iff in H as [H1 H2].
    destruct (Ascii.eqb c nl) eqn:E; [discriminate|].
    rewrite (IH H2). reflexivity.
Qed.

Lemma split_stdout ls : forallb no_nl ls = true -> split_lines (stdout_of ls) = ls.
Proof.
  induction ls as [|l ls IH]; cbn [forallb stdout_of]; intros H; [reflexivity|].
  apply andb_true_iff in H as [H1 H2]. rewrite (split_lines_app l _ H1), (IH H2). reflexivity.
Qed.

Lemma no_nl_app a b : no_nl (a ++ b)%string = no_nl a && no_nl b.
Proof. induction a as [|x a IH]; cbn; [reflexivity|]. rewrite IH. now rewrite andb_assoc. Qed.

(** The fallback branch, reached by every string that is not documented. *)
Lemma build_rs_fallback s :
  existsb (fun d => String.eqb (fst d) s) documented = false ->
  build_rs (Some s) =
    [("cargo:warning=" ++ s
         ++ " is an invalid reserved pointer width for `TAGGED_BOX_RESERVED_WIDTH`")%string;
     "cargo:rustc-cfg=tagged_box_reserve_60bits"%string].
Proof.
  cbn [documented existsb fst]. rewrite !orb_false_iff.
  intros H. unfold build_rs. cbn [find_arm build_rs_arms].
  rewrite !(String.eqb_sym s).
  repeat match goal with
  | |- context [String.eqb ?x s] => replace (String.eqb x s) with false by intuition congruence
  end. reflexivity.
Qed.

Lemma build_rs_documented s w : In (s, w) documented ->
  exists c, selected (Some s) = Some c /\ pointer_width c = w /\ In c table /\ build_warnings (Some s) = [].
Proof.
  cbn [documented In]. intros H.
  repeat match type of H with _ \/ _ => destruct H as [H|H] | False => destruct H end;
  injection H as <- <-; (eexists; split; [vm_compute; reflexivity|]);
  (split; [reflexivity| split; [|vm_compute; reflexivity]]); cbn; tauto.
Qed.

Lemma selected_fallback s :
  existsb (fun d => String.eqb (fst d) s) documented = false -> no_nl s = true ->
  active_cfgs (Some s) = ["tagged_box_reserve_60bits"%string] /\
  build_warnings (Some s) =
    [(s ++ " is an invalid reserved pointer width for `TAGGED_BOX_RESERVED_WIDTH`")%string].
Proof.
  intros Hd Hn. unfold active_cfgs, build_warnings, cargo_cfgs, cargo_warnings.
  rewrite (build_rs_fallback s Hd), split_stdout.
  - split; reflexivity.
  - cbn [forallb]. rewrite !no_nl_app, Hn. reflexivity.
Qed.

Lemma no_nl_spec s : ~ In nl (list_ascii_of_string s) -> no_nl s = true.
Proof.
  induction s as [|c s IH]; cbn [list_ascii_of_string no_nl In]; intros H; [reflexivity|].
  apply andb_true_iff; split; [|apply IH; tauto].
  destruct (Ascii.eqb_spec c nl); [exfalso; auto|reflexivity].
Qed.

Lemma documented_dec s : is_documented s \/ existsb (fun d => String.eqb (fst d) s) documented = false.
Proof.
  destruct (existsb (fun d => String.eqb (fst d) s) documented) eqn:E; [left|right; reflexivity].
  apply existsb_exists in E as ([n w] & Hin & He). apply String.eqb_eq in He. cbn in He. subst.
  unfold is_documented. change s with (fst (s, w)). apply in_map, Hin.
Qed.

Lemma documented_false s : existsb (fun d => String.eqb (fst d) s) documented = false -> ~ is_documented s.
Proof.
  intros E H. unfold is_documented in H. apply in_map_iff in H as ([n w] & <- & Hin).
  enough (true = false) by discriminate. rewrite <- E. symmetry. apply existsb_exists.
  exists (n, w). split; [exact Hin|apply String.eqb_refl].
Qed.

Lemma documented_width s : is_documented s -> exists w, In (s, w) documented.
Proof. unfold is_documented. intros H. apply in_map_iff in H as ([n w] & <- & Hin). eauto. Qed.

Lemma selected_row env c : selected env = Some c <-> active_rows (active_cfgs env) = [c].
Proof.
  unfold selected. destruct (active_rows _) as [|a [|b l]]; split; intros H; congruence.
Qed.

Lemma active_rows_table cfgs c : In c (active_rows cfgs) -> In c table.
Proof. intros H. exact (proj1 (proj1 (filter_In _ _ _) H)). Qed.

Lemma selected_in_table env c : selected env = Some c -> In c table.
Proof.
  intros H. apply selected_row in H. apply (active_rows_table (active_cfgs env)).
  rewrite H. left. reflexivity.
Qed.

Lemma selection env : line_break_free env ->
  exists c, active_rows (active_cfgs env) = [c] /\ In c table /\ width_requested env (pointer_width c) /\ (build_warnings env = [] <-> match env with None => True | Some s => is_documented s end).
Proof.
  destruct env as [s|]; cbn [line_break_free width_requested]; intros Hn.
  - destruct (documented_dec s) as [Hd|Hd].
    + destruct (documented_width s Hd) as [w Hw].
      destruct (build_rs_documented s w Hw) as (c & Hs & Hc & Hin & Hwarn).
      exists c. apply selected_row in Hs. rewrite Hs, Hwarn, Hc. intuition.
    + destruct (selected_fallback s Hd (no_nl_spec s Hn)) as [Hc Hw].
      exists (Config "tagged_box_reserve_60bits" 8  15    60 4). rewrite Hc, Hw.
      split; [reflexivity|]. split; [cbn; tauto|]. split.
      * right. split; [now apply documented_false|reflexivity].
      * split; [destruct s; discriminate|]. intros Hx. destruct (documented_false s Hd Hx).
  - exists (Config "tagged_box_reserve_60bits" 8  15    60 4).
    split; [vm_compute; reflexivity|]. split; [cbn; tauto|]. split; [reflexivity|].
    split; [tauto|]. intros _. vm_compute. reflexivity.
Qed.
