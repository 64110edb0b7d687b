(** Property C46: the texts of the panics, and what following their advice leads to. *)
From Coq Require Import Arith NArith String Ascii Bool List Lia.
From Verif Require Import Words Config Spec ConfigFacts Pointer PointerFacts Fmt SpecFmt FmtFacts Messages Props_Pointer.
Import ListNotations.
Local Open Scope N_scope.

(** ** Reading a message *)

(** What stands between the first two quotation marks. *)
Fixpoint until_quote (s : string) : option string :=
  match s with
  | EmptyString => None
  | String c r => if Ascii.eqb c """" then Some EmptyString else option_map (String c) (until_quote r)
  end.
Fixpoint quoted (s : string) : option string :=
  match s with
  | EmptyString => None
  | String c r => if Ascii.eqb c """" then until_quote r else quoted r
  end.

Definition is_user (p : panic) : bool := match p with PanicUser _ => true | _ => false end.

Lemma show_dec_shown x : show_dec x = numeral decimal LowerHex x.
Proof. reflexivity. Qed.
Lemma show_dec_made x : made_of (n_digits decimal) (show_dec x).
Proof. rewrite show_dec_shown. apply numeral_made, decimal_writes. Qed.
Lemma show_dec_reads x : read_number 10 0 (show_dec x) = Some x.
Proof. rewrite show_dec_shown. apply (numeral_reads decimal LowerHex), decimal_writes. Qed.

Lemma show_dec_inj x y : show_dec x = show_dec y -> x = y.
Proof. intros H. pose proof (show_dec_reads x) as E. rewrite H, show_dec_reads in E. congruence. Qed.

(** A number followed by something else. *)
Lemma show_dec_split x y c r r' : occurs c (n_digits decimal) = false ->
  (show_dec x ++ String c r = show_dec y ++ String c r')%string -> x = y /\ r = r'.
Proof.
  intros Hc H. assert (E : show_dec x = show_dec y).
  { apply (f_equal (span (n_digits decimal))) in H. rewrite !span_app in H by (auto using show_dec_made). exact H. }
  rewrite E in H. apply append_cancel in H. injection H as H. auto using show_dec_inj.
Qed.

(** The message tells which panic it was and with which numbers. *)
Theorem C46_message_determines : forall enum p q, is_user p = false -> is_user q = false ->
  panic_message enum p = panic_message enum q -> p = q.
Proof.
  intros enum p q Up Uq H.
  destruct p, q; try discriminate Up; try discriminate Uq; try reflexivity;
    cbn [panic_message append] in H; try discriminate H.
  - repeat match type of H with String _ _ = String _ _ => injection H as H end.
    apply show_dec_split in H; [|reflexivity]. destruct H as [-> H].
    repeat match type of H with String _ _ = String _ _ => injection H as H end.
    apply show_dec_inj in H. now subst.
  - repeat match type of H with String _ _ = String _ _ => injection H as H end.
    apply show_dec_split in H; [|reflexivity]. destruct H as [-> H].
    repeat match type of H with String _ _ = String _ _ => injection H as H end.
    apply show_dec_split in H; [|reflexivity]. destruct H as [-> _]. reflexivity.
  - repeat match type of H with String _ _ = String _ _ => injection H as H end.
    apply append_cancel in H.
    repeat match type of H with String _ _ = String _ _ => injection H as H end.
    apply show_dec_split in H; [|reflexivity]. destruct H as [-> H].
    repeat match type of H with String _ _ = String _ _ => injection H as H end.
    apply show_dec_split in H; [|reflexivity]. destruct H as [-> _]. reflexivity.
  - exfalso. repeat match type of H with String _ _ = String _ _ => injection H as H end.
    apply append_cancel in H.
    repeat match type of H with String _ _ = String _ _ => injection H as H end.
    apply show_dec_split in H; [|reflexivity]. destruct H as [_ H].
    repeat match type of H with String _ _ = String _ _ => injection H as H end.
    apply show_dec_split in H; [|reflexivity]. destruct H as [_ H].
    repeat match type of H with String _ _ = String _ _ => first [discriminate H|injection H as H] end.
  - exfalso. repeat match type of H with String _ _ = String _ _ => injection H as H end.
    apply append_cancel in H.
    repeat match type of H with String _ _ = String _ _ => injection H as H end.
    apply show_dec_split in H; [|reflexivity]. destruct H as [_ H].
    repeat match type of H with String _ _ = String _ _ => injection H as H end.
    apply show_dec_split in H; [|reflexivity]. destruct H as [_ H].
    repeat match type of H with String _ _ = String _ _ => first [discriminate H|injection H as H] end.
  - repeat match type of H with String _ _ = String _ _ => injection H as H end.
    apply append_cancel in H.
    repeat match type of H with String _ _ = String _ _ => injection H as H end.
    apply show_dec_split in H; [|reflexivity]. destruct H as [-> H].
    repeat match type of H with String _ _ = String _ _ => injection H as H end.
    apply show_dec_split in H; [|reflexivity]. destruct H as [-> _]. reflexivity.
Qed.

(** ** The advice of the address panic *)

Definition debug_target (c : config) : target := Target c true 64.

(** The setting recommended when storing the address [ptr] panics in a debug build configured by
    [env]; [None] when there is no panic. *)
Definition advice (ptr : N) (env : option string) : option string :=
  match selected env with
  | Some c => match tp_new (debug_target c) ptr 0 with
              | Panics p => quoted (panic_message "" p)
              | Done _ => None
              end
  | None => None
  end.

(** The environment after following the advice up to [n] times. *)
Fixpoint follow (ptr : N) (n : nat) (env : option string) : option string :=
  match n with
  | O => env
  | S k => match advice ptr env with Some s => follow ptr k (Some s) | None => env end
  end.

Lemma debug_target_ok env c : selected env = Some c -> target_ok (debug_target c).
Proof. intros H. split; [exact (selected_in_table env c H)|right; reflexivity]. Qed.

Lemma advice_value ptr env c : selected env = Some c ->
  advice ptr env = if ptr <? 2 ^ pointer_width c then None else Some (show_dec (pointer_width c + 1) ++ "bits")%string.
Proof.
  intros H. unfold advice. rewrite H. pose proof (debug_target_ok env c H) as Ht.
  rewrite tp_new_cases. cbn [debug_assertions debug_target cfg].
  pose proof (selected_in_table env c H) as Hin.
  rewrite (proj2 (N.leb_le 0 _)) by lia.
  pose proof (max_ptr_eq (debug_target c) Ht ptr) as M. cbn [cfg debug_target] in M.
  destruct (N.ltb_spec ptr (2 ^ pointer_width c)) as [L|L].
  - rewrite (proj2 (N.leb_le _ _)) by tauto. reflexivity.
  - rewrite (proj2 (N.leb_gt _ _)) by lia. clear M Ht H L. cbn [table In] in Hin.
    repeat match type of Hin with _ \/ _ => destruct Hin as [Hin|Hin] | False => destruct Hin end; subst c; vm_compute; reflexivity.
Qed.

(** The setting named in the message is one bit wider than the present one and can be selected; except
    that at 63 bits it is "64bits", which does not exist and gives the default of 60. *)
Theorem C46_advice : forall env c ptr, selected env = Some c ->
  (advice ptr env = None <-> ptr < 2 ^ pointer_width c) /\
  (forall s, advice ptr env = Some s -> exists c', selected (Some s) = Some c' /\
     pointer_width c' = if pointer_width c =? 63 then 60 else pointer_width c + 1).
Proof.
  intros env c ptr H. rewrite (advice_value ptr env c H). split.
  - destruct (N.ltb_spec ptr (2 ^ pointer_width c)); split; try discriminate; auto; lia.
  - intros s. destruct (N.ltb_spec ptr (2 ^ pointer_width c)) as [L|L]; [discriminate|].
    intros E. injection E as <-. pose proof (selected_in_table env c H) as Hin. clear H L. cbn [table In] in Hin.
    repeat match type of Hin with _ \/ _ => destruct Hin as [Hin|Hin] | False => destruct Hin end; subst c;
      (eexists; split; vm_compute; reflexivity).
Qed.

(** The advice is not what it should be: some machine whose addresses need 64 bits is told to use a
    setting that is narrower than the one it has. *)
Theorem C46_refuted : ~ forall env c ptr s c', selected env = Some c -> advice ptr env = Some s ->
  selected (Some s) = Some c' -> pointer_width c < pointer_width c'.
Proof.
  intros H. specialize (H (Some "63bits"%string) (Config "tagged_box_reserve_63bits" 8 1 63 1) (2 ^ 63)
    "64bits"%string (Config "tagged_box_reserve_60bits" 8 15 60 4)).
  assert (X : 63 < 60) by (apply H; vm_compute; reflexivity). discriminate X.
Qed.

Lemma width_le_63 env c : selected env = Some c -> 48 <= pointer_width c <= 63.
Proof. intros H. destruct (row_facts c (selected_in_table env c H)) as (_&_&A&B&_). lia. Qed.

(** Following it leads to the narrowest sufficient setting (or the first one, if that is sufficient) in
    at most 15 steps, for every address below 2^63. *)
Theorem C46_reaches : forall env c ptr, selected env = Some c -> ptr < 2 ^ 63 ->
  exists c', selected (follow ptr 15 env) = Some c' /\ advice ptr (follow ptr 15 env) = None /\
    ptr < 2 ^ pointer_width c' /\ (pointer_width c' = pointer_width c \/ 2 ^ (pointer_width c' - 1) <= ptr).
Proof.
  intros env c ptr H Hp.
  assert (G : forall n env c, selected env = Some c -> 63 <= pointer_width c + N.of_nat n ->
    exists c', selected (follow ptr n env) = Some c' /\ ptr < 2 ^ pointer_width c' /\
      (pointer_width c' = pointer_width c \/ 2 ^ (pointer_width c' - 1) <= ptr)).
  { clear env c H. induction n as [|n IH]; intros env c H Hn.
    - exists c. split; [exact H|]. split; [|auto]. pose proof (width_le_63 env c H).
      replace (pointer_width c) with 63 by lia. exact Hp.
    - cbn [follow]. destruct (C46_advice env c ptr H) as [A B]. destruct (advice ptr env) as [s|] eqn:EA.
      + destruct (B s eq_refl) as (c1 & S1 & W1).
        assert (L : 2 ^ pointer_width c <= ptr).
        { destruct (N.le_gt_cases (2 ^ pointer_width c) ptr) as [L|L]; [exact L|]. apply A in L. discriminate. }
        destruct (N.eqb_spec (pointer_width c) 63) as [E63|N63]; [rewrite E63 in L; lia|].
        destruct (IH (Some s) c1 S1 ltac:(lia)) as (c' & S' & L' & O'). exists c'. split; [exact S'|]. split; [exact L'|].
        right. destruct O' as [O'|O']; [|exact O']. rewrite O', W1. replace (pointer_width c + 1 - 1) with (pointer_width c) by lia. exact L.
      + exists c. split; [exact H|]. split; [|auto]. now apply A. }
  destruct (G 15%nat env c H) as (c' & S' & L' & O'); [pose proof (width_le_63 env c H); lia|].
  exists c'. split; [exact S'|]. split; [now apply (C46_advice _ c' ptr S')|]. auto.
Qed.

(** For an address of 64 bits it never ends. *)
Theorem C46_never : forall env c ptr n, selected env = Some c -> 2 ^ 63 <= ptr ->
  advice ptr (follow ptr n env) <> None.
Proof.
  intros env c ptr n H Hp. revert env c H.
  assert (N0 : forall env c, selected env = Some c -> advice ptr env <> None).
  { intros env c H E. apply (C46_advice env c ptr H) in E. pose proof (width_le_63 env c H) as [_ W].
    assert (2 ^ pointer_width c <= 2 ^ 63) by (apply N.pow_le_mono_r; [discriminate|exact W]). lia. }
  induction n as [|n IH]; intros env c H; cbn [follow]; [eapply N0; exact H|].
  destruct (advice ptr env) as [s|] eqn:EA; [|destruct (N0 env c H EA)].
  destruct (C46_advice env c ptr H) as [_ B]. destruct (B s EA) as (c' & S' & _). eapply IH, S'.
Qed.

Example C46_example :
  advice (2 ^ 61) None = Some "61bits"%string /\ follow (2 ^ 61) 15 None = Some "62bits"%string /\
  advice (2 ^ 61) (Some "62bits"%string) = None /\
  follow (2 ^ 63) 5 None = Some "61bits"%string /\
  panic_message "Item" (PanicNoVariantRef 7 9) =
    "The number of variants in `Item` is 7, but a variant by the discriminant of 9 was attempted to be referenced"%string.
Proof. vm_compute. auto 6. Qed.

(** ** Instances: each theorem applied to a concrete case that meets its hypotheses *)

(** Two panics about an unknown tag with different numbers; two different panics. *)
Example C46_message_determines_example :
  panic_message "Item" (PanicNoVariantRef 7 9) <> panic_message "Item" (PanicNoVariantRef 7 8) /\
  panic_message "Item" PanicNullAlloc <> panic_message "Item" PanicNoVariantInto.
Proof. split; intros H; apply C46_message_determines in H; try reflexivity; discriminate H. Qed.

Example C46_advice_example : advice (2 ^ 61) None <> None /\ selected None = Some cfg60 /\
  exists c', selected (Some "61bits"%string) = Some c' /\ pointer_width c' = 61.
Proof.
  destruct (C46_advice None cfg60 (2 ^ 61) eq_refl) as [A B]. split; [|split; [reflexivity|]].
  - intros H. apply A in H. vm_compute in H. discriminate H.
  - destruct (B "61bits"%string) as (c' & C & D); [vm_compute; reflexivity|]. exists c'. split; [exact C|exact D].
Qed.

Example C46_reaches_example : exists c', selected (follow (2 ^ 61) 15 (Some "48bits"%string)) = Some c' /\ pointer_width c' = 62.
Proof.
  destruct (C46_reaches (Some "48bits"%string) cfg48 (2 ^ 61) eq_refl) as (c' & A & _ & B & C); [reflexivity|]. exists c'. split; [exact A|].
  destruct C as [C|C]; [rewrite C in B; vm_compute in B; discriminate B|].
  apply N.pow_lt_mono_r_iff in B; [|reflexivity]. apply N.pow_le_mono_r_iff in C; [|reflexivity]. lia.
Qed.

Example C46_never_example : forall n, advice (2 ^ 63 + 8) (follow (2 ^ 63 + 8) n None) <> None.
Proof. intros n. apply (C46_never None cfg60); [reflexivity|vm_compute; discriminate]. Qed.

Print Assumptions C46_message_determines.
Print Assumptions C46_advice.
Print Assumptions C46_refuted.
Print Assumptions C46_reaches.
Print Assumptions C46_never.
