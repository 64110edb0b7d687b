(** What [{:?}] and [{:#?}] of a container print: C52. *)
From Coq Require Import Arith NArith String Ascii Bool List Lia.
From Verif Require Import Words Config Spec Pointer Fmt Mem Box SpecMem MemFacts Macro SpecMacro MacroFacts Containers Bump Props_Pointer Props_Macro.
Import ListNotations.
Local Open Scope N_scope.
Local Open Scope string_scope.

(** ** Spec *)

(** The lines of a text. *)
Fixpoint lines (s : string) : list string :=
  match s with
  | EmptyString => [EmptyString]
  | String c r =>
      match lines r with
      | l :: ls => if Ascii.eqb c newline then EmptyString :: l :: ls else String c l :: ls
      | [] => []
      end
  end.

Definition unlines (l : list string) : string := String.concat (String newline EmptyString) l.

(** A struct named [name] whose only field [value] shows itself as [text]: on one line, or with the
    field on lines of its own, four columns to the right. *)
Definition shown (pretty : bool) (name text : string) : string :=
  if pretty then unlines ((name ++ " {")%string :: map (append "    ") (lines ("value: " ++ text ++ ",")) ++ ["}"])%list
  else name ++ " { value: " ++ text ++ " }".

(** What has been written of it when the field reports an error after writing [text]: a line not yet
    begun is not moved to the right. *)
Fixpoint moved (l : list string) : list string :=
  match l with [] => [] | [EmptyString] => [EmptyString] | h :: r => ("    " ++ h)%string :: moved r end.

Definition begun (pretty : bool) (name text : string) : string :=
  if pretty then unlines ((name ++ " {")%string :: moved (lines ("value: " ++ text)))
  else name ++ " { value: " ++ text.

(** ** Facts about strings *)

Lemma app_assoc_s a b c : (a ++ b) ++ c = a ++ (b ++ c).
Proof. induction a as [|h a IH]; cbn; [reflexivity|now rewrite IH]. Qed.

Lemma app_nil_s a : a ++ "" = a.
Proof. induction a as [|h a IH]; cbn; [reflexivity|now rewrite IH]. Qed.

Lemma app_length_s a b : String.length (a ++ b) = (String.length a + String.length b)%nat.
Proof. induction a as [|h a IH]; cbn; [reflexivity|now rewrite IH]. Qed.

Lemma app_inj_l p a b : p ++ a = p ++ b -> a = b.
Proof. induction p as [|h p IH]; cbn; [auto|]. intros H. injection H as H. auto. Qed.

Lemma app_inj_r a b p : a ++ p = b ++ p -> a = b.
Proof.
  revert b. induction a as [|h a IH]; intros [|k b]; cbn; intros H; [reflexivity| | |].
  - exfalso. apply (f_equal String.length) in H. cbn in H. rewrite app_length_s in H. lia.
  - exfalso. apply (f_equal String.length) in H. cbn in H. rewrite app_length_s in H. lia.
  - injection H as -> H. f_equal. auto.
Qed.

Lemma lines_some s : exists l ls, lines s = l :: ls.
Proof.
  induction s as [|c s (l & ls & IH)]; cbn [lines]; [eauto|]. rewrite IH. destruct (Ascii.eqb c newline); eauto.
Qed.

Lemma unlines_cons l m ls : unlines (l :: m :: ls) = l ++ String newline (unlines (m :: ls)).
Proof. reflexivity. Qed.

Lemma unlines_app p l ls : unlines ((p ++ l) :: ls) = p ++ unlines (l :: ls).
Proof. destruct ls as [|m ls]; [reflexivity|]. rewrite !unlines_cons. apply app_assoc_s. Qed.

Lemma unlines_last l x : l <> [] -> unlines (l ++ [x])%list = unlines l ++ String newline x.
Proof.
  induction l as [|h l IH]; intros H; [contradiction|]. destruct l as [|k l]; [reflexivity|].
  cbn [app] in *. rewrite !unlines_cons, IH by discriminate. rewrite app_assoc_s. reflexivity.
Qed.

(** The adapter puts four spaces before every line. *)
Lemma indent_lines s : forall b, exists l ls, lines (s ++ ",") = l :: ls /\
  indent b (s ++ "," ++ String newline "") =
    (if b then "    " else "") ++ unlines (l :: map (append "    ") ls) ++ String newline "".
Proof.
  induction s as [|c s IH]; intros b.
  - exists ",", []. split; [reflexivity|]. destruct b; reflexivity.
  - destruct (IH (Ascii.eqb c newline)) as (l & ls & H1 & H2).
    change (String c s ++ ?t) with (String c (s ++ t)). cbn [lines indent]. rewrite H1, H2. destruct (Ascii.eqb c newline) eqn:Ec.
    + apply Ascii.eqb_eq in Ec. subst c. exists "", (l :: ls). split; [reflexivity|].
      f_equal. cbn [map]. rewrite unlines_cons, unlines_app.
      change ("" ++ ?t) with t. change (String newline ?t ++ ?u) with (String newline (t ++ u)).
      rewrite app_assoc_s. reflexivity.
    + exists (String c l), ls. split; [reflexivity|]. f_equal.
      change (String c l) with (String c "" ++ l). rewrite unlines_app. reflexivity.
Qed.

Lemma indent_inj s : forall b t, indent b s = indent b t -> s = t.
Proof.
  induction s as [|c s IH]; intros b [|d t]; cbn [indent]; intros H; [reflexivity| | |].
  - destruct b; discriminate.
  - destruct b; discriminate.
  - apply app_inj_l in H. injection H as <- H. f_equal. eapply IH. exact H.
Qed.

Lemma moved_cons l m ls : moved (l :: m :: ls) = ("    " ++ l) :: moved (m :: ls).
Proof. destruct l; reflexivity. Qed.

Lemma indent_moved s : exists l ls, lines s = l :: ls /\ indent true s = unlines (moved (l :: ls)) /\
  indent false s = unlines (l :: moved ls).
Proof.
  induction s as [|c s (l & ls & H1 & H2 & H3)]; [exists "", []; repeat split|].
  cbn [lines indent]. rewrite H1. destruct (Ascii.eqb c newline) eqn:Ec.
  - apply Ascii.eqb_eq in Ec. subst c. exists "", (l :: ls). split; [reflexivity|]. rewrite H2, moved_cons. split.
    + destruct (moved (l :: ls)) as [|m ms] eqn:Em; [destruct l, ls; discriminate|]. rewrite unlines_cons. reflexivity.
    + destruct (moved (l :: ls)) as [|m ms] eqn:Em; [destruct l, ls; discriminate|]. rewrite unlines_cons. reflexivity.
  - exists (String c l), ls. split; [reflexivity|]. rewrite H3.
    assert (Q : unlines (String c l :: moved ls) = String c (unlines (l :: moved ls)))
      by apply (unlines_app (String c "")).
    split; [|symmetry; exact Q].
    replace (moved (String c l :: ls)) with (("    " ++ String c l) :: moved ls) by (destruct ls; reflexivity).
    rewrite unlines_app, Q. reflexivity.
Qed.

(** The derived impl prints that. *)
Lemma derived_shown o name text : derived_debug o name "value" (text, true) = (shown (f_alternate o) name text, true).
Proof.
  unfold derived_debug, debug_struct, shown. cbn [fst snd map fold_right String.concat]. f_equal.
  destruct (f_alternate o); [|rewrite app_assoc_s; reflexivity].
  destruct (indent_lines ("value: " ++ text) true) as (l & ls & H1 & H2).
  rewrite app_assoc_s in H1, H2. change ("value" ++ ": " ++ ?t) with ("value: " ++ t).
  rewrite H2, H1. change (unlines (?a :: map (append "    ") (l :: ls) ++ ["}"])) with
    (a ++ String newline (unlines (map (append "    ") (l :: ls) ++ ["}"]))).
  rewrite unlines_last by discriminate. cbn [map]. rewrite unlines_app, !app_assoc_s. reflexivity.
Qed.

Lemma derived_begun o name text : derived_debug o name "value" (text, false) = (begun (f_alternate o) name text, false).
Proof.
  unfold derived_debug, begun. cbn [fst snd]. f_equal.
  destruct (f_alternate o); [|reflexivity].
  destruct (indent_moved ("value: " ++ text)) as (l & ls & H1 & H2 & _).
  change ("value" ++ ": " ++ text) with ("value: " ++ text). rewrite H2, H1.
  destruct (moved (l :: ls)) as [|m ms] eqn:Em; [destruct l, ls; discriminate|]. rewrite unlines_cons.
  rewrite app_assoc_s. reflexivity.
Qed.

Lemma shown_inj b name t t' : shown b name t = shown b name t' -> t = t'.
Proof.
  destruct b; intros H.
  - pose (o := FmtOpts " " None false true false None None None).
    assert (D : fst (derived_debug o name "value" (t, true)) = fst (derived_debug o name "value" (t', true)))
      by (rewrite !derived_shown; exact H).
    unfold derived_debug, debug_struct in D. cbn [o f_alternate fst snd fold_right] in D.
    apply app_inj_l in D. apply app_inj_l in D. injection D as D. apply app_inj_r in D.
    apply indent_inj in D. repeat apply app_inj_l in D. eapply app_inj_r. exact D.
  - unfold shown in H. do 2 apply app_inj_l in H. eapply app_inj_r. exact H.
Qed.

(** ** C52 *)

(** A container made from [v], printed any time later with any options after [out]. [text] is what
    the enum's own Debug writes for [v] under [{:?}], whatever the options of the container's. *)
Theorem C52_shown E def x v s w s1 s2 I o out text s3 : macro_setup E def x -> evalue_fits E def v -> no_own_drop def v ->
  container_from E x v s = Ok w s1 -> keeps s1 s2 ->
  i_debug I default_opts v "" s2 = Ok (text, true) s3 ->
  container_debug E x I o w out s2 = Ok (out ++ shown (f_alternate o) (e_container def) text, true) s3.
Proof.
  intros Hs Hv Q R K D. unfold container_debug, bind.
  rewrite (C25_debug E def x v s w s1) by assumption. rewrite D.
  rewrite (xp_container _ _ (expand_inv _ _ (ms_expand _ _ _ Hs))), derived_shown. reflexivity.
Qed.

Theorem C52_error E def x v s w s1 s2 I o out text s3 : macro_setup E def x -> evalue_fits E def v -> no_own_drop def v ->
  container_from E x v s = Ok w s1 -> keeps s1 s2 ->
  i_debug I default_opts v "" s2 = Ok (text, false) s3 ->
  container_debug E x I o w out s2 = Ok (out ++ begun (f_alternate o) (e_container def) text, false) s3.
Proof.
  intros Hs Hv Q R K D. unfold container_debug, bind.
  rewrite (C25_debug E def x v s w s1) by assumption. rewrite D.
  rewrite (xp_container _ _ (expand_inv _ _ (ms_expand _ _ _ Hs))), derived_begun. reflexivity.
Qed.

(** A panic of the enum's Debug passes through. *)
Theorem C52_panic E def x v s w s1 s2 I o out p s3 : macro_setup E def x -> evalue_fits E def v -> no_own_drop def v ->
  container_from E x v s = Ok w s1 -> keeps s1 s2 ->
  i_debug I default_opts v "" s2 = Panicked p s3 -> container_debug E x I o w out s2 = Panicked p s3.
Proof.
  intros Hs Hv Q R K D. unfold container_debug, bind.
  rewrite (C25_debug E def x v s w s1) by assumption. rewrite D. reflexivity.
Qed.

(** Two containers of one type print the same, in either mode, only if their values do. *)
Theorem C52_faithful E def x v v' s s' w w' s1 s1' s2 s2' I o out text text' s3 s3' t t' :
  macro_setup E def x -> evalue_fits E def v -> no_own_drop def v -> evalue_fits E def v' -> no_own_drop def v' ->
  container_from E x v s = Ok w s1 -> keeps s1 s2 -> container_from E x v' s' = Ok w' s1' -> keeps s1' s2' ->
  i_debug I default_opts v "" s2 = Ok (text, true) s3 -> i_debug I default_opts v' "" s2' = Ok (text', true) s3' ->
  container_debug E x I o w out s2 = Ok t s3 -> container_debug E x I o w' out s2' = Ok t' s3' ->
  t = t' <-> text = text'.
Proof.
  intros Hs Hv Q Hv' Q' R K R' K' D D' C C'.
  rewrite (C52_shown E def x v s w s1 s2 I o out text s3) in C by assumption.
  rewrite (C52_shown E def x v' s' w' s1' s2' I o out text' s3') in C' by assumption.
  injection C as <-. injection C' as <-. split; [|congruence]. intros H. injection H as H.
  apply app_inj_l in H. eapply shown_inj. exact H.
Qed.

(** A user's Debug of two lines, with a field of its own under [{:#?}]. *)
Definition two_lines : fmt_impl (V := evalue) := fun o v out =>
  ret ((out ++ ev_variant v ++ String newline (if f_alternate o then "(pretty)" else "(plain)"))%string, true).
Definition failing : fmt_impl (V := evalue) := fun o v out => ret ((out ++ "oops" ++ String newline "")%string, false).

Definition with_debug (d : fmt_impl (V := evalue)) : impls :=
  Impls ret (fun _ _ => ret true) (fun _ _ => ret None) (fun _ _ => ret Eq) d d.

Definition print (d : fmt_impl (V := evalue)) (o : fmt_opts) : option (string * bool) :=
  result (bind (container_from (bump_env dbg60) item_x v_text) (fun w =>
    container_debug (bump_env dbg60) item_x (with_debug d) o w "> ") st0).

Definition nl : string := String newline "".

Example C52_example : macro_setup (bump_env dbg60) item item_x /\ evalue_fits (bump_env dbg60) item v_text /\ no_own_drop item v_text /\
  e_container item = "Container" /\
  print two_lines default_opts = Some ("> Container { value: Text" ++ nl ++ "(plain) }", true) /\
  print two_lines pretty_opts = Some ("> Container {" ++ nl ++ "    value: Text" ++ nl ++ "    (plain)," ++ nl ++ "}", true) /\
  print failing default_opts = Some ("> Container { value: oops" ++ nl, false) /\
  print failing pretty_opts = Some ("> Container {" ++ nl ++ "    value: oops" ++ nl, false).
Proof.
  split; [apply item_setup|]. split; [apply (proj1 (Forall_forall _ _) item_values_fit); cbn; tauto|]. split; [left; reflexivity|]. repeat split; vm_compute; reflexivity.
Qed.

(** ** Instances: each theorem applied to a concrete case that meets its hypotheses *)

Example C52_shown_example : exists w s, container_from (bump_env dbg60) item_x v_text st0 = Ok w s /\
  container_debug (bump_env dbg60) item_x (with_debug two_lines) pretty_opts w "> " s
    = Ok ("> Container {" ++ nl ++ "    value: Text" ++ nl ++ "    (plain)," ++ nl ++ "}", true) s.
Proof.
  destruct two_boxes as (w & s & _ & _ & H & _), C52_example as (S & V & D & _). exists w, s. split; [exact H|].
  exact (C52_shown _ _ _ _ _ _ _ s (with_debug two_lines) pretty_opts "> " _ s S V D H (keeps_refl s) eq_refl).
Qed.

Example C52_error_example : exists w s, container_from (bump_env dbg60) item_x v_text st0 = Ok w s /\
  container_debug (bump_env dbg60) item_x (with_debug failing) pretty_opts w "> " s
    = Ok ("> Container {" ++ nl ++ "    value: oops" ++ nl, false) s.
Proof.
  destruct two_boxes as (w & s & _ & _ & H & _), C52_example as (S & V & D & _). exists w, s. split; [exact H|].
  exact (C52_error _ _ _ _ _ _ _ s (with_debug failing) pretty_opts "> " _ s S V D H (keeps_refl s) eq_refl).
Qed.

Example C52_panic_example : exists w s, container_from (bump_env dbg60) item_x v_text st0 = Ok w s /\
  container_debug (bump_env dbg60) item_x (with_debug (fun _ _ _ => raise (PanicUser "x"))) pretty_opts w "> " s = Panicked (PanicUser "x") s.
Proof.
  destruct two_boxes as (w & s & _ & _ & H & _), C52_example as (S & V & D & _). exists w, s. split; [exact H|].
  exact (C52_panic _ _ _ _ _ _ _ s (with_debug (fun _ _ _ => raise (PanicUser "x"))) pretty_opts "> " _ s S V D H (keeps_refl s) eq_refl).
Qed.

(** A text and an integer print differently. *)
Example C52_faithful_example : exists wa sa wb sb t t', container_from (bump_env dbg60) item_x v_text st0 = Ok wa sa /\
  container_from (bump_env dbg60) item_x v_integer sa = Ok wb sb /\
  container_debug (bump_env dbg60) item_x (with_debug two_lines) pretty_opts wa "" sb = Ok t sb /\
  container_debug (bump_env dbg60) item_x (with_debug two_lines) pretty_opts wb "" sb = Ok t' sb /\ t <> t'.
Proof.
  destruct two_boxes as (wa & sa & wb & sb & Ha & Hb & K), C52_example as (S & V & D & _).
  assert (D' : no_own_drop item v_integer) by (left; reflexivity).
  pose proof (C52_shown _ _ _ _ _ _ _ sb (with_debug two_lines) pretty_opts "" _ sb S V D Ha K eq_refl) as A.
  pose proof (C52_shown _ _ _ _ _ _ _ sb (with_debug two_lines) pretty_opts "" _ sb S integer_fits D' Hb (keeps_refl sb) eq_refl) as B.
  do 6 eexists. split; [exact Ha|]. split; [exact Hb|]. split; [exact A|]. split; [exact B|].
  intros E. apply (C52_faithful _ _ _ _ _ _ _ _ _ _ _ _ _ (with_debug two_lines) pretty_opts "" _ _ sb sb _ _ S V D integer_fits D' Ha K Hb
    (keeps_refl sb) eq_refl eq_refl A B) in E. discriminate E.
Qed.

Print Assumptions C52_shown.
Print Assumptions C52_error.
Print Assumptions C52_panic.
Print Assumptions C52_faithful.
