(** Texts, character by character: more of properties C10 and C46. *)
From Coq Require Import Arith NArith List String Ascii Bool Lia.
From Verif Require Import Words Config Spec ConfigFacts Pointer PointerFacts Fmt SpecFmt FmtFacts Mem Box Messages Props_Pointer Props_Messages SpecMessageText.
Import ListNotations.
Local Open Scope N_scope.

Lemma times_repeat k c : times k c = repeat_char k c.
Proof. induction k as [|k IH]; [reflexivity|]. cbn. rewrite IH. reflexivity. Qed.

Lemma made_of_occurs cs s : made_of cs s -> forall c, occurs c s = true -> occurs c cs = true.
Proof.
  induction s as [|a s IH]; [discriminate|]. intros [H1 H2] c H. cbn [occurs] in H. apply orb_true_iff in H as [H|H]; [|auto].
  apply Ascii.eqb_eq in H. subst. exact H1.
Qed.

Lemma digits_first b : 2 <= b -> forall fuel x acc, x <> 0 -> x < 2 ^ N.of_nat fuel -> exists d r, digits_loop fuel b x acc = d :: r /\ d <> 0.
Proof.
  intros Hb. induction fuel as [|f IH]; intros x acc Hx Hf; [cbn in Hf; lia|]. cbn [digits_loop].
  assert (Hb0 : b <> 0) by lia. pose proof (N.div_mod x b Hb0) as Hdm. destruct (N.eqb_spec (x / b) 0) as [E|E].
  - eexists _, _. split; [reflexivity|]. rewrite E in Hdm. lia.
  - apply IH; [exact E|]. rewrite Nat2N.inj_succ, N.pow_succ_r' in Hf. apply N.div_lt_upper_bound; [exact Hb0|].
    assert (2 * 2 ^ N.of_nat f <= b * 2 ^ N.of_nat f) by (apply N.mul_le_mono_r; exact Hb). lia.
Qed.

Lemma zero_char k d : d < 16 -> digit_char k d = "0"%char -> d = 0.
Proof. intros H E. pose proof (read_digit_char k d H) as R. rewrite E in R. injection R as R. symmetry. exact R. Qed.

Lemma numeral_plain n k x : writes n k -> plain_numeral n x (numeral n k x).
Proof.
  intros W. split; [|split].
  - apply made_of_occurs, numeral_made, W.
  - rewrite read_numeral_of by apply numeral_nonempty. apply numeral_reads, W.
  - intros r E. destruct W as (B1 & B2 & _). unfold numeral, digits in E. destruct (N.eq_dec x 0) as [->|Hx].
    + cbn [N.log2 N.to_nat digits_loop] in E. rewrite N.div_0_l, N.mod_0_l in E by lia. cbn in E. injection E; intros; subst; reflexivity.
    + destruct (digits_first (n_base n) B1 (S (N.to_nat (N.log2 x))) x [] Hx) as (d & l & D & Hd).
      { rewrite Nat2N.inj_succ, N2Nat.id. apply N.log2_spec. lia. }
      pose proof (digits_loop_bound (n_base n) ltac:(lia) (S (N.to_nat (N.log2 x))) x [] (Forall_nil _)) as F.
      rewrite D in E, F. cbn [string_of_digits] in E. injection E as E _. apply zero_char in E; [contradiction|]. inversion F; subst. lia.
Qed.

Lemma length_app a b : String.length (a ++ b)%string = (String.length a + String.length b)%nat.
Proof. apply length_append. Qed.
Lemma length_times k c : String.length (times k c) = k.
Proof. induction k as [|k IH]; [reflexivity|]. cbn. rewrite IH. reflexivity. Qed.

Lemma shown_laid_out n k o x : writes n k -> laid_out n o x (shown n k o x).
Proof.
  intros W. unfold shown, pad_integral. set (num := numeral n k x).
  set (sg := (if f_sign_plus o then "+" else "")%string). set (pre := (if f_alternate o then n_prefix n else "")%string).
  assert (G : forall b z a s, s = (times b (f_fill o) ++ (sg ++ pre ++ times z "0" ++ num) ++ times a (f_fill o))%string ->
    (b + String.length sg + String.length pre + z + String.length num + a
      = Nat.max (match f_width o with Some w => w | None => 0 end) (String.length sg + String.length pre + String.length num))%nat ->
    (if f_zero_pad o then b = 0%nat /\ a = 0%nat
     else z = 0%nat /\
          match f_align o with
          | Some ALeft => b = 0%nat
          | Some ACenter => (b <= a <= S b)%nat
          | Some ARight | None => a = 0%nat
          end) -> laid_out n o x s).
  { intros b z a s Hs Hl Hp. exists num, b, z, a. split; [apply numeral_plain, W|]. cbv zeta. fold sg pre. split; [exact Hs|]. split; [|exact Hp].
    rewrite Hs, !length_app, !length_times. lia. }
  assert (Z : (sg ++ pre ++ num)%string = (times 0 (f_fill o) ++ (sg ++ pre ++ times 0 "0" ++ num) ++ times 0 (f_fill o))%string)
    by (cbn [times append]; rewrite append_nil; reflexivity).
  assert (P0 : if f_zero_pad o then 0%nat = 0%nat /\ 0%nat = 0%nat
     else 0%nat = 0%nat /\ match f_align o with Some ALeft => 0%nat = 0%nat | Some ACenter => (0 <= 0 <= 1)%nat | Some ARight | None => 0%nat = 0%nat end)
    by (destruct (f_zero_pad o); [auto|]; split; [reflexivity|]; destruct (f_align o) as [[]|]; auto).
  destruct (f_width o) as [w|] eqn:EW.
  2:{ apply (G 0%nat 0%nat 0%nat _ Z); [lia|exact P0]. }
  destruct (Nat.leb_spec w (String.length num + String.length sg + String.length pre)) as [Hw|Hw].
  { apply (G 0%nat 0%nat 0%nat _ Z); [lia|exact P0]. }
  destruct (f_zero_pad o) eqn:EZ.
  { apply (G 0%nat (w - (String.length num + String.length sg + String.length pre))%nat 0%nat); [|lia|auto].
    rewrite <- times_repeat. cbn [times append]. rewrite append_nil. reflexivity. }
  set (m := (w - (String.length num + String.length sg + String.length pre))%nat) in *.
  destruct (padding (f_align o) m) as [a c] eqn:EP.
  assert (T : (repeat_char a (f_fill o) ++ sg ++ pre ++ num ++ repeat_char c (f_fill o))%string
            = (times a (f_fill o) ++ (sg ++ pre ++ times 0 "0" ++ num) ++ times c (f_fill o))%string).
  { rewrite <- !times_repeat. cbn [times append]. rewrite !append_assoc. reflexivity. }
  assert (Hac : (a + c = m)%nat /\ match f_align o with
          | Some ALeft => a = 0%nat
          | Some ACenter => (a <= c <= S a)%nat
          | Some ARight | None => c = 0%nat
          end).
  { clearbody m. clear - EP. unfold padding in EP. destruct (f_align o) as [[]|];
      try (apply pair_equal_spec in EP as [<- <-]; split; lia). apply pair_equal_spec in EP as [<- <-].
    pose proof (Nat.div_mod m 2 ltac:(discriminate)). pose proof (Nat.mod_upper_bound m 2 ltac:(discriminate)).
    pose proof (Nat.div_mod (m + 1) 2 ltac:(discriminate)). pose proof (Nat.mod_upper_bound (m + 1) 2 ltac:(discriminate)). split; lia. }
  apply (G a 0%nat c _ T); [lia|]. split; [reflexivity|apply Hac].
Qed.

(** There is one numeral of each number, and one text. *)

Lemma read_number_range b : 0 < b -> forall s acc x, read_number b acc s = Some x ->
  acc * b ^ N.of_nat (String.length s) <= x < (acc + 1) * b ^ N.of_nat (String.length s).
Proof.
  intros Hb. induction s as [|c s IH]; intros acc x H; cbn [read_number String.length] in *.
  - injection H as <-. cbn [N.of_nat]. rewrite N.pow_0_r. lia.
  - destruct (read_digit c) as [d|]; [|discriminate H]. destruct (N.ltb_spec d b); [|discriminate H]. apply IH in H.
    rewrite Nat2N.inj_succ, N.pow_succ_r'. set (B := b ^ N.of_nat (String.length s)) in *. nia.
Qed.

Lemma read_number_same b (good : ascii -> Prop) : (forall c c' d, good c -> good c' -> read_digit c = Some d -> read_digit c' = Some d -> c = c') ->
  forall s s' acc acc' x, (forall c, occurs c s = true -> good c) -> (forall c, occurs c s' = true -> good c) ->
  String.length s = String.length s' -> read_number b acc s = Some x -> read_number b acc' s' = Some x -> acc = acc' /\ s = s'.
Proof.
  intros Hg. induction s as [|c s IH]; intros [|c' s'] acc acc' x G G' L R R'; try discriminate L; cbn [read_number] in R, R'.
  - split; [congruence|reflexivity].
  - destruct (read_digit c) as [d|] eqn:D; [|discriminate R]. destruct (N.ltb_spec d b) as [Hd|]; [|discriminate R].
    destruct (read_digit c') as [d'|] eqn:D'; [|discriminate R']. destruct (N.ltb_spec d' b) as [Hd'|]; [|discriminate R'].
    injection L as L. destruct (IH s' (acc * b + d) (acc' * b + d') x) as [E ->]; try assumption.
    { intros a Ha. apply G. cbn [occurs]. rewrite Ha. apply orb_true_r. }
    { intros a Ha. apply G'. cbn [occurs]. rewrite Ha. apply orb_true_r. }
    assert (acc = acc' /\ d = d') as [-> ->] by (apply (N.div_mod_unique b); lia). split; [reflexivity|]. f_equal.
    apply (Hg c c' d'); [apply G|apply G'|assumption|assumption]; cbn [occurs]; rewrite Ascii.eqb_refl; reflexivity.
Qed.

Lemma plain_unique n k x s s' : writes n k -> plain_numeral n x s -> plain_numeral n x s' -> s = s'.
Proof.
  intros (B1 & B2 & _ & W & _) (M & R & Z) (M' & R' & Z').
  assert (G : forall c c' d, occurs c (n_digits n) = true -> occurs c' (n_digits n) = true -> read_digit c = Some d -> read_digit c' = Some d -> c = c').
  { intros c c' d Hc Hc' D D'. destruct (W c Hc) as (e & He & ->). destruct (W c' Hc') as (e' & He' & ->).
    rewrite read_digit_char in D, D' by lia. congruence. }
  assert (Q : forall s, plain_numeral n x s -> x <> 0 -> n_base n ^ N.of_nat (String.length s - 1) <= x < n_base n ^ N.of_nat (String.length s)).
  { clear - B1. intros s (M & R & Z) Hx. destruct s as [|c r]; [discriminate R|]. cbn [read_numeral] in R.
    assert (B0 : 0 < n_base n) by lia. pose proof (read_number_range (n_base n) B0 _ _ _ R) as [_ U]. rewrite N.add_0_l, N.mul_1_l in U. split; [|exact U].
    cbn [read_number] in R. destruct (read_digit c) as [d|] eqn:D; [|discriminate R]. destruct (N.ltb_spec d (n_base n)); [|discriminate R].
    apply read_number_range in R; [|exact B0]. cbn [String.length]. rewrite Nat.sub_succ, Nat.sub_0_r.
    destruct (N.eq_dec d 0) as [->|Hd]; [|set (B := n_base n ^ N.of_nat (String.length r)) in *; nia].
    assert (C : c = "0"%char).
    { clear - D. unfold read_digit in D. set (m := N_of_ascii c) in *. assert (m = 48).
      { destruct (N.leb_spec 48 m), (N.leb_spec m 57); cbn [andb] in D; try (injection D as D; lia);
          (destruct (N.leb_spec 65 m), (N.leb_spec m 70); cbn [andb] in D; try (injection D as D; lia);
             (destruct (N.leb_spec 97 m), (N.leb_spec m 102); cbn [andb] in D; try (injection D as D; lia); try discriminate D)). }
      rewrite <- (ascii_N_embedding c). fold m. rewrite H. reflexivity. }
    subst c. rewrite (Z r eq_refl) in R. cbn in R. lia. }
  assert (L : String.length s = String.length s').
  { destruct (N.eq_dec x 0) as [->|Hx].
    - assert (A : forall s, plain_numeral n 0 s -> String.length s = 1%nat).
      { clear - B1. intros s (M & R & Z). destruct s as [|c r]; [discriminate R|]. cbn [read_numeral read_number] in R.
        destruct (read_digit c) as [d|] eqn:D; [|discriminate R]. destruct (N.ltb_spec d (n_base n)); [|discriminate R].
        apply read_number_range in R; [|lia].
        assert (P : 0 < n_base n ^ N.of_nat (String.length r)) by (apply N.neq_0_lt_0, N.pow_nonzero; lia).
        assert (d = 0) by nia. subst d.
        assert (C : c = "0"%char).
        { clear - D. unfold read_digit in D. set (m := N_of_ascii c) in *. assert (m = 48).
          { destruct (N.leb_spec 48 m), (N.leb_spec m 57); cbn [andb] in D; try (injection D as D; lia);
              (destruct (N.leb_spec 65 m), (N.leb_spec m 70); cbn [andb] in D; try (injection D as D; lia);
                 (destruct (N.leb_spec 97 m), (N.leb_spec m 102); cbn [andb] in D; try (injection D as D; lia); try discriminate D)). }
          rewrite <- (ascii_N_embedding c). fold m. rewrite H. reflexivity. }
        subst c. rewrite (Z r eq_refl). reflexivity. }
      rewrite !A by (repeat split; assumption). reflexivity.
    - pose proof (Q s (conj M (conj R Z)) Hx) as [Q1 Q2]. pose proof (Q s' (conj M' (conj R' Z')) Hx) as [Q3 Q4].
      assert (S0 : s <> EmptyString) by (intros ->; discriminate R). assert (S1 : s' <> EmptyString) by (intros ->; discriminate R').
      assert (L0 : (0 < String.length s)%nat) by (destruct s; [contradiction|cbn; lia]).
      assert (L1 : (0 < String.length s')%nat) by (destruct s'; [contradiction|cbn; lia]).
      assert (X1 : N.of_nat (String.length s - 1) < N.of_nat (String.length s')) by (apply (N.pow_lt_mono_r_iff (n_base n)); lia).
      assert (X2 : N.of_nat (String.length s' - 1) < N.of_nat (String.length s)) by (apply (N.pow_lt_mono_r_iff (n_base n)); lia).
      lia. }
  assert (S0 : s <> EmptyString) by (intros ->; discriminate R). assert (S1 : s' <> EmptyString) by (intros ->; discriminate R').
  rewrite read_numeral_of in R by exact S0. rewrite read_numeral_of in R' by exact S1.
  exact (proj2 (read_number_same (n_base n) (fun c => occurs c (n_digits n) = true) G s s' 0 0 x M M' L R R')).
Qed.

Lemma laid_out_unique n k o x s s' : writes n k -> laid_out n o x s -> laid_out n o x s' -> s = s'.
Proof.
  intros W (u & b & z & a & P & S & L & K) (u' & b' & z' & a' & P' & S' & L' & K').
  assert (u' = u) by (eapply plain_unique; eassumption). subst u'.
  rewrite S in L. rewrite S' in L'. rewrite !length_app, !length_times in L, L'.
  assert (b = b' /\ z = z' /\ a = a') as (-> & -> & ->); [|congruence].
  destruct (f_zero_pad o).
  - destruct K as [-> ->], K' as [-> ->]. split; [reflexivity|]. split; [lia|reflexivity].
  - destruct K as [-> K], K' as [-> K']. destruct (f_align o) as [[]|]; repeat split; lia.
Qed.

(** ** C10: the whole text *)

(** [{:x}], [{:X}], [{:b}], [{:o}] of a pointer or box, with any options: the address in that notation, laid out as [std::fmt] documents it,
    which leaves no choice. *)
Theorem C10_layout : forall t k o p s, target_ok t ->
  (tp_fmt t k o p = s <-> laid_out (radix_notation k) o (p mod 2 ^ pointer_width (cfg t)) s).
Proof.
  intros t k o p s Ht.
  assert (H : laid_out (radix_notation k) o (p mod 2 ^ pointer_width (cfg t)) (tp_fmt t k o p)).
  { unfold tp_fmt, tp_as_u64. rewrite strip_eq, fmt_u64_shown by exact Ht. apply shown_laid_out, radix_writes. }
  split; [intros <-; exact H|]. intros H'. eapply laid_out_unique; [apply radix_writes|exact H|exact H'].
Qed.

Theorem C10_box_layout : forall E k o w s, target_ok (tgt E) ->
  (tb_fmt E k o w = s <-> laid_out (radix_notation k) o (w mod 2 ^ pointer_width (cfg (tgt E))) s).
Proof. intros E k o w s Ht. exact (C10_layout (tgt E) k o w s Ht). Qed.

(** ** C11: the whole text *)

(** [{:?}] and [{:p}] with any options: the labels, the word and the address as pointers, the discriminant as an integer. *)
Theorem C11_layout : forall t o p, target_ok t -> fits 64 p ->
  let hex := laid_out (radix_notation LowerHex) (pointer_opts (ptr_bits t) o) in
  let address := (p mod 2 ^ pointer_width (cfg t)) mod 2 ^ ptr_bits t in
  (one_line o -> exists raw ptr disc, tp_fmt_debug t o p = debug_text o raw ptr disc /\
     hex (p mod 2 ^ ptr_bits t) raw /\ hex address ptr /\ laid_out (debug_notation o) o (p / 2 ^ pointer_width (cfg t)) disc) /\
  hex address (tp_fmt_pointer t o p).
Proof.
  intros t o p Ht Fp hex address. unfold hex, address. rewrite <- (strip_eq t Ht), <- (fetch_eq t Ht p Fp).
  assert (B : ptr_bits t = 64 \/ ptr_bits t = 32) by (destruct Ht as [_ [Q|Q]]; auto). split.
  - intros O. do 3 eexists. split; [apply tp_fmt_debug_text; assumption|]. rewrite !fmt_ptr_shown, fmt_int_debug_shown by exact B.
    split; [apply shown_laid_out, radix_writes|]. split; [apply shown_laid_out, radix_writes|apply shown_laid_out, debug_writes].
  - unfold tp_fmt_pointer. rewrite fmt_ptr_shown by exact B. apply shown_laid_out, radix_writes.
Qed.

(** ** C46: the whole message *)

(** Every panic of the crate's says what its format string says, with the numbers in decimal and the enum's name. *)
Theorem C46_text : forall enum p f, format_string p = Some f -> fills f (arguments enum p) (panic_message enum p).
Proof.
  assert (D : forall x, plain_numeral decimal x (show_dec x)) by (intros x; rewrite show_dec_shown; apply numeral_plain, decimal_writes).
  assert (L : forall (P : string -> Prop) t, P t -> fills "{}" [P] t).
  { intros P t H. rewrite <- (append_nil t). apply fills_arg; [exact H|constructor]. }
  intros enum p f H. destruct p; cbn [format_string] in H; try discriminate H; injection H as <-; cbn [arguments panic_message append];
    repeat first [apply fills_end | apply fills_char; [discriminate|] | apply fills_arg; [first [reflexivity|apply D]|] | apply L; apply D ].
Qed.

(** ** Examples *)

Example C10_layout_example : laid_out (radix_notation LowerHex) (FmtOpts "*" (Some ACenter) true true false (Some 10%nat) None None) 0x1a2b "*+0x1a2b**".
Proof.
  apply (C10_layout dbg60 LowerHex (FmtOpts "*" (Some ACenter) true true false (Some 10%nat) None None) 0xA000000000001A2B); [apply example_targets_ok|].
  vm_compute; reflexivity.
Qed.

(** Not laid out so: wrong digits, superfluous zeros, the odd padding to the left. *)
Example C10_layout_not :
  ~ plain_numeral (radix_notation LowerHex) 0x1a2b "1A2B" /\ ~ plain_numeral (radix_notation LowerHex) 0x1a2b "01a2b" /\
  ~ laid_out (radix_notation LowerHex) (opts_w "*" ACenter 5) 0xab "**ab*".
Proof.
  split; [intros (H & _); specialize (H "A"%char eq_refl); discriminate H|]. split; [intros (_ & _ & H); specialize (H _ eq_refl); discriminate H|].
  intros (num & b & z & a & (Hn & Hr & _) & Hs & Hl & -> & Hp). cbn [opts_w f_fill f_sign_plus f_alternate f_width f_align append times] in *.
  assert (S : forall c, occurs c num = true -> c <> "*"%char) by (intros c Hc ->; specialize (Hn _ Hc); discriminate Hn).
  destruct b as [|[|[|b]]]; cbn [times append] in Hs; try discriminate Hs.
  - destruct num as [|c num]; [discriminate Hr|]. injection Hs as <- _. apply (S "*"%char); reflexivity.
  - destruct num as [|c num]; [discriminate Hr|]. injection Hs as <- _. apply (S "*"%char); reflexivity.
  - injection Hs as Hs. apply (f_equal String.length) in Hs. rewrite length_app, length_times in Hs. cbn in Hs.
    destruct num as [|c [|c2 num]]; [discriminate Hr| |cbn in Hs; lia]. cbn in Hr. destruct (read_digit c) as [d|]; [|discriminate Hr].
    destruct (N.ltb_spec d 16); [|discriminate Hr]. injection Hr as Hr. lia.
Qed.

Example C10_box_layout_example :
  laid_out (radix_notation Octal) default_opts 8 (tb_fmt (Env dbg60 (fun _ _ _ => None) reprC) Octal default_opts 0x5000000000000008).
Proof.
  apply (C10_box_layout (Env dbg60 (fun _ _ _ => None) reprC) Octal default_opts 0x5000000000000008); [apply example_targets_ok|reflexivity].
Qed.

Example C11_layout_example :
  laid_out (radix_notation LowerHex) (FmtOpts " " None false true false (Some 12%nat) None None) 0x1a2b "      0x1a2b" /\
  tp_fmt_pointer dbg60 (FmtOpts " " None false false false (Some 12%nat) None None) 0xA000000000001A2B = "      0x1a2b"%string.
Proof.
  split; [|vm_compute; reflexivity].
  destruct (C11_layout dbg60 (FmtOpts " " None false false false (Some 12%nat) None None) 0xA000000000001A2B (proj1 example_targets_ok) eq_refl) as [_ H]. exact H.
Qed.

Example C46_text_example :
  fills "Attempted to store a discriminant of {} while the max value is {}" [plain_numeral decimal 16; plain_numeral decimal 15]
    "Attempted to store a discriminant of 16 while the max value is 15".
Proof. exact (C46_text "Item" (PanicDiscriminant 16 15) _ eq_refl). Qed.

Print Assumptions C10_layout.
Print Assumptions C10_box_layout.
Print Assumptions C11_layout.
Print Assumptions C46_text.
