(** Proofs about the digit strings. *)
From Coq Require Import Arith NArith List String Ascii Bool Lia.
From Verif Require Import Words Config ConfigFacts Pointer PointerFacts Fmt SpecFmt.
Import ListNotations.
Local Open Scope N_scope.

Definition digits_val (b acc : N) (l : list N) : N := fold_left (fun a d => a * b + d) l acc.

Lemma digits_loop_val b : 2 <= b -> forall fuel x acc, x < 2 ^ N.of_nat fuel ->
  digits_val b 0 (digits_loop fuel b x acc) = digits_val b x acc.
Proof.
  intros Hb. induction fuel as [|f IH]; intros x acc Hx.
  - cbn in Hx. assert (x = 0) by lia. subst. reflexivity.
  - cbn [digits_loop]. assert (Hb0 : b <> 0) by lia.
    pose proof (N.div_mod x b Hb0) as Hdm.
    destruct (x / b =? 0) eqn:E.
    + apply N.eqb_eq in E. rewrite E in Hdm. unfold digits_val. cbn [fold_left]. f_equal. lia.
    + rewrite IH.
      * unfold digits_val. cbn [fold_left]. f_equal. lia.
      * rewrite Nat2N.inj_succ, N.pow_succ_r' in Hx.
        apply N.div_lt_upper_bound; [exact Hb0|]. 
        assert (2 * 2 ^ N.of_nat f <= b * 2 ^ N.of_nat f) by (apply N.mul_le_mono_r; exact Hb). lia.
Qed.

Lemma digits_value b x : 2 <= b -> digits_val b 0 (digits b x) = x.
Proof.
  intros Hb. unfold digits. rewrite digits_loop_val; [reflexivity|exact Hb|].
  rewrite Nat2N.inj_succ, N2Nat.id. destruct (N.eq_dec x 0) as [->|Hx]; [reflexivity|].
  apply N.log2_spec. lia.
Qed.

Lemma digits_loop_bound b : 0 < b -> forall fuel x acc, Forall (fun d => d < b) acc ->
  Forall (fun d => d < b) (digits_loop fuel b x acc).
Proof.
  intros Hb. induction fuel as [|f IH]; intros x acc H; cbn [digits_loop]; [exact H|].
  assert (Forall (fun d => d < b) (x mod b :: acc)).
  { constructor; [apply N.mod_lt; lia|exact H]. }
  destruct (x / b =? 0); [assumption|]. apply IH. assumption.
Qed.

Lemma digits_nonempty b x : digits b x <> [].
Proof.
  unfold digits. enough (H : forall f x acc, acc <> [] -> digits_loop f b x acc <> []).
  { cbn [digits_loop]. destruct (x / b =? 0); [discriminate|]. apply H. discriminate. }
  induction f as [|f IH]; intros y acc Hacc; cbn [digits_loop]; [exact Hacc|].
  destruct (y / b =? 0); [discriminate|]. apply IH. discriminate.
Qed.

Lemma read_digit_char k d : d < 16 -> read_digit (digit_char k d) = Some d.
Proof.
  intros H.
  assert (E : forallb (fun d => match read_digit (digit_char k d) with Some e => e =? d | None => false end)
                (map N.of_nat (seq 0 16)) = true) by (destruct k; vm_compute; reflexivity).
  rewrite forallb_forall in E. specialize (E d).
  destruct (read_digit (digit_char k d)) as [e|].
  - f_equal. apply N.eqb_eq, E. rewrite <- (N2Nat.id d). apply in_map, in_seq. lia.
  - exfalso. enough (false = true) by discriminate. apply E.
    rewrite <- (N2Nat.id d). apply in_map, in_seq. lia.
Qed.

Lemma read_string_of_digits k b : b <= 16 -> forall l acc, Forall (fun d => d < b) l ->
  read_number b acc (string_of_digits k l) = Some (digits_val b acc l).
Proof.
  intros Hb. induction l as [|d l IH]; intros acc H; cbn [string_of_digits read_number]; [reflexivity|].
  inversion H; subst. rewrite read_digit_char by lia.
  rewrite (proj2 (N.ltb_lt d b)) by assumption. rewrite IH by assumption. reflexivity.
Qed.

Lemma base_range k : 2 <= base k /\ base k <= 16.
Proof. destruct k; cbn; lia. Qed.

Lemma read_fmt k b x : 2 <= b -> b <= 16 ->
  read_number b 0 (string_of_digits k (digits b x)) = Some x.
Proof.
  intros H1 H2. rewrite read_string_of_digits; [|exact H2|].
  - now rewrite digits_value.
  - unfold digits. apply digits_loop_bound; [lia|constructor].
Qed.

Lemma strip_prefix_app p s : strip_prefix p (p ++ s)%string = Some s.
Proof. induction p as [|c p IH]; cbn; [reflexivity|]. now rewrite Ascii.eqb_refl. Qed.

Lemma append_cancel p a c : (p ++ a = p ++ c)%string -> a = c.
Proof. induction p as [|x p IH]; cbn; intros H; [exact H|]. injection H as H. auto. Qed.

Lemma append_assoc a c d : ((a ++ c) ++ d = a ++ (c ++ d))%string.
Proof. induction a as [|x a IH]; cbn; [reflexivity|]. now rewrite IH. Qed.

Lemma append_nil a : (a ++ "" = a)%string.
Proof. induction a as [|x a IH]; cbn; [reflexivity|]. now rewrite IH. Qed.

Lemma length_append a c : String.length (a ++ c) = (String.length a + String.length c)%nat.
Proof. induction a as [|x a IH]; cbn; [reflexivity|]. now rewrite IH. Qed.

Lemma length_repeat n c : String.length (repeat_char n c) = n.
Proof. induction n as [|n IH]; cbn; [reflexivity|]. now rewrite IH. Qed.

Lemma repeat_app a c x : (repeat_char a x ++ repeat_char c x = repeat_char (a + c) x)%string.
Proof. induction a as [|a IH]; cbn; [reflexivity|]. now rewrite IH. Qed.

(** ** Notations and their printers *)

(** Every character of [s] is one of [cs]. *)
Fixpoint made_of (cs s : string) : Prop :=
  match s with EmptyString => True | String c r => occurs c cs = true /\ made_of cs r end.

Lemma made_of_app cs a c : made_of cs (a ++ c) <-> made_of cs a /\ made_of cs c.
Proof. induction a as [|x a IH]; cbn; [tauto|]. rewrite IH. tauto. Qed.

Lemma made_of_repeat cs n c : occurs c cs = true -> made_of cs (repeat_char n c).
Proof. intros H. induction n as [|n IH]; cbn; auto. Qed.

Lemma eqb_sym_ascii a c : Ascii.eqb a c = Ascii.eqb c a.
Proof. destruct (Ascii.eqb_spec a c), (Ascii.eqb_spec c a); congruence. Qed.

Lemma made_of_not cs s c : made_of cs s -> occurs c cs = false -> occurs c s = false.
Proof.
  induction s as [|a s IH]; cbn; intros H N; [reflexivity|]. destruct H as [H1 H2].
  rewrite IH by assumption. destruct (Ascii.eqb_spec a c); [congruence|reflexivity].
Qed.

(** [digit_char k] writes the digits of [n]; neither the mark of the prefix nor [+] is a digit. *)
Definition writes (n : notation) (k : radix) : Prop :=
  2 <= n_base n /\ n_base n <= 16 /\
  (forall d, d < n_base n -> occurs (digit_char k d) (n_digits n) = true) /\
  (forall c, occurs c (n_digits n) = true -> exists d, d < n_base n /\ c = digit_char k d) /\
  (n_prefix n = EmptyString \/ exists p m, n_prefix n = (p ++ String m EmptyString)%string /\ occurs m (n_digits n) = false) /\
  occurs "+" (n_digits n) = false.

Definition writes_b (n : notation) (k : radix) : bool :=
  (2 <=? n_base n) && (n_base n <=? 16) &&
  forallb (fun d => occurs (digit_char k d) (n_digits n)) (map N.of_nat (seq 0 (N.to_nat (n_base n)))) &&
  negb (occurs "+" (n_digits n)).

Fixpoint occurs_in_list (c : ascii) (s : string) : occurs c s = true -> exists i, String.get i s = Some c.
Proof.
  destruct s as [|a s]; cbn; intros H; [discriminate|].
  destruct (Ascii.eqb_spec a c) as [->|]; [exists O; reflexivity|].
  destruct (occurs_in_list c s H) as [i Hi]. exists (S i). exact Hi.
Defined.

Lemma writes_of n k : writes_b n k = true ->
  (forall i c, String.get i (n_digits n) = Some c -> exists d, d < n_base n /\ c = digit_char k d) ->
  (n_prefix n = EmptyString \/ exists p m, n_prefix n = (p ++ String m EmptyString)%string /\ occurs m (n_digits n) = false) ->
  writes n k.
Proof.
  unfold writes_b. intros H H1 H2. rewrite !andb_true_iff in H. destruct H as [[[A B] C] D].
  apply N.leb_le in A, B. repeat split; try assumption.
  - intros d Hd. rewrite forallb_forall in C. apply C. rewrite <- (N2Nat.id d). apply in_map, in_seq. lia.
  - intros c Hc. destruct (occurs_in_list _ _ Hc) as [i Hi]. eauto.
  - now apply negb_true_iff in D.
Qed.

Lemma radix_writes k : writes (radix_notation k) k.
Proof.
  apply writes_of.
  - destruct k; vm_compute; reflexivity.
  - intros i c. destruct k; cbn [radix_notation n_digits n_base];
      do 17 (destruct i as [|i]; [cbn; intros H; try discriminate H; injection H as <-;
        first [exists 0; split; [lia|reflexivity]|exists 1; split; [lia|reflexivity]|exists 2; split; [lia|reflexivity]
              |exists 3; split; [lia|reflexivity]|exists 4; split; [lia|reflexivity]|exists 5; split; [lia|reflexivity]
              |exists 6; split; [lia|reflexivity]|exists 7; split; [lia|reflexivity]|exists 8; split; [lia|reflexivity]
              |exists 9; split; [lia|reflexivity]|exists 10; split; [lia|reflexivity]|exists 11; split; [lia|reflexivity]
              |exists 12; split; [lia|reflexivity]|exists 13; split; [lia|reflexivity]|exists 14; split; [lia|reflexivity]
              |exists 15; split; [lia|reflexivity]]|]); cbn; intros H; destruct i; discriminate H.
  - right. destruct k; (exists "0"%string; eexists; split; [reflexivity|reflexivity]).
Qed.

Lemma decimal_writes : writes decimal LowerHex.
Proof.
  apply writes_of.
  - vm_compute; reflexivity.
  - intros i c. cbn [decimal n_digits n_base].
      do 11 (destruct i as [|i]; [cbn; intros H; try discriminate H; injection H as <-;
        first [exists 0; split; [lia|reflexivity]|exists 1; split; [lia|reflexivity]|exists 2; split; [lia|reflexivity]
              |exists 3; split; [lia|reflexivity]|exists 4; split; [lia|reflexivity]|exists 5; split; [lia|reflexivity]
              |exists 6; split; [lia|reflexivity]|exists 7; split; [lia|reflexivity]|exists 8; split; [lia|reflexivity]
              |exists 9; split; [lia|reflexivity]]|]); cbn; intros H; destruct i; discriminate H.
  - left. reflexivity.
Qed.

(** The numeral of [x] and its text under the options. *)
Definition numeral (n : notation) (k : radix) (x : N) : string := string_of_digits k (digits (n_base n) x).
Definition shown (n : notation) (k : radix) (o : fmt_opts) (x : N) : string :=
  pad_integral o (n_prefix n) (numeral n k x).

Lemma fmt_u64_shown k o x : fmt_u64 k o x = shown (radix_notation k) k o x.
Proof. destruct k; reflexivity. Qed.
Lemma fmt_dec_shown o x : fmt_dec o x = shown decimal LowerHex o x.
Proof. reflexivity. Qed.

Lemma numeral_made n k x : writes n k -> made_of (n_digits n) (numeral n k x).
Proof.
  intros (B1 & B2 & W & _). unfold numeral, digits.
  pose proof (digits_loop_bound (n_base n) ltac:(lia) (S (N.to_nat (N.log2 x))) x [] (Forall_nil _)) as F.
  induction F as [|d l Hd F IH]; cbn [string_of_digits made_of]; auto.
Qed.

Lemma numeral_nonempty n k x : numeral n k x <> EmptyString.
Proof.
  unfold numeral. pose proof (digits_nonempty (n_base n) x). destruct (digits (n_base n) x); [contradiction|discriminate].
Qed.

Lemma numeral_reads n k x : writes n k -> read_number (n_base n) 0 (numeral n k x) = Some x.
Proof. intros (B1 & B2 & _). apply read_fmt; assumption. Qed.

Lemma read_numeral_of b s : s <> EmptyString -> read_numeral b s = read_number b 0 s.
Proof. destruct s; [contradiction|reflexivity]. Qed.

Lemma read_zeros n k j s : writes n k -> read_number (n_base n) 0 (repeat_char j "0" ++ s) = read_number (n_base n) 0 s.
Proof.
  intros (B1 & _). induction j as [|j IH]; [reflexivity|]. cbn [repeat_char append read_number].
  change (read_digit "0") with (Some 0). cbv beta iota. rewrite (proj2 (N.ltb_lt 0 (n_base n))) by lia. exact IH.
Qed.

(** ** Trimming *)

Lemma after_last_none m s : occurs m s = false -> after_last m s = None.
Proof.
  induction s as [|a s IH]; cbn; intros H; [reflexivity|]. apply orb_false_iff in H. destruct H as [H1 H2].
  rewrite IH, H1 by assumption. reflexivity.
Qed.
Lemma after_last_app m p s : occurs m s = false -> after_last m (p ++ String m s) = Some s.
Proof.
  intros H. induction p as [|a p IH]; cbn.
  - rewrite after_last_none, Ascii.eqb_refl by assumption. reflexivity.
  - now rewrite IH.
Qed.

Lemma trim_left_app c j s : (forall r, s <> String c r) -> trim_left c (repeat_char j c ++ s) = s.
Proof.
  intros H. induction j as [|j IH]; cbn.
  - destruct s as [|a r]; cbn; [reflexivity|]. destruct (Ascii.eqb_spec a c) as [->|]; [|reflexivity].
    now destruct (H r).
  - now rewrite Ascii.eqb_refl.
Qed.

Lemma trim_right_repeat c j : trim_right c (repeat_char j c) = EmptyString.
Proof. induction j as [|j IH]; cbn; [reflexivity|]. now rewrite IH, Ascii.eqb_refl. Qed.
Lemma trim_right_app c p s j : s <> EmptyString -> occurs c s = false ->
  trim_right c (p ++ s ++ repeat_char j c) = (p ++ s)%string.
Proof.
  intros NE N.
  assert (E : trim_right c (s ++ repeat_char j c) = s).
  { clear p. induction s as [|a s IH]; [contradiction|]. cbn in N |- *. apply orb_false_iff in N.
    destruct N as [N1 N2]. destruct s as [|a2 s].
    - cbn [append]. rewrite trim_right_repeat, N1. reflexivity.
    - rewrite IH by (discriminate || exact N2). reflexivity. }
  induction p as [|a p IH]; cbn [append trim_right]; [exact E|]. rewrite IH.
  destruct (p ++ s)%string eqn:Q; [|reflexivity].
  destruct p; [cbn in Q; contradiction|discriminate].
Qed.

(** ** Reading back *)

(** Sign and prefix. *)
Definition leading (n : notation) (o : fmt_opts) : string :=
  ((if f_sign_plus o then "+" else "") ++ (if f_alternate o then n_prefix n else ""))%string.

Lemma leading_length n o : String.length (leading n o) = lead n o.
Proof. unfold leading, lead. rewrite length_append. destruct (f_sign_plus o), (f_alternate o); reflexivity. Qed.

(** All texts have this form. *)
Lemma shown_form n k o x : exists a z c,
  shown n k o x = (repeat_char a (f_fill o) ++ leading n o ++ repeat_char z "0" ++ numeral n k x ++ repeat_char c (f_fill o))%string /\
  (filled o = false -> a = O /\ c = O) /\
  (forall w, f_width o = Some w -> (w <= lead n o + 1)%nat -> a = O /\ c = O) /\
  (fill_after o = false -> c = O) /\
  (f_zero_pad o = false -> z = O).
Proof.
  unfold shown, pad_integral, filled. set (B := numeral n k x).
  assert (HB : (1 <= String.length B)%nat).
  { pose proof (numeral_nonempty n k x). unfold B. destruct (numeral n k x); [contradiction|cbn; lia]. }
  assert (U : forall z, ((if f_sign_plus o then "+" else "") ++ (if f_alternate o then n_prefix n else "") ++ repeat_char z "0" ++ B
     = repeat_char 0 (f_fill o) ++ leading n o ++ repeat_char z "0" ++ B ++ repeat_char 0 (f_fill o))%string).
  { intros z. unfold leading. cbn [repeat_char append]. rewrite append_nil, !append_assoc. reflexivity. }
  assert (WL : (String.length B + String.length (if f_sign_plus o then "+" else "") +
     String.length (if f_alternate o then n_prefix n else "") = String.length B + lead n o)%nat).
  { unfold lead. destruct (f_sign_plus o), (f_alternate o); cbn; lia. }
  destruct (f_width o) as [w|] eqn:EW.
  2:{ exists O, O, O. rewrite <- U. repeat split; auto. }
  rewrite WL. destruct (Nat.leb_spec w (String.length B + lead n o)) as [Hw|Hw].
  { exists O, O, O. rewrite <- U. repeat split; auto. }
  destruct (f_zero_pad o) eqn:EZ.
  { exists O, (w - (String.length B + lead n o))%nat, O. rewrite <- U. repeat split; auto; discriminate. }
  destruct (padding (f_align o) (w - (String.length B + lead n o))) as [a c] eqn:EP.
  exists a, O, c. split; [|split; [discriminate|split; [|split; [|reflexivity]]]].
  - unfold leading. cbn [repeat_char append]. rewrite !append_assoc. reflexivity.
  - intros w' E L. injection E as <-. lia.
  - unfold fill_after. destruct (f_align o) as [[]|]; try discriminate; cbn in EP; injection EP as <- <-; reflexivity.
Qed.

Lemma leading_marker n k o : writes n k ->
  match marker n o with
  | Some m => exists p, leading n o = (p ++ String m EmptyString)%string /\ occurs m (n_digits n) = false
  | None => leading n o = EmptyString
  end.
Proof.
  intros (_ & _ & _ & _ & P & S). unfold marker, leading.
  assert (LC : forall p m, last_char (p ++ String m EmptyString) = Some m).
  { induction p as [|a p IH]; intros m; [reflexivity|]. cbn. rewrite IH.
    destruct (p ++ String m EmptyString)%string eqn:Q; [destruct p; discriminate|reflexivity]. }
  destruct (f_alternate o).
  - destruct P as [P|(p & m & P & Pm)]; rewrite P.
    + cbn [last_char]. destruct (f_sign_plus o); [|reflexivity]. exists EmptyString. split; [reflexivity|exact S].
    + rewrite LC. exists ((if f_sign_plus o then "+" else "") ++ p)%string. rewrite append_assoc. split; [reflexivity|exact Pm].
  - destruct (f_sign_plus o); [|reflexivity]. exists EmptyString. split; [reflexivity|exact S].
Qed.

Theorem shown_reads n k o x : writes n k -> separable n o = true -> read_text n o (shown n k o x) = Some x.
Proof.
  intros W Sp. destruct (shown_form n k o x) as (a & z & c & -> & F1 & F2 & F3 & F4).
  set (Z := (repeat_char z "0" ++ numeral n k x)%string).
  assert (ZD : made_of (n_digits n) Z).
  { apply made_of_app. split; [|apply numeral_made, W]. apply made_of_repeat.
    destruct W as (B1 & _ & W & _). change "0"%char with (digit_char LowerHex 0).
    destruct k; apply (W 0); lia. }
  assert (ZN : Z <> EmptyString).
  { unfold Z. intros Q. apply (f_equal String.length) in Q. rewrite length_append in Q.
    pose proof (numeral_nonempty n k x). destruct (numeral n k x); [contradiction|cbn in Q; lia]. }
  assert (ZR : read_numeral (n_base n) Z = Some x).
  { rewrite read_numeral_of by exact ZN. unfold Z. rewrite (read_zeros n k) by exact W. apply numeral_reads, W. }
  replace (repeat_char z "0" ++ numeral n k x ++ repeat_char c (f_fill o))%string
    with (Z ++ repeat_char c (f_fill o))%string by (unfold Z; now rewrite append_assoc).
  unfold read_text.
  destruct (occurs (f_fill o) (n_digits n)) eqn:EO; rewrite ?andb_false_r, ?andb_true_r; cbn [negb andb].
  - (* the fill is a digit *)
    assert (c = O /\ (a = O \/ marker n o <> None \/ f_fill o = "0"%char)) as [-> Ha].
    { unfold separable in Sp. destruct (f_width o) as [w|] eqn:EW.
      2:{ destruct F1 as [-> ->]; [unfold filled; now rewrite EW|]. auto. }
      rewrite EO in Sp. cbn [negb] in Sp. rewrite orb_false_r in Sp.
      destruct (f_zero_pad o) eqn:EZ.
      { destruct F1 as [-> ->]; [unfold filled; now rewrite EW, EZ|]. auto. }
      cbn [orb] in Sp. destruct (Nat.leb_spec w (lead n o + 1)) as [Hw|Hw].
      { destruct (F2 w eq_refl Hw) as [-> ->]. auto. }
      cbn [orb] in Sp.
      assert (G : fill_after o = false /\ (Ascii.eqb (f_fill o) "0" || negb (lead n o =? 0)%nat) = true).
      { unfold fill_after. destruct (f_align o) as [[]|]; try discriminate; auto. }
      destruct G as [G1 G2]. split; [auto|]. right. apply orb_true_iff in G2. destruct G2 as [G2|G2].
      - right. now apply Ascii.eqb_eq.
      - left. pose proof (leading_marker n k o W) as L. destruct (marker n o); [discriminate|].
        rewrite <- leading_length, L in G2. discriminate. }
    cbn [repeat_char]. rewrite append_nil.
    pose proof (leading_marker n k o W) as L. destruct (marker n o) as [m|] eqn:EM.
    + destruct L as (p & -> & Hm). rewrite append_assoc. cbn [append].
      rewrite <- append_assoc, after_last_app; [exact ZR|]. eapply made_of_not; eassumption.
    + rewrite L. cbn [append]. destruct Ha as [-> |[Ha|Ha]]; [exact ZR|congruence|].
      rewrite Ha. rewrite read_numeral_of.
      * rewrite (read_zeros n k) by exact W. rewrite <- read_numeral_of by exact ZN. exact ZR.
      * intros Q. apply (f_equal String.length) in Q. rewrite length_append in Q.
        destruct Z; [contradiction|cbn in Q; lia].
  - (* it is not *)
    assert (ZF : occurs (f_fill o) Z = false) by (eapply made_of_not; eassumption).
    assert (T : (if filled o && fill_after o
       then trim_right (f_fill o) (repeat_char a (f_fill o) ++ leading n o ++ Z ++ repeat_char c (f_fill o))
       else (repeat_char a (f_fill o) ++ leading n o ++ Z ++ repeat_char c (f_fill o)))%string
       = (repeat_char a (f_fill o) ++ leading n o ++ Z)%string).
    { destruct (filled o && fill_after o) eqn:EF.
      - rewrite <- !(append_assoc _ (leading n o)). apply trim_right_app; assumption.
      - assert (c = O) as ->.
        { apply andb_false_iff in EF. destruct EF as [EF|EF]; [now apply F1|now apply F3]. }
        cbn [repeat_char]. now rewrite append_nil. }
    rewrite T. pose proof (leading_marker n k o W) as L. destruct (marker n o) as [m|].
    + destruct L as (p & -> & Hm). rewrite append_assoc. cbn [append].
      rewrite <- append_assoc, after_last_app; [exact ZR|]. eapply made_of_not; eassumption.
    + rewrite L. cbn [append]. destruct (filled o) eqn:EF.
      * rewrite trim_left_app; [exact ZR|]. intros r Q. rewrite Q in ZF. cbn in ZF.
        now rewrite Ascii.eqb_refl in ZF.
      * destruct (F1 eq_refl) as [-> _]. exact ZR.
Qed.

Lemma shown_inj n k o x y : writes n k -> separable n o = true -> shown n k o x = shown n k o y -> x = y.
Proof. intros W S E. pose proof (shown_reads n k o x W S) as H. rewrite E, shown_reads in H by assumption. congruence. Qed.

(** The length of a text: the width if it is larger than what is to be written. *)
Lemma shown_length n k o x :
  String.length (shown n k o x) =
  Nat.max (match f_width o with Some w => w | None => 0%nat end) (lead n o + String.length (numeral n k x)).
Proof.
  unfold shown, pad_integral. set (B := numeral n k x).
  assert (U : forall s, String.length ((if f_sign_plus o then "+" else "") ++ (if f_alternate o then n_prefix n else "") ++ s)
     = (lead n o + String.length s)%nat).
  { intros s. unfold lead. rewrite !length_append. destruct (f_sign_plus o), (f_alternate o); cbn; lia. }
  assert (WL : (String.length B + String.length (if f_sign_plus o then "+" else "") +
     String.length (if f_alternate o then n_prefix n else "") = String.length B + lead n o)%nat).
  { unfold lead. destruct (f_sign_plus o), (f_alternate o); cbn; lia. }
  destruct (f_width o) as [w|]; [|rewrite U; lia]. rewrite WL.
  destruct (Nat.leb_spec w (String.length B + lead n o)) as [Hw|Hw]; [rewrite U; lia|].
  destruct (f_zero_pad o); [rewrite U, length_append, length_repeat; lia|].
  assert (P : (fst (padding (f_align o) (w - (String.length B + lead n o))) +
     snd (padding (f_align o) (w - (String.length B + lead n o))) = w - (String.length B + lead n o))%nat).
  { generalize (w - (String.length B + lead n o))%nat. intros j. destruct (f_align o) as [[]|]; cbn [padding fst snd]; try lia.
    destruct (Nat.Even_or_Odd j) as [[q ->]|[q ->]].
    - replace ((2 * q) / 2)%nat with q by (apply (Nat.div_unique _ 2 q 0); lia).
      replace ((2 * q + 1) / 2)%nat with q by (apply (Nat.div_unique _ 2 q 1); lia). lia.
    - replace ((2 * q + 1) / 2)%nat with q by (apply (Nat.div_unique _ 2 q 1); lia).
      replace ((2 * q + 1 + 1) / 2)%nat with (S q) by (apply (Nat.div_unique _ 2 (S q) 0); lia). lia. }
  destruct (padding (f_align o) (w - (String.length B + lead n o))) as [a c]. cbn [fst snd] in P.
  rewrite length_append, length_repeat, U, length_append, length_repeat. lia.
Qed.

(** ** Texts that cannot be told apart *)

(** Numbers written with one leading digit and [j - 1] times the digit [d]. *)
Definition rep (b d : N) (j : nat) : N :=
  let e := if d =? 0 then 1 else d in
  match j with 1%nat => e | 2%nat => e * b + d | _ => (e * b + d) * b + d end.
Definition first_digit (d : N) : N := if d =? 0 then 1 else d.

Lemma rep_numeral k d j : d < base k -> (1 <= j <= 3)%nat ->
  numeral (radix_notation k) k (rep (base k) d j) =
    String (digit_char k (first_digit d)) (repeat_char (j - 1) (digit_char k d)) /\
  rep (base k) d j < 2 ^ 48.
Proof.
  intros Hd Hj.
  assert (E : forallb (fun d => forallb (fun j =>
      (d <? base k) && (String.eqb (numeral (radix_notation k) k (rep (base k) d j))
         (String (digit_char k (first_digit d)) (repeat_char (j - 1) (digit_char k d)))
       && (rep (base k) d j <? 2 ^ 48)))
      [1; 2; 3]%nat) (map N.of_nat (seq 0 (N.to_nat (base k)))) = true) by (destruct k; vm_compute; reflexivity).
  rewrite forallb_forall in E. specialize (E d).
  assert (I : In d (map N.of_nat (seq 0 (N.to_nat (base k))))).
  { rewrite <- (N2Nat.id d). apply in_map, in_seq. lia. }
  specialize (E I). rewrite forallb_forall in E. specialize (E j).
  assert (J : In j [1; 2; 3]%nat) by (cbn; lia).
  specialize (E J). apply andb_true_iff in E. destruct E as [_ E]. apply andb_true_iff in E. destruct E as [E1 E2].
  split; [now apply String.eqb_eq|now apply N.ltb_lt].
Qed.

Lemma rep_neq b d j : 2 <= b -> (1 <= j <= 2)%nat -> rep b d j <> rep b d (j + 1).
Proof.
  intros Hb Hj. assert (0 < first_digit d) by (unfold first_digit; destruct (N.eqb_spec d 0); lia).
  assert (L : forall e, 0 < e -> e < e * b + d) by (intros; nia).
  destruct j as [|[|[|]]]; try lia; unfold rep; cbn [Nat.add]; fold (first_digit d).
  - pose proof (L _ H). lia.
  - pose proof (L (first_digit d * b + d) ltac:(nia)). lia.
Qed.

Lemma shown_padded n k o x w : f_width o = Some w -> f_zero_pad o = false ->
  (String.length (numeral n k x) + lead n o < w)%nat ->
  shown n k o x =
    let (a, c) := padding (f_align o) (w - (String.length (numeral n k x) + lead n o)) in
    (repeat_char a (f_fill o) ++ leading n o ++ numeral n k x ++ repeat_char c (f_fill o))%string.
Proof.
  intros EW EZ L. unfold shown, pad_integral. rewrite EW, EZ.
  assert (WL : (String.length (numeral n k x) + String.length (if f_sign_plus o then "+" else "") +
     String.length (if f_alternate o then n_prefix n else "") = String.length (numeral n k x) + lead n o)%nat).
  { unfold lead. destruct (f_sign_plus o), (f_alternate o); cbn; lia. }
  rewrite WL, (proj2 (Nat.leb_gt _ _)) by exact L.
  destruct (padding _ _). unfold leading. rewrite !append_assoc. reflexivity.
Qed.

Lemma shown_full n k o x w : f_width o = Some w -> f_zero_pad o = false ->
  (String.length (numeral n k x) + lead n o = w)%nat ->
  shown n k o x = (leading n o ++ numeral n k x)%string.
Proof.
  intros EW EZ L. unfold shown, pad_integral. rewrite EW.
  assert (WL : (String.length (numeral n k x) + String.length (if f_sign_plus o then "+" else "") +
     String.length (if f_alternate o then n_prefix n else "") = String.length (numeral n k x) + lead n o)%nat).
  { unfold lead. destruct (f_sign_plus o), (f_alternate o); cbn; lia. }
  rewrite WL, (proj2 (Nat.leb_le _ _)) by lia. unfold leading. rewrite !append_assoc. reflexivity.
Qed.

(** Both cases at once. *)
Lemma shown_padded' n k o x w : f_width o = Some w -> f_zero_pad o = false ->
  (String.length (numeral n k x) + lead n o <= w)%nat ->
  shown n k o x =
    let (a, c) := padding (f_align o) (w - (String.length (numeral n k x) + lead n o)) in
    (repeat_char a (f_fill o) ++ leading n o ++ numeral n k x ++ repeat_char c (f_fill o))%string.
Proof.
  intros EW EZ L. destruct (Nat.eq_dec (String.length (numeral n k x) + lead n o) w) as [E|E].
  - rewrite (shown_full n k o x w) by assumption. rewrite E, Nat.sub_diag.
    destruct (f_align o) as [[]|]; cbn [padding repeat_char append]; rewrite ?append_nil; reflexivity.
  - apply shown_padded; [assumption|assumption|lia].
Qed.

Lemma repeat_tail (j i : nat) c : (repeat_char j c ++ String c (repeat_char i c) = repeat_char (j + S i) c)%string.
Proof. exact (repeat_app j (S i) c). Qed.

Theorem shown_collides k o : separable (radix_notation k) o = false ->
  exists x y, x < 2 ^ 48 /\ y < 2 ^ 48 /\ x <> y /\
    shown (radix_notation k) k o x = shown (radix_notation k) k o y.
Proof.
  intros S. unfold separable in S. destruct (f_width o) as [w|] eqn:EW; [|discriminate].
  apply orb_false_iff in S. destruct S as [S SA]. apply orb_false_iff in S. destruct S as [S SL].
  apply orb_false_iff in S. destruct S as [SZ SO]. apply negb_false_iff in SO. apply Nat.leb_gt in SL.
  destruct (radix_writes k) as (B1 & _ & _ & WD & _). destruct (WD _ SO) as (d & Hd & Ed).
  assert (Bk : n_base (radix_notation k) = base k) by (destruct k; reflexivity). rewrite Bk in *.
  set (n := radix_notation k) in *. set (l := lead n o) in *.
  assert (Go : forall j, (1 <= j <= 2)%nat -> (l + j + 1 <= w)%nat ->
     (let (a, c) := padding (f_align o) (w - (j + l)) in
       repeat_char a (f_fill o) ++ leading n o ++ String (digit_char k (first_digit d)) (repeat_char (j - 1) (f_fill o)) ++ repeat_char c (f_fill o))%string =
     (let (a, c) := padding (f_align o) (w - (j + 1 + l)) in
       repeat_char a (f_fill o) ++ leading n o ++ String (digit_char k (first_digit d)) (repeat_char j (f_fill o)) ++ repeat_char c (f_fill o))%string ->
     exists x y, x < 2 ^ 48 /\ y < 2 ^ 48 /\ x <> y /\ shown n k o x = shown n k o y).
  { intros j Hj Hw E. exists (rep (base k) d j), (rep (base k) d (j + 1)).
    destruct (rep_numeral k d j Hd ltac:(lia)) as [N1 L1]. destruct (rep_numeral k d (j + 1) Hd ltac:(lia)) as [N2 L2].
    split; [exact L1|]. split; [exact L2|]. split; [apply rep_neq; assumption|].
    fold n in N1, N2. rewrite <- Ed in N1, N2. replace (j + 1 - 1)%nat with j in N2 by lia.
    assert (Q1 : String.length (numeral n k (rep (base k) d j)) = j) by (rewrite N1; cbn; rewrite length_repeat; lia).
    assert (Q2 : String.length (numeral n k (rep (base k) d (j + 1))) = (j + 1)%nat) by (rewrite N2; cbn; rewrite length_repeat; lia).
    rewrite !(shown_padded' n k o _ w) by (assumption || (rewrite ?Q1, ?Q2; fold l; lia)).
    rewrite Q1, Q2, N1, N2. fold l. exact E. }
  destruct (f_align o) as [[]|] eqn:EA; cbn [padding] in Go.
  - apply (Go 1%nat); [lia|lia|]. cbn [repeat_char append]. do 2 f_equal. cbn [Nat.sub repeat_char append]. f_equal.
    replace (w - (1 + l))%nat with (S (w - (1 + 1 + l))) by lia. reflexivity.
  - (* right: everything is the same digit *)
    apply orb_false_iff in SA. destruct SA as [S0 SN]. apply negb_false_iff, Nat.eqb_eq in SN. fold l in SN.
    assert (F : digit_char k (first_digit d) = f_fill o).
    { unfold first_digit. destruct (N.eqb_spec d 0) as [->|]; [|congruence].
      apply Ascii.eqb_neq in S0. exfalso. apply S0. rewrite Ed. destruct k; reflexivity. }
    assert (LE : leading n o = EmptyString).
    { pose proof (leading_length n o) as Q. fold l in Q. rewrite SN in Q. destruct (leading n o); [reflexivity|discriminate]. }
    apply (Go 1%nat); [lia|lia|]. rewrite F, LE. cbn [append Nat.sub repeat_char].
    change (String (f_fill o) EmptyString) with (repeat_char 1 (f_fill o)).
    rewrite repeat_tail, repeat_app. f_equal. lia.
  - (* centre *)
    assert (H : exists j q, (1 <= j <= 2)%nat /\ (w - (j + l) = 2 * q + 1)%nat).
    { destruct (Nat.even (w - (1 + l))) eqn:EV.
      - apply Nat.even_spec in EV. destruct EV as [q Hq]. exists 2%nat, (q - 1)%nat. lia.
      - assert (OD : Nat.odd (w - (1 + l)) = true) by (unfold Nat.odd; now rewrite EV).
        apply Nat.odd_spec in OD. destruct OD as [q Hq]. exists 1%nat, q. lia. }
    destruct H as (j & q & Hj & Hq). apply (Go j); [exact Hj|lia|].
    replace (w - (j + 1 + l))%nat with (2 * q)%nat by lia. rewrite Hq.
    replace ((2 * q + 1) / 2)%nat with q by (apply (Nat.div_unique _ 2 q 1); lia).
    replace ((2 * q + 1 + 1) / 2)%nat with (S q) by (apply (Nat.div_unique _ 2 (S q) 0); lia).
    replace ((2 * q) / 2)%nat with q by (apply (Nat.div_unique _ 2 q 0); lia).
    do 2 f_equal. cbn [append]. f_equal. rewrite !repeat_app. f_equal. lia.
  - apply orb_false_iff in SA. destruct SA as [S0 SN]. apply negb_false_iff, Nat.eqb_eq in SN. fold l in SN.
    assert (F : digit_char k (first_digit d) = f_fill o).
    { unfold first_digit. destruct (N.eqb_spec d 0) as [->|]; [|congruence].
      apply Ascii.eqb_neq in S0. exfalso. apply S0. rewrite Ed. destruct k; reflexivity. }
    assert (LE : leading n o = EmptyString).
    { pose proof (leading_length n o) as Q. fold l in Q. rewrite SN in Q. destruct (leading n o); [reflexivity|discriminate]. }
    apply (Go 1%nat); [lia|lia|]. rewrite F, LE. cbn [append Nat.sub repeat_char].
    change (String (f_fill o) EmptyString) with (repeat_char 1 (f_fill o)).
    rewrite repeat_tail, repeat_app. f_equal. lia.
Qed.

(** ** Debug and Pointer of a tagged pointer *)

Lemma fmt_ptr_shown bits o a : bits = 64 \/ bits = 32 ->
  fmt_ptr bits o a = shown (radix_notation LowerHex) LowerHex (pointer_opts bits o) a.
Proof. intros [-> | ->]; reflexivity. Qed.

Definition debug_radix (o : fmt_opts) : radix :=
  match f_debug_hex o with Some true => UpperHex | _ => LowerHex end.
Lemma debug_writes o : writes (debug_notation o) (debug_radix o).
Proof.
  unfold debug_notation, debug_radix. destruct (f_debug_hex o) as [[|]|];
    [apply radix_writes|apply radix_writes|apply decimal_writes].
Qed.
Lemma fmt_int_debug_shown o x : fmt_int_debug o x = shown (debug_notation o) (debug_radix o) o x.
Proof. unfold fmt_int_debug, debug_notation, debug_radix. destruct (f_debug_hex o) as [[|]|]; reflexivity. Qed.

Lemma occurs_app c a b : occurs c (a ++ b) = occurs c a || occurs c b.
Proof. induction a as [|x a IH]; cbn; [reflexivity|]. now rewrite IH, orb_assoc. Qed.
Lemma occurs_repeat c j d : Ascii.eqb d c = false -> occurs c (repeat_char j d) = false.
Proof. intros H. induction j as [|j IH]; cbn; [reflexivity|]. now rewrite H. Qed.

Lemma shown_one_line n k o x : writes n k -> occurs newline (n_digits n) = false -> occurs newline (n_prefix n) = false ->
  (filled o = false \/ f_fill o <> newline) -> occurs newline (shown n k o x) = false.
Proof.
  intros W D P F. destruct (shown_form n k o x) as (a & z & c & -> & F1 & _).
  assert (FF : occurs newline (repeat_char a (f_fill o)) = false /\ occurs newline (repeat_char c (f_fill o)) = false).
  { destruct F as [F|F]; [destruct (F1 F) as [-> ->]; auto|].
    apply Ascii.eqb_neq in F. split; apply occurs_repeat, F. }
  destruct FF as [FA FC]. rewrite !occurs_app, FA, FC.
  rewrite (made_of_not _ _ _ (numeral_made n k x W) D), (occurs_repeat newline z "0" eq_refl).
  unfold leading. rewrite occurs_app. destruct (f_sign_plus o), (f_alternate o); cbn; now rewrite ?P.
Qed.

Lemma indent_line s r : occurs newline s = false -> indent false (s ++ r) = (s ++ indent false r)%string.
Proof.
  induction s as [|a s IH]; cbn [occurs append indent]; intros H; [reflexivity|].
  apply orb_false_iff in H. destruct H as [H1 H2]. rewrite H1, IH by exact H2. reflexivity.
Qed.

Lemma tp_fmt_debug_text t o p : ptr_bits t = 64 \/ ptr_bits t = 32 -> one_line o ->
  tp_fmt_debug t o p = debug_text o (fmt_ptr (ptr_bits t) o (cast (ptr_bits t) p))
    (fmt_ptr (ptr_bits t) o (tp_as_ptr t p)) (fmt_int_debug o (tp_discriminant t p)).
Proof.
  intros B O. unfold tp_fmt_debug, debug_struct, debug_text, tp_as_raw_u64.
  destruct (f_alternate o) eqn:EA.
  - assert (PL : forall a, occurs newline (fmt_ptr (ptr_bits t) o a) = false).
    { intros a. rewrite fmt_ptr_shown by exact B. apply shown_one_line; [apply radix_writes|reflexivity|reflexivity|].
      left. unfold filled, pointer_opts. cbn. rewrite EA, orb_true_r. destruct (f_width o); reflexivity. }
    assert (DL : occurs newline (fmt_int_debug o (tp_discriminant t p)) = false).
    { rewrite fmt_int_debug_shown. apply shown_one_line; [apply debug_writes| | |].
      - unfold debug_notation. destruct (f_debug_hex o) as [[|]|]; reflexivity.
      - unfold debug_notation. destruct (f_debug_hex o) as [[|]|]; reflexivity.
      - unfold filled. destruct O as [O|[O|[O|O]]]; [congruence|left; now rewrite O|left|right; exact O].
        rewrite O. destruct (f_width o); reflexivity. }
    cbn [fold_right fst snd].
    assert (L : forall name v, occurs newline name = false -> occurs newline v = false ->
      (match name with EmptyString => False | _ => True end) ->
      indent true (name ++ ": " ++ v ++ "," ++ String newline EmptyString)%string =
        ("    " ++ name ++ ": " ++ v ++ "," ++ line_break)%string).
    { intros [|a name] v Hn Hv []. cbn [append indent]. do 5 f_equal. cbn [occurs] in Hn.
      apply orb_false_iff in Hn. destruct Hn as [Ha Hn]. rewrite Ha.
      rewrite indent_line by exact Hn. f_equal. cbn [append]. 
      change (indent false (String ":" (String " " (v ++ String "," (String newline ""))))) with
        (String ":" (String " " (indent false (v ++ String "," (String newline ""))))).
      rewrite indent_line by exact Hv. reflexivity. }
    rewrite !L by (reflexivity || auto || exact Logic.I).
    rewrite !append_assoc. reflexivity.
  - cbn [map String.concat fst snd]. rewrite !append_assoc. reflexivity.
Qed.

(** The beginning of a text that is made of digits. *)
Fixpoint span (cs s : string) : string :=
  match s with
  | EmptyString => EmptyString
  | String c r => if occurs c cs then String c (span cs r) else EmptyString
  end.
Lemma span_app cs z c r : made_of cs z -> occurs c cs = false -> span cs (z ++ String c r) = z.
Proof.
  intros M N. induction z as [|a z IH]; cbn [append span]; [now rewrite N|].
  cbn in M. destruct M as [M1 M2]. now rewrite M1, IH.
Qed.

Definition hex : notation := radix_notation LowerHex.

(** Skip the fill, a sign and [0x]; read the digits. *)
Definition scan (o : fmt_opts) (s : string) : option N :=
  match strip_prefix "0x" (trim_left "+" (if filled o then trim_left (f_fill o) s else s)) with
  | Some r => read_number 16 0 (span (n_digits hex) r)
  | None => None
  end.

Lemma scan_shown o x c r : f_alternate o = true -> occurs c (n_digits hex) = false ->
  (filled o = false \/ occurs (f_fill o) (n_digits hex) = false) ->
  scan o (shown hex LowerHex o x ++ String c r) = Some x.
Proof.
  intros EA Hc Hf. destruct (shown_form hex LowerHex o x) as (a & z & j & -> & F1 & _).
  set (Z := (repeat_char z "0" ++ numeral hex LowerHex x)%string).
  assert (ZD : made_of (n_digits hex) Z).
  { apply made_of_app. split; [apply made_of_repeat; reflexivity|apply numeral_made, radix_writes]. }
  assert (SP : span (n_digits hex) (Z ++ repeat_char j (f_fill o) ++ String c r) = Z).
  { destruct Hf as [Hf|Hf].
    - destruct (F1 Hf) as [_ ->]. apply span_app; assumption.
    - destruct j; [apply span_app; assumption|]. cbn [repeat_char append]. apply span_app; assumption. }
  assert (RZ : read_number 16 0 Z = Some x).
  { unfold Z. rewrite (read_zeros hex LowerHex) by apply radix_writes. apply (numeral_reads hex LowerHex), radix_writes. }
  set (R := (Z ++ repeat_char j (f_fill o) ++ String c r)%string) in SP.
  replace ((repeat_char a (f_fill o) ++ leading hex o ++ repeat_char z "0" ++ numeral hex LowerHex x ++ repeat_char j (f_fill o)) ++ String c r)%string
    with (repeat_char a (f_fill o) ++ leading hex o ++ R)%string by (unfold R, Z; rewrite !append_assoc; reflexivity).
  assert (LD : leading hex o = (repeat_char (if f_sign_plus o then 1 else 0) "+" ++ "0x")%string).
  { unfold leading. rewrite EA. destruct (f_sign_plus o); reflexivity. }
  assert (T : trim_left "+" (leading hex o ++ R) = ("0x" ++ R)%string).
  { rewrite LD, append_assoc. apply trim_left_app. discriminate. }
  unfold scan.
  assert (E : trim_left "+" (if filled o then trim_left (f_fill o) (repeat_char a (f_fill o) ++ leading hex o ++ R)
       else (repeat_char a (f_fill o) ++ leading hex o ++ R)%string) = ("0x" ++ R)%string).
  { destruct (filled o) eqn:EF.
    - destruct Hf as [Hf|Hf]; [discriminate|].
      destruct (Ascii.eqb_spec (f_fill o) "+") as [Q|Q].
      + rewrite Q. rewrite LD, !append_assoc, <- append_assoc, repeat_app.
        rewrite (trim_left_app "+" _ ("0x" ++ R)) by discriminate. apply (trim_left_app "+" 0). discriminate.
      + rewrite trim_left_app; [exact T|]. rewrite LD. intros s. destruct (f_sign_plus o); cbn; intros E; injection E as E _.
        * congruence.
        * rewrite <- E in Hf. discriminate.
    - destruct (F1 eq_refl) as [-> _]. exact T. }
  rewrite E, strip_prefix_app, SP. exact RZ.
Qed.

Lemma tp_fmt_debug_raw t o p q : ptr_bits t = 64 \/ ptr_bits t = 32 ->
  one_line o -> legible (ptr_bits t) o ->
  tp_fmt_debug t o p = tp_fmt_debug t o q -> cast (ptr_bits t) p = cast (ptr_bits t) q.
Proof.
  intros B O Lg H. rewrite !tp_fmt_debug_text in H by assumption. rewrite !fmt_ptr_shown in H by assumption.
  set (o' := pointer_opts (ptr_bits t) o) in *.
  assert (G : exists r r', (shown hex LowerHex o' (cast (ptr_bits t) p) ++ String "," r)%string =
     (shown hex LowerHex o' (cast (ptr_bits t) q) ++ String "," r')%string).
  { unfold debug_text in H. destruct (f_alternate o).
    - apply append_cancel, append_cancel, append_cancel in H. eauto.
    - apply append_cancel in H. eauto. }
  destruct G as (r & r' & G). apply (f_equal (scan o')) in G.
  rewrite !scan_shown in G by (reflexivity || exact Lg). congruence.
Qed.
