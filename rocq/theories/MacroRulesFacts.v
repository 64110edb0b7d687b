(** Facts about the macro system of [MacroRules.v]. *)
From Coq Require Import Arith NArith String Bool List Lia.
From Verif Require Import Words Config Pointer Mem Box Macro Tokens SpecTokens TokensFacts Heads Lexer MacroRules.
Import ListNotations.
Local Open Scope string_scope.
Local Open Scope list_scope.

(** ** Lists of tokens *)

Lemma raw_W l : raw (map W l) = (l, []).
Proof. induction l as [|t l IH]; cbn [map raw]; [reflexivity|]. rewrite IH. reflexivity. Qed.

Lemma separated_nil {A} (ls : list (list A)) : separated [] ls = concat ls.
Proof.
  induction ls as [|l ls IH]; [reflexivity|]. destruct ls as [|l' ls]; [cbn; rewrite app_nil_r; reflexivity|].
  change (separated [] (l :: l' :: ls)) with (l ++ [] ++ separated [] (l' :: ls)). rewrite IH. reflexivity.
Qed.

Lemma concat_single {A} (l : list A) : concat (map (fun t => [t]) l) = l.
Proof. induction l as [|t l IH]; cbn; [reflexivity|]. rewrite IH. reflexivity. Qed.

(** ** Matching *)

Section Matching.
Variable parse : list tree -> ty_parse.
Hypothesis Hp : parser_ok parse.

(** What has to be there is there, and nothing else. *)
Definition ended {A} (m : mres (A * list tk)) : mres A :=
  match m with
  | Match (a, []) => Match a
  | Match (_, _ :: _) => NoMatch
  | NoMatch => NoMatch
  | Fatal => Fatal
  end.

Lemma match_all_ended ps ts : match_all parse ps ts = ended (match_seq parse ps ts).
Proof. reflexivity. Qed.

Lemma then_match_match e r k : then_match (Match (e, r)) k = match k r with Match (e', r') => Match (e ++ e', r') | NoMatch => NoMatch | Fatal => Fatal end.
Proof. reflexivity. Qed.

Lemma match_nil ts : match_seq parse [] ts = Match ([], ts).
Proof. reflexivity. Qed.

Lemma match_one p ts : match_seq parse [p] ts = then_match (match_pat parse p ts) (match_seq parse []).
Proof. reflexivity. Qed.

Lemma match_seq_app a : forall b ts, match_seq parse (a ++ b) ts = then_match (match_seq parse a ts) (match_seq parse b).
Proof.
  induction a as [|p a IH]; intros b ts; cbn [app match_seq].
  - cbn [then_match]. destruct (match_seq parse b ts) as [| |[e r]]; reflexivity.
  - destruct (match_pat parse p ts) as [| |[e r]]; cbn [then_match]; try reflexivity. rewrite IH.
    destruct (match_seq parse a r) as [| |[e' r']]; cbn [then_match]; try reflexivity.
    destruct (match_seq parse b r') as [| |[e'' r'']]; cbn; try reflexivity. rewrite app_assoc. reflexivity.
Qed.

Definition in_group (d : delim) (ps : list pat) (d' : delim) (l r : list tk) : mres (env * list tk) :=
  if delim_eqb d d' then
    match ended (match_seq parse ps l) with Match e => Match (e, r) | NoMatch => NoMatch | Fatal => Fatal end
  else NoMatch.

Lemma match_group_G d ps d' l r : match_pat parse (PGroup d ps) (G d' l :: r) = in_group d ps d' l r.
Proof.
  unfold in_group, ended. destruct (delim_eqb d d') eqn:E.
  - change (match_pat parse (PGroup d ps) (G d' l :: r)) with
      (if delim_eqb d d' then match match_seq parse ps l with
                              | Match (e, []) => Match (e, r) | Match (_, _ :: _) => NoMatch | NoMatch => NoMatch | Fatal => Fatal end
       else NoMatch). rewrite E. destruct (match_seq parse ps l) as [| |[e [|? ?]]]; reflexivity.
  - change (match_pat parse (PGroup d ps) (G d' l :: r)) with
      (if delim_eqb d d' then match match_seq parse ps l with
                              | Match (e, []) => Match (e, r) | Match (_, _ :: _) => NoMatch | NoMatch => NoMatch | Fatal => Fatal end
       else NoMatch). rewrite E. reflexivity.
Qed.

Lemma match_group_W d ps d' l r : match_pat parse (PGroup d ps) (W (TGroup d' l) :: r) = in_group d ps d' (map W l) r.
Proof.
  change (match_pat parse (PGroup d ps) (W (TGroup d' l) :: r)) with (match_pat parse (PGroup d ps) (G d' (map W l) :: r)).
  apply match_group_G.
Qed.

Definition repeated (xs : list string) (one : bool) (m : mres (list env * list tk)) : mres (env * list tk) :=
  match m with
  | Match ([], r) => if one then NoMatch else Match (collect xs [], r)
  | Match (es, r) => Match (collect xs es, r)
  | NoMatch => NoMatch
  | Fatal => Fatal
  end.

Lemma match_rep ps sep one ts : match_pat parse (PRep ps sep one) ts =
  repeated (flat_map pat_vars ps) one (times (match_seq parse ps) sep (S (length ts)) false ts).
Proof. reflexivity. Qed.

Lemma times_S m sep n b ts : times m sep (S n) b ts =
  match m ts with
  | Fatal => Fatal
  | NoMatch => if b then NoMatch else Match ([], ts)
  | Match (e, r) =>
      let more b r := match times m sep n b r with
                      | Match (es, r') => Match (e :: es, r')
                      | NoMatch => NoMatch
                      | Fatal => Fatal
                      end in
      match sep with
      | None => more false r
      | Some s => match next_is s r with Some r => more true r | None => Match ([e], r) end
      end
  end.
Proof. reflexivity. Qed.

(** [$($x:tt)*] takes everything. *)
Lemma times_tt x : forall ts n b, length ts < n -> b = false ->
  times (match_seq parse [PVar x "tt"]) None n b ts = Match (map (fun t => [(x, BOne t)]) ts, []).
Proof.
  induction ts as [|t ts IH]; intros n b Hn ->; (destruct n as [|n]; [lia|]); rewrite times_S; [reflexivity|].
  change (match_seq parse [PVar x "tt"] (t :: ts)) with (Match ([(x, BOne t)], ts) : mres (env * list tk)). cbv zeta beta iota.
  rewrite IH by (cbn in Hn; lia || reflexivity). reflexivity.
Qed.

Lemma collect_one x (ts : list tk) : collect [x] (map (fun t => [(x, BOne t)]) ts) = [(x, BMany (map BOne ts))].
Proof.
  unfold collect. cbn [map]. do 3 f_equal. induction ts as [|t ts IH]; [reflexivity|]. cbn [map flat_map find_var].
  rewrite String.eqb_refl, IH. reflexivity.
Qed.

Lemma match_tts x ts : match_pat parse (PRep [PVar x "tt"] None false) ts = Match ([(x, BMany (map BOne ts))], []).
Proof.
  rewrite match_rep, times_tt by (lia || reflexivity). cbn [flat_map pat_vars app]. rewrite <- collect_one.
  destruct ts; reflexivity.
Qed.

Lemma match_tts_one x ts : match_pat parse (PRep [PVar x "tt"] None true) ts =
  match ts with [] => NoMatch | _ => Match ([(x, BMany (map BOne ts))], []) end.
Proof.
  rewrite match_rep, times_tt by (lia || reflexivity). cbn [flat_map pat_vars app]. rewrite <- collect_one.
  destruct ts; reflexivity.
Qed.

(** Types the user has written. *)
Lemma fragment_ty l : fragment parse "ty" (map W l) =
  match parse l with NoStart => NoMatch | Syntax => Fatal | Parsed t r => Match (FTy t, map W r) end.
Proof.
  destruct l as [|t l].
  - change (fragment parse "ty" (map W [])) with
      (match parse [] with NoStart => NoMatch | Syntax => Fatal | Parsed t r => Match (FTy t, map W r ++ []) end).
    destruct (parse []); try reflexivity. rewrite app_nil_r. reflexivity.
  - change (fragment parse "ty" (map W (t :: l))) with
      (match parse (fst (raw (map W (t :: l)))) with NoStart => NoMatch | Syntax => Fatal
       | Parsed t' r => Match (FTy t', map W r ++ snd (raw (map W (t :: l)))) end).
    rewrite raw_W. cbn [fst snd]. destruct (parse (t :: l)); try reflexivity. rewrite app_nil_r. reflexivity.
Qed.

Definition ty_env (x : string) (t : rty) : env := [(x, BOne (FTy t))].

Lemma match_ty x l : match_seq parse [PVar x "ty"] (map W l) =
  match parse l with NoStart => NoMatch | Syntax => Fatal | Parsed t r => Match (ty_env x t, map W r) end.
Proof.
  change (match_seq parse [PVar x "ty"] (map W l)) with
    (then_match (match fragment parse "ty" (map W l) with Match (t, r) => Match ([(x, BOne t)], r) | NoMatch => NoMatch | Fatal => Fatal end)
       (match_seq parse [])).
  rewrite fragment_ty. destruct (parse l); reflexivity.
Qed.

Lemma next_comma l : next_is TComma (map W l) = match l with TComma :: r => Some (map W r) | _ => None end.
Proof. destruct l as [|[] l]; reflexivity. Qed.

Lemma times_types x : forall n k l, length l < n -> length l <= k ->
  ended (times (match_seq parse [PVar x "ty"]) (Some TComma) n true (map W l)) = mmap (map (ty_env x)) (types_n parse k l).
Proof.
  induction n as [|n IH]; intros k l Hn Hk; [lia|]. rewrite times_S, match_ty.
  destruct k as [|k].
  { destruct l; [|cbn in Hk; lia]. rewrite (proj1 Hp). reflexivity. }
  cbn [types_n]. destruct (parse l) as [| |t r] eqn:P; try reflexivity. cbv zeta beta iota. rewrite next_comma.
  pose proof (proj2 Hp _ _ _ P) as Hl.
  destruct r as [|[] r]; try reflexivity. cbn [length] in Hl.
  specialize (IH k r ltac:(lia) ltac:(lia)). revert IH.
  destruct (times (match_seq parse [PVar x "ty"]) (Some TComma) n true (map W r)) as [| |[es [|? ?]]];
    destruct (types_n parse k r); cbn [ended mmap]; intros E; try discriminate E; try reflexivity.
  injection E as ->. reflexivity.
Qed.

Definition tys_bnd (tys : list rty) : bnd := BMany (map BOne (map FTy tys)).

Lemma collect_types x tys : collect [x] (map (ty_env x) tys) = [(x, tys_bnd tys)].
Proof.
  unfold collect, tys_bnd. cbn [map]. do 3 f_equal. induction tys as [|t ts IH]; [reflexivity|]. cbn [map flat_map find_var ty_env].
  rewrite String.eqb_refl, IH. reflexivity.
Qed.

(** [$($x:ty),*]. *)
Lemma match_types x l : ended (match_seq parse [PRep [PVar x "ty"] (Some TComma) false] (map W l)) =
  mmap (fun tys => [(x, tys_bnd tys)]) (m_types parse l).
Proof.
  rewrite match_one, match_rep. cbn [flat_map pat_vars app]. unfold m_types. destruct l as [|c l].
  - rewrite times_S, (match_ty x []), (proj1 Hp). reflexivity.
  - rewrite map_length. rewrite times_S, match_ty. cbn [length types_n].
    destruct (parse (c :: l)) as [| |t r] eqn:P; try reflexivity. cbv zeta beta iota. rewrite next_comma.
    pose proof (proj2 Hp _ _ _ P) as Hl. cbn [length] in Hl.
    destruct r as [|[] r]; try reflexivity.
    + unfold repeated. change [ty_env x t] with (map (ty_env x) [t]). rewrite collect_types. reflexivity.
    + cbn [length] in Hl. pose proof (times_types x (S (length l)) (length l) r ltac:(lia) ltac:(lia)) as E. revert E.
      destruct (times (match_seq parse [PVar x "ty"]) (Some TComma) (S (length l)) true (map W r)) as [| |[es [|? ?]]];
        destruct (types_n parse (length l) r); cbn [ended mmap]; intros E; try discriminate E; try reflexivity.
      injection E as ->. unfold repeated. change (ty_env x t :: map (ty_env x) a) with (map (ty_env x) (t :: a)).
      rewrite collect_types. reflexivity.
Qed.

(** [$x:ty]. *)
Lemma match_one_type x l : ended (match_seq parse [PVar x "ty"] (map W l)) = mmap (fun t => [(x, BOne (FTy t))]) (m_one_type parse l).
Proof. rewrite match_ty. unfold m_one_type. destruct (parse l) as [| |t [|? ?]]; reflexivity. Qed.

(** [$m:ident: $x:ty]. *)
Definition mem_env (m x : string) (b : string * rty) : env := [(m, BOne (W (TId (fst b)))); (x, BOne (FTy (snd b)))].

Lemma match_member m x ps l : match_seq parse (PVar m "ident" :: PTok TColon :: PVar x "ty" :: ps) (map W l) =
  match l with
  | TId n :: TColon :: l =>
      match parse l with
      | NoStart => NoMatch
      | Syntax => Fatal
      | Parsed t r =>
          match match_seq parse ps (map W r) with
          | Match (e, r) => Match (mem_env m x (n, t) ++ e, r)
          | NoMatch => NoMatch
          | Fatal => Fatal
          end
      end
  | _ => NoMatch
  end.
Proof.
  destruct l as [|[n| | | | | | |] [|[] l]]; try reflexivity.
  change (match_seq parse (PVar m "ident" :: PTok TColon :: PVar x "ty" :: ps) (map W (TId n :: TColon :: l))) with
    (then_match (Match ([(m, BOne (W (TId n)))], map W (TColon :: l))) (match_seq parse ([PTok TColon] ++ [PVar x "ty"] ++ ps))).
  rewrite then_match_match, match_seq_app.
  change (match_seq parse [PTok TColon] (map W (TColon :: l))) with (Match ([], map W l) : mres (env * list tk)).
  rewrite then_match_match, match_seq_app, match_ty. destruct (parse l) as [| |t r]; try reflexivity. rewrite then_match_match.
  destruct (match_seq parse ps (map W r)) as [| |[e r']]; reflexivity.
Qed.

Lemma times_members m x : forall n k l, length l < n -> length l <= k ->
  ended (times (match_seq parse [PVar m "ident"; PTok TColon; PVar x "ty"]) (Some TComma) n true (map W l)) =
  mmap (map (mem_env m x)) (members_n parse k l).
Proof.
  induction n as [|n IH]; intros k l Hn Hk; [lia|]. rewrite times_S, match_member.
  destruct k as [|k].
  { destruct l; [|cbn in Hk; lia]. reflexivity. }
  cbn [members_n]. destruct l as [|[a| | | | | | |] [|[] l]]; try reflexivity.
  destruct (parse l) as [| |t r] eqn:P; try reflexivity. rewrite match_nil. cbv zeta beta iota. rewrite next_comma.
  pose proof (proj2 Hp _ _ _ P) as Hl. rewrite app_nil_r.
  destruct r as [|[] r]; try reflexivity. cbn [length] in *.
  specialize (IH k r ltac:(lia) ltac:(lia)). revert IH.
  destruct (times (match_seq parse [PVar m "ident"; PTok TColon; PVar x "ty"]) (Some TComma) n true (map W r)) as [| |[es [|? ?]]];
    destruct (members_n parse k r); cbn [ended mmap]; intros E; try discriminate E; try reflexivity.
  injection E as ->. reflexivity.
Qed.

Definition names_bnd (ms : list (string * rty)) : bnd := BMany (map BOne (map (fun b => W (TId (fst b))) ms)).
Definition mtys_bnd (ms : list (string * rty)) : bnd := BMany (map BOne (map (fun b => FTy (snd b)) ms)).

Lemma collect_members m x (ms : list (string * rty)) : m <> x -> collect [m; x] (map (mem_env m x) ms) = [(m, names_bnd ms); (x, mtys_bnd ms)].
Proof.
  intros N. unfold collect, names_bnd, mtys_bnd. cbn [map].
  assert (E1 : String.eqb m m = true) by apply String.eqb_refl.
  assert (E2 : String.eqb x x = true) by apply String.eqb_refl.
  assert (E3 : String.eqb x m = false) by (apply String.eqb_neq; congruence).
  f_equal; [|f_equal]; do 2 f_equal; induction ms as [|b ms IH]; try reflexivity; cbn [map flat_map find_var mem_env];
    rewrite ?E1, ?E3, ?E2, IH; reflexivity.
Qed.

Definition members_env (m x : string) (ms : list (string * rty)) : env := [(m, names_bnd ms); (x, mtys_bnd ms)].

(** [$($m:ident: $x:ty),*]. *)
Lemma match_members m x l : m <> x ->
  ended (match_seq parse [PRep [PVar m "ident"; PTok TColon; PVar x "ty"] (Some TComma) false] (map W l)) =
  mmap (members_env m x) (m_members parse l).
Proof.
  intros N. rewrite match_one, match_rep. cbn [flat_map pat_vars app]. unfold m_members. destruct l as [|c l].
  - reflexivity.
  - rewrite map_length. rewrite times_S, match_member. cbn [length members_n].
    destruct c; try reflexivity. destruct l as [|[] l]; try reflexivity. cbn [length].
    destruct (parse l) as [| |t r] eqn:P; try reflexivity. rewrite match_nil. cbv zeta beta iota. rewrite app_nil_r, next_comma.
    pose proof (proj2 Hp _ _ _ P) as Hl.
    destruct r as [|[] r]; try reflexivity.
    + unfold repeated. change [mem_env m x (s, t)] with (map (mem_env m x) [(s, t)]). rewrite collect_members by exact N. reflexivity.
    + cbn [length] in Hl. pose proof (times_members m x (S (S (length l))) (S (length l)) r ltac:(lia) ltac:(lia)) as E. revert E.
      destruct (times (match_seq parse [PVar m "ident"; PTok TColon; PVar x "ty"]) (Some TComma) (S (S (length l))) true (map W r)) as [| |[es [|? ?]]];
        destruct (members_n parse (S (length l)) r); cbn [ended mmap]; intros E; try discriminate E; try reflexivity.
      injection E as ->. unfold repeated. change (mem_env m x (s, t) :: map (mem_env m x) a) with (map (mem_env m x) ((s, t) :: a)).
      rewrite collect_members by exact N. reflexivity.
Qed.

Lemma times_members_comma m x : forall n k l, length l < n -> length l <= k ->
  ended (times (match_seq parse [PVar m "ident"; PTok TColon; PVar x "ty"; PTok TComma]) None n false (map W l)) =
  mmap (map (mem_env m x)) (members_comma_n parse k l).
Proof.
  induction n as [|n IH]; intros k l Hn Hk; [lia|]. rewrite times_S, match_member.
  destruct l as [|c l]; [destruct k; reflexivity|]. destruct k as [|k]; [cbn in Hk; lia|].
  cbn [members_comma_n]. destruct c; try reflexivity. destruct l as [|[] l]; try reflexivity.
  destruct (parse l) as [| |t r] eqn:P; try reflexivity.
  pose proof (proj2 Hp _ _ _ P) as Hl.
  change (match_seq parse [PTok TComma] (map W r)) with
    (then_match (match next_is TComma (map W r) with Some r => Match ([], r) | None => NoMatch end) (match_seq parse [])).
  rewrite next_comma. destruct r as [|[] r]; try reflexivity. rewrite then_match_match, match_nil. cbv zeta beta iota. cbn [length app] in Hl, Hn, Hk. rewrite app_nil_r.
  specialize (IH k r ltac:(lia) ltac:(lia)). revert IH.
  destruct (times (match_seq parse [PVar m "ident"; PTok TColon; PVar x "ty"; PTok TComma]) None n false (map W r)) as [| |[es [|? ?]]];
    destruct (members_comma_n parse k r); cbn [ended mmap]; intros E; try discriminate E; try reflexivity.
  injection E as ->. reflexivity.
Qed.

(** [$($m:ident: $x:ty,)*]. *)
Lemma match_members_comma m x l : m <> x ->
  ended (match_seq parse [PRep [PVar m "ident"; PTok TColon; PVar x "ty"; PTok TComma] None false] (map W l)) =
  mmap (members_env m x) (m_members_comma parse l).
Proof.
  intros N. rewrite match_one, match_rep. cbn [flat_map pat_vars app]. unfold m_members_comma.
  pose proof (times_members_comma m x (S (length l)) (length l) l ltac:(lia) ltac:(lia)) as E. rewrite map_length. revert E.
  destruct (times (match_seq parse [PVar m "ident"; PTok TColon; PVar x "ty"; PTok TComma]) None (S (length l)) false (map W l)) as [| |[es r]];
    destruct (members_comma_n parse (length l) l) as [| |ms]; cbn [ended mmap]; intros E; try discriminate E; try reflexivity.
  - destruct es, r; try discriminate E; reflexivity.
  - destruct r; discriminate E.
  - destruct r; [|discriminate E]. injection E as ->. unfold repeated, members_env. rewrite <- (collect_members m x ms N). destruct ms; reflexivity.
Qed.

(** ** The variants *)

Definition rest_bnd (ts : list tree) : bnd := BMany (map BOne (map W ts)).

(** After the variant: a comma and the rest. *)
Lemma match_after_variant r ts : match_seq parse [PTok TComma; PRep [PVar r "tt"] None false] (map W ts) =
  match ts with TComma :: ts => Match ([(r, rest_bnd ts)], []) | _ => NoMatch end.
Proof.
  destruct ts as [|[] ts]; try reflexivity.
  change (match_seq parse [PTok TComma; PRep [PVar r "tt"] None false] (map W (TComma :: ts))) with
    (then_match (Match ([], map W ts)) (fun ts => then_match (match_pat parse (PRep [PVar r "tt"] None false) ts) (match_seq parse []))).
  cbn [then_match]. rewrite match_tts. reflexivity.
Qed.

Lemma match_name v ps ts : match_seq parse (PVar v "ident" :: ps) (map W ts) =
  match ts with TId s :: ts => then_match (Match ([(v, BOne (W (TId s)))], map W ts)) (match_seq parse ps) | _ => NoMatch end.
Proof. destruct ts as [|[] ts]; reflexivity. Qed.

Lemma match_body d ps q ts : match_seq parse (PGroup d ps :: q) (map W ts) =
  match ts with
  | TGroup d' l :: ts => then_match (in_group d ps d' (map W l) (map W ts)) (match_seq parse q)
  | _ => NoMatch
  end.
Proof. destruct ts as [|t ts]; [reflexivity|]. destruct t; try reflexivity. cbn [match_seq map]. rewrite match_group_W. reflexivity. Qed.

Definition to_env {A} (f : A -> env) (m : mres A) : mres (env * list tk) :=
  match m with Match a => Match (f a, []) | NoMatch => NoMatch | Fatal => Fatal end.

Definition single_env (v ty r : string) (a : string * rty * list tree) : env :=
  let '(n, t, rest) := a in [(v, BOne (W (TId n))); (ty, BOne (FTy t)); (r, rest_bnd rest)].
Lemma match_single v ty r ts :
  match_seq parse [PVar v "ident"; PGroup Paren [PVar ty "ty"]; PTok TComma; PRep [PVar r "tt"] None false] (map W ts) =
  to_env (single_env v ty r) (p_single parse ts).
Proof.
  rewrite match_name. destruct ts as [|[n| | | | | | |] ts]; try reflexivity. rewrite then_match_match, match_body.
  destruct ts as [|[| | | | | | |d l] ts]; try reflexivity. destruct d; try reflexivity.
  unfold in_group. cbn [delim_eqb]. rewrite match_one_type. cbn [p_single]. unfold then_rest.
  destruct (m_one_type parse l) as [| |t]; try reflexivity. cbn [mmap]. rewrite then_match_match, match_after_variant.
  destruct ts as [|[] ts]; reflexivity.
Qed.

Definition tuple_env (v ty r : string) (a : string * list rty * list tree) : env :=
  let '(n, t, rest) := a in [(v, BOne (W (TId n))); (ty, tys_bnd t); (r, rest_bnd rest)].
Lemma match_tuple v ty r ts :
  match_seq parse [PVar v "ident"; PGroup Paren [PRep [PVar ty "ty"] (Some TComma) false]; PTok TComma; PRep [PVar r "tt"] None false] (map W ts) =
  to_env (tuple_env v ty r) (p_tuple parse ts).
Proof.
  rewrite match_name. destruct ts as [|[n| | | | | | |] ts]; try reflexivity. rewrite then_match_match, match_body.
  destruct ts as [|[| | | | | | |d l] ts]; try reflexivity. destruct d; try reflexivity.
  unfold in_group. cbn [delim_eqb]. rewrite match_types. cbn [p_tuple]. unfold then_rest.
  destruct (m_types parse l) as [| |t]; try reflexivity. cbn [mmap]. rewrite then_match_match, match_after_variant.
  destruct ts as [|[] ts]; reflexivity.
Qed.

Definition struct_env (v m ty r : string) (a : string * list (string * rty) * list tree) : env :=
  let '(n, ms, rest) := a in [(v, BOne (W (TId n))); (m, names_bnd ms); (ty, mtys_bnd ms); (r, rest_bnd rest)].
Lemma match_struct v m ty r ts : m <> ty ->
  match_seq parse [PVar v "ident"; PGroup Brace [PRep [PVar m "ident"; PTok TColon; PVar ty "ty"] (Some TComma) false]; PTok TComma; PRep [PVar r "tt"] None false] (map W ts) =
  to_env (struct_env v m ty r) (p_struct parse ts).
Proof.
  intros N. rewrite match_name. destruct ts as [|[n| | | | | | |] ts]; try reflexivity. rewrite then_match_match, match_body.
  destruct ts as [|[| | | | | | |d l] ts]; try reflexivity. destruct d; try reflexivity.
  unfold in_group. cbn [delim_eqb]. rewrite match_members by exact N. cbn [p_struct]. unfold then_rest.
  destruct (m_members parse l) as [| |t]; try reflexivity. cbn [mmap]. rewrite then_match_match, match_after_variant.
  destruct ts as [|[] ts]; reflexivity.
Qed.
Lemma match_struct_comma v m ty r ts : m <> ty ->
  match_seq parse [PVar v "ident"; PGroup Brace [PRep [PVar m "ident"; PTok TColon; PVar ty "ty"; PTok TComma] None false]; PTok TComma; PRep [PVar r "tt"] None false] (map W ts) =
  to_env (struct_env v m ty r) (p_struct_comma parse ts).
Proof.
  intros N. rewrite match_name. destruct ts as [|[n| | | | | | |] ts]; try reflexivity. rewrite then_match_match, match_body.
  destruct ts as [|[| | | | | | |d l] ts]; try reflexivity. destruct d; try reflexivity.
  unfold in_group. cbn [delim_eqb]. rewrite match_members_comma by exact N. cbn [p_struct_comma]. unfold then_rest.
  destruct (m_members_comma parse l) as [| |t]; try reflexivity. cbn [mmap]. rewrite then_match_match, match_after_variant.
  destruct ts as [|[] ts]; reflexivity.
Qed.

Definition unit_env (v r : string) (a : string * list tree) : env := [(v, BOne (W (TId (fst a)))); (r, rest_bnd (snd a))].
Lemma match_unit v r ts :
  match_seq parse [PVar v "ident"; PTok TComma; PRep [PVar r "tt"] None false] (map W ts) = to_env (unit_env v r) (p_unit ts).
Proof.
  rewrite match_name. destruct ts as [|[n| | | | | | |] ts]; try reflexivity. rewrite then_match_match, match_after_variant.
  destruct ts as [|[] ts]; reflexivity.
Qed.

(** A pattern whose first part fits. *)
Lemma match_prefix pre suf toks e X : match_seq parse pre (toks ++ X) = Match (e, X) ->
  match_all parse (pre ++ suf) (toks ++ X) = match ended (match_seq parse suf X) with Match e' => Match (e ++ e') | NoMatch => NoMatch | Fatal => Fatal end.
Proof.
  intros H. rewrite match_all_ended, match_seq_app, H, then_match_match.
  destruct (match_seq parse suf X) as [| |[e' [|? ?]]]; reflexivity.
Qed.

Lemma ended_to_env {A} (f : A -> env) m : ended (to_env f m) = mmap f m.
Proof. destruct m; reflexivity. Qed.

End Matching.

(** ** Writing *)

Lemma all_some_ext {A B} (F : nat -> option B) (g : A -> B) (l : list A) :
  (forall k a, nth_error l k = Some a -> F k = Some (g a)) -> all_some (map F (seq 0 (length l))) = Some (map g l).
Proof.
  revert F. induction l as [|a l IH]; intros F H; [reflexivity|]. cbn [length seq map].
  rewrite (H 0 a) by reflexivity. cbn [all_some]. rewrite <- seq_shift, map_map, (IH (fun k => F (S k))).
  - reflexivity.
  - intros k b Hk. apply H. exact Hk.
Qed.

Lemma write_rep_gen {A} l sep e (ls : list A) (g : A -> list tk) :
  how_often (flat_map tmpl_vars l) e = Some (length ls) ->
  (forall k a, nth_error ls k = Some a -> write_seq l (kth (flat_map tmpl_vars l) e k) = Some (g a)) ->
  write (TRep l sep) e = Some (separated (match sep with Some s => [W s] | None => [] end) (map g ls)).
Proof.
  intros H1 H2.
  change (write (TRep l sep) e) with
    (match how_often (flat_map tmpl_vars l) e with
     | Some n => option_map (separated (match sep with Some s => [W s] | None => [] end))
         (all_some (map (fun k => write_seq l (kth (flat_map tmpl_vars l) e k)) (List.seq 0 n)))
     | None => None end).
  rewrite H1, (all_some_ext _ g ls H2). reflexivity.
Qed.

Lemma find_kth x xs e k : find_var x (kth xs e k) =
  match find_var x e with
  | Some (BMany l) => Some (if existsb (String.eqb x) xs then nth k l (BMany []) else BMany l)
  | o => o
  end.
Proof.
  induction e as [|[y b] e IH]; [reflexivity|]. cbn [kth map find_var]. fold (kth xs e k). destruct b as [t|l].
  - cbn [find_var]. destruct (String.eqb x y); [reflexivity|exact IH].
  - destruct (String.eqb x y) eqn:E.
    + apply String.eqb_eq in E. subst y. destruct (existsb (String.eqb x) xs); cbn [find_var]; rewrite String.eqb_refl; reflexivity.
    + destruct (existsb (String.eqb y) xs); cbn [find_var]; rewrite E; exact IH.
Qed.

Lemma nth_bones {A} (f : A -> tk) l k a : nth_error l k = Some a -> nth k (map BOne (map f l)) (BMany []) = BOne (f a).
Proof.
  revert k. induction l as [|b l IH]; intros [|k] H; try discriminate H; cbn in *; [injection H as ->; reflexivity|]. apply IH. exact H.
Qed.

Definition sep_tks (sep : option tree) : list tk := match sep with Some s => [W s] | None => [] end.

(** [$($x)*]. *)
Lemma write_one x sep e (ts : list tk) : find_var x e = Some (BMany (map BOne ts)) ->
  write (TRep [TVar x] sep) e = Some (separated (sep_tks sep) (map (fun t => [t]) ts)).
Proof.
  intros H. apply (write_rep_gen [TVar x] sep e ts (fun t => [t])).
  - cbn [flat_map tmpl_vars app how_often]. rewrite H, map_length. reflexivity.
  - intros k t Hk. cbn [flat_map tmpl_vars app write_seq write]. rewrite find_kth, H. cbn [existsb]. rewrite String.eqb_refl. cbn [orb].
    rewrite <- (map_id ts) in Hk |- *. rewrite map_id in Hk. rewrite (nth_bones (fun t => t) ts k t Hk). reflexivity.
Qed.

Lemma write_tts x e (ts : list tk) : find_var x e = Some (BMany (map BOne ts)) -> write (TRep [TVar x] None) e = Some ts.
Proof. intros H. rewrite (write_one x None e ts H). cbn [sep_tks]. rewrite separated_nil, concat_single. reflexivity. Qed.

Lemma write_rest x e (ts : list tree) : find_var x e = Some (rest_bnd ts) -> write (TRep [TVar x] None) e = Some (map W ts).
Proof. apply write_tts. Qed.

Lemma write_list {A} (f : A -> tk) x sep e (l : list A) : find_var x e = Some (BMany (map BOne (map f l))) ->
  write (TRep [TVar x] sep) e = Some (separated (sep_tks sep) (map (fun a => [f a]) l)).
Proof. intros H. rewrite (write_one x sep e (map f l) H), map_map. reflexivity. Qed.

(** [$($x,)*]. *)
Lemma write_list_then {A} (f : A -> tk) x t e (l : list A) : find_var x e = Some (BMany (map BOne (map f l))) ->
  write (TRep [TVar x; TTok t] None) e = Some (flat_map (fun a => [f a; W t]) l).
Proof.
  intros H. rewrite (write_rep_gen [TVar x; TTok t] None e l (fun a => [f a; W t])).
  - rewrite separated_nil, <- flat_map_concat_map. reflexivity.
  - cbn [flat_map tmpl_vars app how_often]. rewrite H, !map_length. reflexivity.
  - intros k a Hk. cbn [flat_map tmpl_vars app write_seq write]. rewrite find_kth, H. cbn [existsb]. rewrite String.eqb_refl. cbn [orb].
    rewrite (nth_bones f l k a Hk). reflexivity.
Qed.

(** [$( # [$x] )*]. *)
Lemma write_list_attr {A} (f : A -> tk) x e (l : list A) : find_var x e = Some (BMany (map BOne (map f l))) ->
  write (TRep [TTok (TOp "#"); TGrp Bracket [TVar x]] None) e = Some (flat_map (fun a => [W (TOp "#"); G Bracket [f a]]) l).
Proof.
  intros H. rewrite (write_rep_gen [TTok (TOp "#"); TGrp Bracket [TVar x]] None e l (fun a => [W (TOp "#"); G Bracket [f a]])).
  - rewrite separated_nil, <- flat_map_concat_map. reflexivity.
  - cbn [flat_map tmpl_vars app how_often]. rewrite H, !map_length. reflexivity.
  - intros k a Hk. cbn [flat_map tmpl_vars app write_seq write]. rewrite find_kth, H. cbn [existsb]. rewrite String.eqb_refl. cbn [orb].
    rewrite (nth_bones f l k a Hk). reflexivity.
Qed.

(** [$( m!($x) ),*]. *)
Lemma write_list_call {A} (f : A -> tk) x c m d sep e (l : list A) : find_var x e = Some (BMany (map BOne (map f l))) ->
  write (TRep [TCall c m d [TVar x]] sep) e = Some (separated (sep_tks sep) (map (fun a => [C c m d [f a]]) l)).
Proof.
  intros H. apply (write_rep_gen [TCall c m d [TVar x]] sep e l (fun a => [C c m d [f a]])).
  - cbn [flat_map tmpl_vars app how_often]. rewrite H, !map_length. reflexivity.
  - intros k a Hk. cbn [flat_map tmpl_vars app write_seq write]. rewrite find_kth, H. cbn [existsb]. rewrite String.eqb_refl. cbn [orb].
    rewrite (nth_bones f l k a Hk). reflexivity.
Qed.

(** [$( $m: $x ),*]. *)
Lemma write_pairs {A} (f g : A -> tk) m x t sep e (l : list A) :
  find_var m e = Some (BMany (map BOne (map f l))) -> find_var x e = Some (BMany (map BOne (map g l))) ->
  write (TRep [TVar m; TTok t; TVar x] sep) e = Some (separated (sep_tks sep) (map (fun a => [f a; W t; g a]) l)).
Proof.
  intros H1 H2. apply (write_rep_gen [TVar m; TTok t; TVar x] sep e l (fun a => [f a; W t; g a])).
  - cbn [flat_map tmpl_vars app how_often]. rewrite H1, H2, !map_length, Nat.eqb_refl. reflexivity.
  - intros k a Hk. cbn [flat_map tmpl_vars app write_seq write]. rewrite !find_kth, H1, H2. cbn [existsb].
    rewrite !String.eqb_refl, orb_true_r. cbn [orb].
    rewrite (nth_bones f l k a Hk), (nth_bones g l k a Hk). reflexivity.
Qed.

Lemma write_cons t l e a b : write t e = Some a -> write_seq l e = Some b -> write_seq (t :: l) e = Some (a ++ b).
Proof. intros H1 H2. cbn [write_seq]. rewrite H1, H2. reflexivity. Qed.
Lemma write_nil e : write_seq [] e = Some [].
Proof. reflexivity. Qed.
Lemma write_tok t e : write (TTok t) e = Some [W t].
Proof. reflexivity. Qed.
Lemma write_var x e t : find_var x e = Some (BOne t) -> write (TVar x) e = Some [t].
Proof. intros H. cbn [write]. rewrite H. reflexivity. Qed.
Lemma write_grp d l e o : write_seq l e = Some o -> write (TGrp d l) e = Some [G d o].
Proof.
  intros H. change (write (TGrp d l) e) with (option_map (fun l => [G d l]) (write_seq l e)). rewrite H. reflexivity.
Qed.
Lemma write_call c m d l e o : write_seq l e = Some o -> write (TCall c m d l) e = Some [C c m d o].
Proof.
  intros H. change (write (TCall c m d l) e) with (option_map (fun l => [C c m d l]) (write_seq l e)). rewrite H. reflexivity.
Qed.

Lemma write_toks l e : write_seq (map TTok l) e = Some (map W l).
Proof. induction l as [|t l IH]; [reflexivity|]. cbn [map]. apply (write_cons (TTok t) _ e [W t]); [reflexivity|exact IH]. Qed.

(** Writes out a right-hand side; the lists behind the variables may be unknown. *)
Ltac write_with find :=
  lazymatch goal with
  | |- write_seq [] _ = Some _ => exact (write_nil _)
  | |- write_seq (map TTok _) _ = Some _ => exact (write_toks _ _)
  | |- write_seq (_ :: _) _ = Some _ => eapply write_cons; [write_with find | write_with find]
  | |- write (TTok _) _ = Some _ => exact (write_tok _ _)
  | |- write (TVar _) _ = Some _ => eapply write_var; find
  | |- write (TGrp _ _) _ = Some _ => eapply write_grp; write_with find
  | |- write (TCall _ _ _ _) _ = Some _ => eapply write_call; write_with find
  | |- write (TRep [TVar ?x] None) ?e = Some _ => eapply write_tts; find
  | |- write (TRep [TVar ?x] _) ?e = Some _ => eapply write_list; find
  | |- write (TRep [TVar ?x; TTok ?t; TVar ?y] _) ?e = Some _ => eapply write_pairs; find
  | |- write (TRep [TVar ?x; TTok _] None) ?e = Some _ => eapply write_list_then; find
  | |- write (TRep [TTok (TOp "#"); TGrp Bracket [TVar ?x]] None) ?e = Some _ => eapply write_list_attr; find
  | |- write (TRep [TCall _ _ _ [TVar _]] _) ?e = Some _ => eapply write_list_call; find
  end.
Ltac write_it := write_with ltac:(reflexivity).

(** One arm of a macro. *)
Lemma apply_cons parse p r rs args : apply_rules parse (Rule p r :: rs) args =
  arm (match_all parse p args) (fun e => match write_seq r e with Some o => Done o | None => Error end) (apply_rules parse rs args).
Proof. cbn [apply_rules r_pat r_rhs]. unfold arm. destruct (match_all parse p args); reflexivity. Qed.

(** The collected arms are in brackets. *)
Lemma match_finished parse x suf fin X :
  match_seq parse (PGroup Bracket [PRep [PVar x "tt"] None false] :: suf) (G Bracket fin :: X) =
  then_match (Match ([(x, BMany (map BOne fin))], X)) (match_seq parse suf).
Proof.
  change (match_seq parse (PGroup Bracket [PRep [PVar x "tt"] None false] :: suf) (G Bracket fin :: X)) with
    (then_match (match_pat parse (PGroup Bracket [PRep [PVar x "tt"] None false]) (G Bracket fin :: X)) (match_seq parse suf)).
  rewrite match_group_G. unfold in_group. cbn [delim_eqb]. rewrite match_one, match_tts, then_match_match, match_nil. cbn [ended].
  rewrite app_nil_r. reflexivity.
Qed.

(** An arm [prefix [$($x:tt)*] variant, $($rest:tt)*]. *)
Lemma match_muncher {A} parse pre x suf toks e fin ts (f : A -> env) m :
  (forall Y, match_seq parse pre (toks ++ Y) = Match (e, Y)) ->
  match_seq parse suf (map W ts) = to_env f m ->
  match_all parse (pre ++ PGroup Bracket [PRep [PVar x "tt"] None false] :: suf) (toks ++ G Bracket fin :: map W ts) =
  mmap (fun a => e ++ (x, BMany (map BOne fin)) :: f a) m.
Proof.
  intros H1 H2. rewrite match_all_ended, match_seq_app, H1, then_match_match, match_finished, then_match_match, H2.
  destruct m; reflexivity.
Qed.

(** The same without brackets. *)
Lemma match_muncher0 {A} parse pre suf toks e ts (f : A -> env) m :
  (forall Y, match_seq parse pre (toks ++ Y) = Match (e, Y)) ->
  match_seq parse suf (map W ts) = to_env f m ->
  match_all parse (pre ++ suf) (toks ++ map W ts) = mmap (fun a => e ++ f a) m.
Proof.
  intros H1 H2. rewrite match_all_ended, match_seq_app, H1, then_match_match, H2. destruct m; reflexivity.
Qed.

Lemma match_end parse ts : match_seq parse [] (map W ts) = Match ([], map W ts).
Proof. reflexivity. Qed.

(** The last arm, [prefix [$($x:tt)*]]. *)
Lemma match_last parse pre x toks e fin ts :
  (forall Y, match_seq parse pre (toks ++ Y) = Match (e, Y)) ->
  match_all parse (pre ++ [PGroup Bracket [PRep [PVar x "tt"] None false]]) (toks ++ G Bracket fin :: map W ts) =
  mmap (fun _ => e ++ [(x, BMany (map BOne fin))]) (p_end ts).
Proof.
  intros H1. rewrite match_all_ended, match_seq_app, H1, then_match_match, match_finished, then_match_match, match_nil.
  destruct ts; reflexivity.
Qed.

Lemma arm_mmap {A B D} (f : A -> D) (m : mres A) (rhs : D -> exp B) z : arm (mmap f m) rhs z = arm m (fun a => rhs (f a)) z.
Proof. destruct m; reflexivity. Qed.

(** All arms together. *)
Lemma munch5 {B} parse ts (single : string -> rty -> list tree -> exp B) (tuple : string -> list rty -> list tree -> exp B)
    (struct : string -> list (string * rty) -> list tree -> exp B) (unit : string -> list tree -> exp B) (stop stuck : exp B) : parser_ok parse ->
  arm (p_single parse ts) (fun '(v, t, rest) => single v t rest)
    (arm (p_tuple parse ts) (fun '(v, tys, rest) => tuple v tys rest)
      (arm (p_struct parse ts) (fun '(v, ms, rest) => struct v ms rest)
        (arm (p_struct_comma parse ts) (fun '(v, ms, rest) => struct v ms rest)
          (arm (p_unit ts) (fun '(v, rest) => unit v rest)
            (arm (p_end ts) (fun _ => stop) stuck))))) =
  match step parse ts with
  | SVar v (KTuple [t]) rest => single v t rest
  | SVar v (KTuple tys) rest => tuple v tys rest
  | SVar v (KStruct ms) rest => struct v ms rest
  | SVar v KUnit rest => unit v rest
  | SEnd => stop
  | SStuck => stuck
  | SFatal => Error
  end.
Proof.
  intros Hp. unfold step, arm. destruct (p_single parse ts) as [| |[[v t] rest]] eqn:P0.
  - destruct (p_tuple parse ts) as [| |[[v tys] rest]] eqn:P1; try reflexivity.
    + destruct (p_struct parse ts) as [| |[[? ?] ?]]; try reflexivity.
      destruct (p_struct_comma parse ts) as [| |[[? ?] ?]]; try reflexivity.
      destruct (p_unit ts) as [| |[? ?]]; try reflexivity. destruct ts; reflexivity.
    + pose proof (single_not parse Hp _ _ _ _ P0 P1) as N. destruct tys as [|? [|? ?]]; try reflexivity. contradiction N; reflexivity.
  - rewrite (single_fatal parse Hp _ P0). reflexivity.
  - rewrite (single_match parse Hp _ _ _ _ P0). reflexivity.
Qed.

Lemma munch4 {B} parse ts (tuple : string -> list rty -> list tree -> exp B)
    (struct : string -> list (string * rty) -> list tree -> exp B) (unit : string -> list tree -> exp B) (stop stuck : exp B) :
  arm (p_tuple parse ts) (fun '(v, tys, rest) => tuple v tys rest)
    (arm (p_struct parse ts) (fun '(v, ms, rest) => struct v ms rest)
      (arm (p_struct_comma parse ts) (fun '(v, ms, rest) => struct v ms rest)
        (arm (p_unit ts) (fun '(v, rest) => unit v rest)
          (arm (p_end ts) (fun _ => stop) stuck)))) =
  match step parse ts with
  | SVar v (KTuple tys) rest => tuple v tys rest
  | SVar v (KStruct ms) rest => struct v ms rest
  | SVar v KUnit rest => unit v rest
  | SEnd => stop
  | SStuck => stuck
  | SFatal => Error
  end.
Proof.
  unfold step, arm. destruct (p_tuple parse ts) as [| |[[v tys] rest]]; try reflexivity.
  destruct (p_struct parse ts) as [| |[[? ?] ?]]; try reflexivity.
  destruct (p_struct_comma parse ts) as [| |[[? ?] ?]]; try reflexivity.
  destruct (p_unit ts) as [| |[? ?]]; try reflexivity. destruct ts; reflexivity.
Qed.
