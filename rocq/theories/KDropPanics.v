(** The client programs of [Containers.v] with destructors that may panic, by the rules of [DropPanics.v].

    The functions are those of [Macro.v] and [Box.v], with the places where the generated code [/repo/src/tagged_box_macro/mod.rs:739-831],
    [/repo/src/tagged_box.rs:515-531] and their clients run destructors. The user's impls ([Containers.impls]) may destroy what they like,
    they just return or panic. Simplified: a client of an enum with a [Drop] impl of its own sees that impl's panics only in
    [into_tagged_box] and when it drops a value, not when it looks at a unit variant; [d_ref] is what happens then. *)
From Coq Require Import NArith String Bool List.
From Verif Require Import Words Config Pointer Fmt Mem Box Macro Session Containers DropPanics.
Import ListNotations.
Local Open Scope N_scope.
Local Open Scope d_scope.

Section Client.
Variable E : env.
Variable x : expansion.
Variable I : impls.
(** As in [DropPanics.v]: does the destructor of this value panic, run in this state?
    For the destructors of the field types and of the enum of [/repo/src/tagged_box_macro/mod.rs:14-20]. *)
Variable fussy : st -> string -> leafval -> bool.

(** ** The generated functions *)

(** The user's [Drop] for the enum, as [Macro.enum_drop]. For [self] in [/repo/src/tagged_box_macro/mod.rs:784-790] and the unit arm [480-497]. *)
Definition d_enum_drop (v : evalue) : DM unit := fun unwinding s =>
  let s' := log (enum_drop x v) s in
  if fussy s (x_name x) (concat (ev_fields v)) then draise (InDrop (x_name x) (concat (ev_fields v))) unwinding s' else DOk tt s'.

(** As [Macro.at_exit]. For [self] in [/repo/src/tagged_box_macro/mod.rs:784-790] and the unit arm [480-497]. *)
Definition d_at_exit {A} (b : bool) (v : evalue) (m : DM A) : DM A := if b then finally m (d_enum_drop v) else m.

(** As [Macro.drop_evalue]; the fields are destroyed even if the user's [Drop] panics.
    Rust's drop glue of the enum of [/repo/src/tagged_box_macro/mod.rs:14-20], for client code. *)
Definition d_drop_evalue (v : evalue) : DM unit :=
  let tys := match assoc (ev_variant v) (x_enum x) with Some k => kind_types k | None => [] end in
  if x_drop x then finally (d_enum_drop v) (d_drop_fields fussy tys (ev_fields v)) else d_drop_fields fussy tys (ev_fields v).

(** As [Macro.run_into_body]: [/repo/src/tagged_box_macro/mod.rs:40-95] and [/repo/src/tagged_box_macro/meta_macros.rs:445-915]. *)
Definition d_into_body (b : into_body) (binds : list (string * leafval)) (tag : N) : DM tagged_ptr :=
  match b with
  | INewLeaf t arg => vs <- plainly (resolved (lookup_all [arg] binds)) ;; d_new E fussy (leaf_hty t) vs tag
  | INewTuple tys args => vs <- plainly (resolved (lookup_all args binds)) ;; d_new E fussy (reprC tys) vs tag
  | INewStruct ms lit =>
      vals <- plainly (resolved (lookup_all lit binds)) ;;
      vs <- plainly (resolved (lookup_all (map fst ms) (combine lit vals))) ;;
      d_new E fussy (reprC (map snd ms)) vs tag
  | IDangling => dret (tb_dangling E (x_align x) tag)
  end.

(** As [Macro.macro_into]: [/repo/src/tagged_box_macro/mod.rs:784-790]. *)
Definition d_into (v : evalue) : DM tagged_ptr :=
  d_at_exit (x_drop x) v (
    a <- plainly (resolved (find_into (ev_variant v) (x_into x))) ;;
    binds <- plainly (resolved (bind_pattern x (ia_pat a) v)) ;;
    tag <- plainly (resolved (eval_tag x (ia_tag a))) ;;
    d_into_body (ia_body a) binds tag).

(** As [Macro.match_disc]: [/repo/src/tagged_box_macro/mod.rs:254-260], [361-376], [499-514]. *)
Fixpoint d_match_disc {A} (d : N) (arms : list read_arm) (body : read_arm -> DM A) (default : DM A) : DM A :=
  match arms with
  | [] => default
  | a :: r =>
      tag <- plainly (resolved (eval_tag x (ra_tag a))) ;;
      if d =? tag then body a else d_match_disc d r body default
  end.

(** As [Macro.macro_ref]: [/repo/src/tagged_box_macro/mod.rs:812-829] and [499-514]. *)
Definition d_ref (S : Type) (w : tagged_ptr) (callback : evalue -> S -> DM S) (captured : S) : DM S :=
  d_match_disc (tb_discriminant E w) (x_ref x)
    (fun a =>
       variant <- plainly (run_build E x (fun H => read_at H (tb_as_ptr E w)) (ra_variant a) (ra_build a)) ;;
       d_at_exit (x_drop x && negb (ra_guarded a)) variant (callback variant captured))
    (draise (InCrate (PanicNoVariantRef (x_total x) (tb_discriminant E w)))).

(** As [Macro.container_from_payload]: [/repo/src/tagged_box_macro/mod.rs:108-118] and [124-135]. *)
Definition d_from_payload (f : from_impl) (vals : hval) : DM tagged_ptr :=
  match f with
  | FromLeaf _ v => d_into (EV v vals)
  | FromTuple _ v idx => vs <- plainly (resolved (project vals idx)) ;; d_into (EV v vs)
  end.

(** As [Box.tb_clone]: [/repo/src/tagged_box.rs:515-531]; the clone is destroyed if it cannot be stored. *)
Definition d_clone (w : tagged_ptr) : DM tagged_ptr :=
  output <- plainly (macro_ref E x (option evalue) w (fun this _ => bind (i_clone I this) (fun c => ret (Some c))) None) ;;
  match output with
  | None => draise (InCrate PanicCloneExpect)
  | Some v => d_into v
  end.

(** ** Clients *)

(** As [Containers.kstep]: what runs no destructor is taken from there.
    [/repo/src/tagged_box_macro/mod.rs:739-831], [/repo/src/tagged_box.rs:483-589]. *)
Definition kd_step (o : kop) (c : list kcell) : option (DM (kobs * list kcell)) :=
  match o with
  | KFrom i =>
      match nth_error c i with
      | Some (KVal v) => Some (w <- d_into v ;; dret (KNothing, put i (KBox w) c))
      | _ => None
      end
  | KFromPayload src vals =>
      match find (fun f => match f with
                           | FromLeaf t _ => String.eqb (ty_name t) src
                           | FromTuple tys _ _ => String.eqb ("(" ++ String.concat ", " (map ty_name tys) ++ ")") src
                           end) (x_froms x) with
      | Some f => Some (w <- d_from_payload f vals ;; dret (KNothing, c ++ [KBox w]))
      | None => None
      end
  | KClone i =>
      match nth_error c i with
      | Some (KBox w) => Some (w' <- d_clone w ;; dret (KNothing, c ++ [KBox w']))
      | _ => None
      end
  | KAssign i n val =>
      match nth_error c i, leaf_type x n with
      | Some (KBox w), Some t => Some (d_assign fussy (leaf_hty t) (tp_mut_ref_addr (tgt E) w) [val] ;; dret (KNothing, c))
      | _, _ => None
      end
  | KDropVal i =>
      match nth_error c i with
      | Some (KVal v) => Some (d_drop_evalue v ;; dret (KNothing, put i KGone c))
      | _ => None
      end
  | _ => option_map plainly (kstep E x I o c)
  end.

(** The variables after a step that panicked: as [Containers.kafter_panic], and a value being destroyed is gone.
    The panics listed there and those of destructors; [/repo/src/tagged_box_macro/mod.rs:739-831]. *)
Definition kd_after_panic (o : kop) (c : list kcell) : list kcell :=
  match o with
  | KDropVal i => put i KGone c
  | _ => kafter_panic o c
  end.

(** What the client sees of a step. For clients of [/repo/src/tagged_box_macro/mod.rs:739-831]. *)
Inductive kdobs : Type := KSaw (r : kobs) | KSawDropPanic (ty : string) (v : leafval).
(** A program, as [Containers.kprog]. A client, not code of the repository. For clients of [/repo/src/tagged_box_macro/mod.rs:739-831]. *)
Inductive kdprog : Type := KDStop | KDDo (o : kop) (k : kdobs -> kdprog).
(** How a run ends. For clients of [/repo/src/tagged_box_macro/mod.rs:739-831]. *)
Inductive kdending : Type :=
| KDFinished (c : list kcell) (s : st)
| KDAborted (s : st)
| KDUndefined (u : ub)
| KDDoesNotCompile.

(** The panic as the client sees it. For clients of [/repo/src/tagged_box_macro/mod.rs:739-831]. *)
Definition kcaught (p : dpanic) : kdobs := match p with InCrate q => KSaw (KSawPanic q) | InDrop n v => KSawDropPanic n v end.

(** As [Containers.krun]. For clients of [/repo/src/tagged_box_macro/mod.rs:739-831]. *)
Fixpoint kd_run (p : kdprog) (c : list kcell) (s : st) : list kdobs * kdending :=
  match p with
  | KDStop => ([], KDFinished c s)
  | KDDo o k =>
      match kd_step o c with
      | None => ([], KDDoesNotCompile)
      | Some m =>
          match m false s with
          | DOk (r, c') s' => let (l, e) := kd_run (k (KSaw r)) c' s' in (KSaw r :: l, e)
          | DPanic q s' => let (l, e) := kd_run (k (kcaught q)) (kd_after_panic o c) s' in (kcaught q :: l, e)
          | DAbort s' => ([], KDAborted s')
          | DUB u => ([], KDUndefined u)
          end
      end
  end.

End Client.
