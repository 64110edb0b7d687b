(** The client programs of [OwnDrop.v] with a [Drop] impl that does things: it may allocate, free, write to memory, and panic.

    The functions are those of [OwnDrop.v], with code of the user's where that file only notes that [Drop] runs, as in [KDestructors.v].
    What this code must leave alone is said in [SpecOwnEffects.v]. *)
From Coq Require Import NArith String Bool List.
From Verif Require Import Words Config Pointer Fmt Mem Box Macro Session Containers DropPanics KDropPanics OwnDrop Destructors KDestructors.
Import ListNotations.
Local Open Scope N_scope.
Local Open Scope d_scope.

Section Client.
Variable E : env.
Variable x : expansion.
Variable I : impls.
(** As in [KDestructors.v]: what the [Drop] impl does on this value, run in this state, and whether it panics. Any function.
    For the [Drop] impl of the enum of [/repo/src/tagged_box_macro/mod.rs:14-20]. *)
Variable act : string -> leafval -> st -> st * bool.

(** As [KDropPanics.d_ref]: [/repo/src/tagged_box_macro/mod.rs:812-829] and [499-514]. *)
Definition oe_ref (S : Type) (w : tagged_ptr) (callback : evalue -> S -> DM S) (captured : S) : DM S :=
  d_match_disc x (tb_discriminant E w) (x_ref x)
    (fun a =>
       variant <- plainly (run_build E x (fun H => read_at H (tb_as_ptr E w)) (ra_variant a) (ra_build a)) ;;
       ke_at_exit x act (x_drop x && negb (ra_guarded a)) variant (callback variant captured))
    (draise (InCrate (PanicNoVariantRef (x_total x) (tb_discriminant E w)))).

(** As [OwnDrop.od_clone_arm]: [/repo/src/tagged_box_macro/mod.rs:386-497] with [/repo/src/tagged_box.rs:520-525]. *)
Definition oe_clone_arm (drops : bool) (this : evalue) : DM evalue := fun unwinding s =>
  match i_clone I this s with
  | Ok c s1 => on_panic (ke_at_exit x act drops this (dret c)) (ke_drop_evalue x act c) unwinding s1
  | _ => ke_at_exit x act drops this (plainly (i_clone I this)) unwinding s
  end.

(** As [OwnDrop.od_clone_look]: [/repo/src/tagged_box.rs:519-528]. *)
Definition oe_clone_look (w : tagged_ptr) : DM evalue :=
  d_match_disc x (tb_discriminant E w) (x_ref x)
    (fun a =>
       this <- plainly (run_build E x (fun H => read_at H (tb_as_ptr E w)) (ra_variant a) (ra_build a)) ;;
       oe_clone_arm (x_drop x && negb (ra_guarded a)) this)
    (draise (InCrate (PanicNoVariantRef (x_total x) (tb_discriminant E w)))).

(** As [OwnDrop.od_clone]: [/repo/src/tagged_box.rs:515-531]. *)
Definition oe_clone (w : tagged_ptr) : DM tagged_ptr := c <- oe_clone_look w ;; ke_into E x act c.

(** As [OwnDrop.od_one]: [/repo/src/tagged_box.rs:483-513]. *)
Definition oe_one {S} (w : tagged_ptr) (f : evalue -> S -> M S) (init : S) : DM S :=
  oe_ref S w (fun this r => plainly (f this r)) init.

(** As [OwnDrop.od_two]: [/repo/src/tagged_box.rs:535-589]. *)
Definition oe_two {S} (a b : tagged_ptr) (f : evalue -> evalue -> M S) (init : S) : DM S :=
  oe_ref S a (fun this r => oe_ref S b (fun other _ => plainly (f this other)) r) init.

(** As [OwnDrop.od_step]: [/repo/src/tagged_box_macro/mod.rs:739-831], [/repo/src/tagged_box.rs:483-589]. *)
Definition oe_step (o : kop) (c : list kcell) : option (DM (kobs * list kcell)) :=
  let box (f : tagged_ptr -> DM kobs) i := match nth_error c i with Some (KBox w) => Some (r <- f w ;; dret (r, c)) | _ => None end in
  let boxes (f : tagged_ptr -> tagged_ptr -> DM kobs) i j :=
    match nth_error c i, nth_error c j with Some (KBox a), Some (KBox b) => Some (r <- f a b ;; dret (r, c)) | _, _ => None end in
  match o with
  | KFrom i =>
      match nth_error c i with
      | Some (KVal v) => Some (w <- ke_into E x act v ;; dret (KNothing, put i (KBox w) c))
      | _ => None
      end
  | KFromPayload src vals =>
      match find (fun f => match f with
                           | FromLeaf t _ => String.eqb (ty_name t) src
                           | FromTuple tys _ _ => String.eqb ("(" ++ String.concat ", " (map ty_name tys) ++ ")") src
                           end) (x_froms x) with
      | Some f => Some (w <- ke_from_payload E x act f vals ;; dret (KNothing, c ++ [KBox w]))
      | None => None
      end
  | KClone i =>
      match nth_error c i with
      | Some (KBox w) => Some (w' <- oe_clone w ;; dret (KNothing, c ++ [KBox w']))
      | _ => None
      end
  | KEq i j => boxes (fun a b => r <- oe_two a b (i_eq I) false ;; dret (KSawBool r)) i j
  | KPartialCmp i j => boxes (fun a b => r <- oe_two a b (i_pcmp I) None ;; dret (KSawPartial r)) i j
  | KCmp i j => boxes (fun a b => r <- oe_two a b (i_cmp I) Eq ;; dret (KSawOrd r)) i j
  | KDebug i o out =>
      box (fun w => r <- oe_one w (fun this r => i_debug I default_opts this (fst r)) (EmptyString, true) ;;
                    dret (let r := derived_debug o (x_container x) "value" r in KSawText ((out ++ fst r)%string, snd r))) i
  | KDebugValue i _ out => box (fun w => r <- oe_one w (fun this r => i_debug I default_opts this (fst r)) (out, true) ;; dret (KSawText r)) i
  | KDisplay i _ out => box (fun w => r <- oe_one w (fun this r => i_display I default_opts this (fst r)) (out, true) ;; dret (KSawText r)) i
  | KView i => box (fun w => r <- oe_one w (fun this r => ret (r ++ [this])) [] ;; dret (KSawValues r)) i
  | KDropVal i =>
      match nth_error c i with
      | Some (KVal v) => Some (ke_drop_evalue x act v ;; dret (KNothing, put i KGone c))
      | _ => None
      end
  | _ => option_map plainly (kstep E x I o c)
  end.

(** As [OwnDrop.od_run]. For clients of [/repo/src/tagged_box_macro/mod.rs:739-831]. *)
Fixpoint oe_run (p : kdprog) (c : list kcell) (s : st) : list kdobs * kdending :=
  match p with
  | KDStop => ([], KDFinished c s)
  | KDDo o k =>
      match oe_step o c with
      | None => ([], KDDoesNotCompile)
      | Some m =>
          match m false s with
          | DOk (r, c') s' => let (l, e) := oe_run (k (KSaw r)) c' s' in (KSaw r :: l, e)
          | DPanic q s' => let (l, e) := oe_run (k (kcaught q)) (kd_after_panic o c) s' in (kcaught q :: l, e)
          | DAbort s' => ([], KDAborted s')
          | DUB u => ([], KDUndefined u)
          end
      end
  end.

End Client.
