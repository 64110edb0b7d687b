(** The client programs of [KDropPanics.v] with destructors that do things, by the rules of [Destructors.v].

    The functions are those of [KDropPanics.v], with code of the user's where that file only notes that a destructor runs. What this code
    must leave alone is said in [SpecKDestructors.v]. Simplified as [KDropPanics.v]: the [Drop] impl of the enum itself runs only in
    [into_tagged_box] and when a value is dropped. *)
From Coq Require Import NArith String Bool List.
From Verif Require Import Words Config Pointer Fmt Mem Box Macro Session Containers DropPanics KDropPanics Destructors.
Import ListNotations.
Local Open Scope N_scope.
Local Open Scope d_scope.

Section Client.
Variable E : env.
Variable x : expansion.
Variable I : impls.
(** As in [Destructors.v]: what the destructor of this value does, run in this state, and whether it panics. Any function.
    For the destructors of the field types and of the enum of [/repo/src/tagged_box_macro/mod.rs:14-20]. *)
Variable act : string -> leafval -> st -> st * bool.

(** ** The generated functions *)

(** As [KDropPanics.d_enum_drop]. For [self] in [/repo/src/tagged_box_macro/mod.rs:784-790]. *)
Definition ke_enum_drop (v : evalue) : DM unit := fun unwinding s =>
  let s' := log (enum_drop x v) (fst (act (x_name x) (concat (ev_fields v)) s)) in
  if snd (act (x_name x) (concat (ev_fields v)) s) then draise (InDrop (x_name x) (concat (ev_fields v))) unwinding s' else DOk tt s'.

(** As [KDropPanics.d_at_exit]. For [self] in [/repo/src/tagged_box_macro/mod.rs:784-790]. *)
Definition ke_at_exit {A} (b : bool) (v : evalue) (m : DM A) : DM A := if b then finally m (ke_enum_drop v) else m.

(** As [KDropPanics.d_drop_evalue].
    Rust's drop glue of the enum of [/repo/src/tagged_box_macro/mod.rs:14-20], for client code. *)
Definition ke_drop_evalue (v : evalue) : DM unit :=
  let tys := match assoc (ev_variant v) (x_enum x) with Some k => kind_types k | None => [] end in
  if x_drop x then finally (ke_enum_drop v) (e_drop_fields act tys (ev_fields v)) else e_drop_fields act tys (ev_fields v).

(** As [KDropPanics.d_into_body]: [/repo/src/tagged_box_macro/mod.rs:40-95] and [/repo/src/tagged_box_macro/meta_macros.rs:445-915]. *)
Definition ke_into_body (b : into_body) (binds : list (string * leafval)) (tag : N) : DM tagged_ptr :=
  match b with
  | INewLeaf t arg => vs <- plainly (resolved (lookup_all [arg] binds)) ;; e_new E act (leaf_hty t) vs tag
  | INewTuple tys args => vs <- plainly (resolved (lookup_all args binds)) ;; e_new E act (reprC tys) vs tag
  | INewStruct ms lit =>
      vals <- plainly (resolved (lookup_all lit binds)) ;;
      vs <- plainly (resolved (lookup_all (map fst ms) (combine lit vals))) ;;
      e_new E act (reprC (map snd ms)) vs tag
  | IDangling => dret (tb_dangling E (x_align x) tag)
  end.

(** As [KDropPanics.d_into]: [/repo/src/tagged_box_macro/mod.rs:784-790]. *)
Definition ke_into (v : evalue) : DM tagged_ptr :=
  ke_at_exit (x_drop x) v (
    a <- plainly (resolved (find_into (ev_variant v) (x_into x))) ;;
    binds <- plainly (resolved (bind_pattern x (ia_pat a) v)) ;;
    tag <- plainly (resolved (eval_tag x (ia_tag a))) ;;
    ke_into_body (ia_body a) binds tag).

(** As [KDropPanics.d_from_payload]: [/repo/src/tagged_box_macro/mod.rs:108-118] and [124-135]. *)
Definition ke_from_payload (f : from_impl) (vals : hval) : DM tagged_ptr :=
  match f with
  | FromLeaf _ v => ke_into (EV v vals)
  | FromTuple _ v idx => vs <- plainly (resolved (project vals idx)) ;; ke_into (EV v vs)
  end.

(** As [KDropPanics.d_clone]: [/repo/src/tagged_box.rs:515-531]. *)
Definition ke_clone (w : tagged_ptr) : DM tagged_ptr :=
  output <- plainly (macro_ref E x (option evalue) w (fun this _ => bind (i_clone I this) (fun c => ret (Some c))) None) ;;
  match output with
  | None => draise (InCrate PanicCloneExpect)
  | Some v => ke_into v
  end.

(** ** Clients *)

(** As [KDropPanics.kd_step]. [/repo/src/tagged_box_macro/mod.rs:739-831], [/repo/src/tagged_box.rs:483-589]. *)
Definition ke_step (o : kop) (c : list kcell) : option (DM (kobs * list kcell)) :=
  match o with
  | KFrom i =>
      match nth_error c i with
      | Some (KVal v) => Some (w <- ke_into v ;; dret (KNothing, put i (KBox w) c))
      | _ => None
      end
  | KFromPayload src vals =>
      match find (fun f => match f with
                           | FromLeaf t _ => String.eqb (ty_name t) src
                           | FromTuple tys _ _ => String.eqb ("(" ++ String.concat ", " (map ty_name tys) ++ ")") src
                           end) (x_froms x) with
      | Some f => Some (w <- ke_from_payload f vals ;; dret (KNothing, c ++ [KBox w]))
      | None => None
      end
  | KClone i =>
      match nth_error c i with
      | Some (KBox w) => Some (w' <- ke_clone w ;; dret (KNothing, c ++ [KBox w']))
      | _ => None
      end
  | KAssign i n val =>
      match nth_error c i, leaf_type x n with
      | Some (KBox w), Some t => Some (e_assign act (leaf_hty t) (tp_mut_ref_addr (tgt E) w) [val] ;; dret (KNothing, c))
      | _, _ => None
      end
  | KDropVal i =>
      match nth_error c i with
      | Some (KVal v) => Some (ke_drop_evalue v ;; dret (KNothing, put i KGone c))
      | _ => None
      end
  | _ => option_map plainly (kstep E x I o c)
  end.

(** As [KDropPanics.kd_run]. For clients of [/repo/src/tagged_box_macro/mod.rs:739-831]. *)
Fixpoint ke_run (p : kdprog) (c : list kcell) (s : st) : list kdobs * kdending :=
  match p with
  | KDStop => ([], KDFinished c s)
  | KDDo o k =>
      match ke_step o c with
      | None => ([], KDDoesNotCompile)
      | Some m =>
          match m false s with
          | DOk (r, c') s' => let (l, e) := ke_run (k (KSaw r)) c' s' in (KSaw r :: l, e)
          | DPanic q s' => let (l, e) := ke_run (k (kcaught q)) (kd_after_panic o c) s' in (kcaught q :: l, e)
          | DAbort s' => ([], KDAborted s')
          | DUB u => ([], KDUndefined u)
          end
      end
  end.

End Client.
