(** Client programs of the code generated by [tagged_box!]: any number of containers and enum values
    used in any order, the program choosing each step from what it saw so far. Every step runs the
    functions modelled in [Macro.v] and the trait impls of [TaggedBox] in [Box.v]. The container
    derives what the enum derives ([/repo/src/tagged_box_macro/mod.rs:739-743]); a derived [Clone],
    [PartialEq], .. of a struct with the one field [value] calls the impl of [TaggedBox]. *)
From Coq Require Import NArith String Bool List.
From Verif Require Import Words Config Pointer Fmt Mem Box Macro Session.
Import ListNotations.
Local Open Scope N_scope.
Local Open Scope m_scope.

(** The user's trait impls for the enum. Called in [/repo/src/tagged_box.rs:483-589]. *)
Record impls : Type := Impls {
  i_clone : evalue -> M evalue;
  i_eq : evalue -> evalue -> M bool;
  i_pcmp : evalue -> evalue -> M (option comparison);
  i_cmp : evalue -> evalue -> M comparison;
  i_debug : fmt_impl (V := evalue);
  i_display : fmt_impl (V := evalue)
}.

(** A variable: a container, an enum value, or nothing (moved away or never filled).
    A client's variable, not code of the repository. For clients of [/repo/src/tagged_box_macro/mod.rs:739-831]. *)
Inductive kcell : Type := KBox (w : tagged_ptr) | KVal (v : evalue) | KGone.

(** The calls: functions of [/repo/src/tagged_box_macro/mod.rs:739-831], of [/repo/src/tagged_box.rs:267-269], [419-421], [483-589], and the end of a scope. *)
Inductive kop : Type :=
| KNew (v : evalue)                          (* a new enum value in a new variable *)
| KFrom (i : nat)                            (* Container::from(value), in the same variable *)
| KFromPayload (src : string) (vals : hval)  (* Container::from of a payload of the type named [src] *)
| KClone (i : nat)
| KCopy (i : nat)
| KEq (i j : nat)
| KPartialCmp (i j : nat)
| KCmp (i j : nat)
| KDebug (i : nat) (o : fmt_opts) (out : string)       (* {:?} of the container *)
| KDebugValue (i : nat) (o : fmt_opts) (out : string)  (* {:?} of its (private) field, the box *)
| KDisplay (i : nat) (o : fmt_opts) (out : string)     (* {} of the box; the container itself has no Display *)
| KView (i : nat)                            (* ref_from_tagged_box with a closure noting what it gets *)
| KTag (i : nat)                             (* the box's discriminant() *)
| KModify (i : nat) (n : string) (f : leafval -> leafval)
                                             (* as_mut_ref at the type of variant [n]'s only field, changed in place *)
| KAssign (i : nat) (n : string) (val : leafval)   (* *as_mut_ref() = val *)
| KIntoInner (i : nat)
| KFromTagged (i : nat)                      (* Enum::from_tagged_box *)
| KDrop (i : nat)                            (* a container goes out of scope *)
| KDropVal (i : nat).                        (* an enum value goes out of scope *)

(** What the client sees of a step. For clients of [/repo/src/tagged_box_macro/mod.rs:739-831]. *)
Inductive kobs : Type :=
| KNothing
| KSawBool (b : bool)
| KSawOrd (c : comparison)
| KSawPartial (c : option comparison)
| KSawText (t : string * bool)
| KSawTag (d : N)
| KSawValues (l : list evalue)
| KSawPanic (p : panic).

Section Run.
Variable E : env.
Variable x : expansion.
Variable I : impls.

Let T := macro_taggable E x.

(** The type of the only field of a variant; the types in which the other variants are stored are
    local to the generated functions, a client cannot name them.
    For [as_mut_ref::<U>], [/repo/src/tagged_box.rs:267-269]. *)
Definition leaf_type (n : string) : option rty :=
  match assoc n (x_enum x) with Some (KTuple [t]) => Some t | _ => None end.

(** [#[derive(Debug)]] on the struct, [/repo/src/tagged_box_macro/mod.rs:739-742] ([$(#[$meta])*]);
    the box's Debug writes through the adapter of [debug_struct] and cannot see what was written before. *)
Definition container_debug (o : fmt_opts) (w : tagged_ptr) (out : string) : M (string * bool) :=
  r <- tb_debug T (i_debug I) o w EmptyString ;;
  let '(text, ok) := derived_debug o (x_container x) "value" r in
  ret ((out ++ text)%string, ok).

(** One step; [None]: the program does not compile (use after move, [Copy] not derived, no such
    [From] impl, no single-field variant of that name). A container has no [Drop] impl and its field no destructor.
    [/repo/src/tagged_box_macro/mod.rs:739-831], [/repo/src/tagged_box.rs:483-589]. *)
Definition kstep (o : kop) (c : list kcell) : option (M (kobs * list kcell)) :=
  match o with
  | KNew v => Some (ret (KNothing, c ++ [KVal v]))
  | KFrom i =>
      match nth_error c i with
      | Some (KVal v) => Some (w <- container_from E x v ;; ret (KNothing, put i (KBox w) c))
      | _ => None
      end
  | KFromPayload src vals =>
      match find (fun f => match f with
                           | FromLeaf t _ => String.eqb (ty_name t) src
                           | FromTuple tys _ _ => String.eqb ("(" ++ String.concat ", " (map ty_name tys) ++ ")") src
                           end) (x_froms x) with
      | Some f => Some (w <- container_from_payload E x f vals ;; ret (KNothing, c ++ [KBox w]))
      | None => None
      end
  | KClone i =>
      match nth_error c i with
      | Some (KBox w) => Some (w' <- tb_clone T (i_clone I) w ;; ret (KNothing, c ++ [KBox w']))
      | _ => None
      end
  | KCopy i =>
      if x_copy x then
        match nth_error c i with
        | Some (KBox w) => Some (ret (KNothing, c ++ [KBox (tb_copy w)]))
        | _ => None
        end
      else None
  | KEq i j =>
      match nth_error c i, nth_error c j with
      | Some (KBox a), Some (KBox b) => Some (r <- tb_eq T (i_eq I) a b ;; ret (KSawBool r, c))
      | _, _ => None
      end
  | KPartialCmp i j =>
      match nth_error c i, nth_error c j with
      | Some (KBox a), Some (KBox b) => Some (r <- tb_partial_cmp T (i_pcmp I) a b ;; ret (KSawPartial r, c))
      | _, _ => None
      end
  | KCmp i j =>
      match nth_error c i, nth_error c j with
      | Some (KBox a), Some (KBox b) => Some (r <- tb_cmp T (i_cmp I) a b ;; ret (KSawOrd r, c))
      | _, _ => None
      end
  | KDebug i o out =>
      match nth_error c i with
      | Some (KBox w) => Some (r <- container_debug o w out ;; ret (KSawText r, c))
      | _ => None
      end
  | KDebugValue i o out =>
      match nth_error c i with
      | Some (KBox w) => Some (r <- tb_debug T (i_debug I) o w out ;; ret (KSawText r, c))
      | _ => None
      end
  | KDisplay i o out =>
      match nth_error c i with
      | Some (KBox w) => Some (r <- tb_display T (i_display I) o w out ;; ret (KSawText r, c))
      | _ => None
      end
  | KView i =>
      match nth_error c i with
      | Some (KBox w) =>
          Some (r <- macro_ref E x (list evalue) w (fun v seen => ret (seen ++ [v])) [] ;; ret (KSawValues r, c))
      | _ => None
      end
  | KTag i =>
      match nth_error c i with
      | Some (KBox w) => Some (ret (KSawTag (tb_discriminant E w), c))
      | _ => None
      end
  | KModify i n f =>
      match nth_error c i, leaf_type n with
      | Some (KBox w), Some t => Some (tb_modify E (leaf_hty t) w (map f) ;; ret (KNothing, c))
      | _, _ => None
      end
  | KAssign i n val =>
      match nth_error c i, leaf_type n with
      | Some (KBox w), Some t => Some (tb_assign E (leaf_hty t) w [val] ;; ret (KNothing, c))
      | _, _ => None
      end
  | KFromTagged i =>
      match nth_error c i with
      | Some (KBox w) => Some (v <- macro_from E x w ;; ret (KSawValues [v], put i (KVal v) c))
      | _ => None
      end
  | KIntoInner i =>
      match nth_error c i with
      | Some (KBox w) => Some (v <- macro_into_inner E x w ;; ret (KSawValues [v], put i (KVal v) c))
      | _ => None
      end
  | KDrop i =>
      match nth_error c i with
      | Some (KBox w) => Some (tb_drop w ;; ret (KNothing, put i KGone c))
      | _ => None
      end
  | KDropVal i =>
      match nth_error c i with
      | Some (KVal v) => Some (drop_evalue x v ;; ret (KNothing, put i KGone c))
      | _ => None
      end
  end.

(** The variables after a panic that the client catches: a value being moved in is gone; a variable
    to be made stays empty.
    The panics of [/repo/src/tagged_box.rs:93], [527], [/repo/src/tagged_pointer.rs:30-43], [/repo/src/tagged_box_macro/mod.rs:258], [366-374], [504-512], and of user code. *)
Definition kafter_panic (o : kop) (c : list kcell) : list kcell :=
  match o with
  | KFrom i | KIntoInner i => put i KGone c
  | KFromPayload _ _ | KClone _ => c ++ [KGone]
  | KFromTagged i => put i KGone c
  | _ => c
  end.

(** A client: the next call, and how to go on for each thing it may see. For clients of [/repo/src/tagged_box_macro/mod.rs:739-831]. *)
Inductive kprog : Type := KStop | KDo (o : kop) (k : kobs -> kprog).

(** How a client's run ends. For clients of [/repo/src/tagged_box_macro/mod.rs:739-831]. *)
Inductive kending : Type := KFinished (c : list kcell) (s : st) | KUndefined (u : ub) | KDoesNotCompile.

(** Everything the client sees, and how it ends. For clients of [/repo/src/tagged_box_macro/mod.rs:739-831]. *)
Fixpoint krun (p : kprog) (c : list kcell) (s : st) : list kobs * kending :=
  match p with
  | KStop => ([], KFinished c s)
  | KDo o k =>
      match kstep o c with
      | None => ([], KDoesNotCompile)
      | Some m =>
          match m s with
          | Ok (r, c') s' => let (l, e) := krun (k r) c' s' in (r :: l, e)
          | Panicked q s' => let (l, e) := krun (k (KSawPanic q)) (kafter_panic o c) s' in (KSawPanic q :: l, e)
          | UB u => ([], KUndefined u)
          end
      end
  end.

End Run.
