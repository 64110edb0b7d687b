(** What threads using containers are supposed to do: the same threads on variables that hold the enum values
    themselves, every call happening at once. *)
From Coq Require Import ZArith NArith String Bool List.
From Verif Require Import Words Config Pointer Mem Box SpecMem Macro SpecMacro Session SpecSession Threads SpecThreads
  Containers SpecContainers KThreads.
Import ListNotations.
Local Open Scope N_scope.

Record kathread : Type := KAThread { kaprog : ktprog; kamail : list nat; kaseen : list kobs }.

(** The threads, the owners of the variables, and the variables with their values as in C35. *)
Record kasys : Type := KASys { kathreads : list kathread; kaowners : list owner; kplain : kastate }.

Definition kaboot (ps : list ktprog) : kasys := KASys (map (fun p => KAThread p [] []) ps) [] ka0.

(** Calls that change a container's value in place are not considered. *)
Definition considered (o : kop) : bool := match o with KModify _ _ _ | KAssign _ _ _ => false | _ => true end.

Section Spec.
Variable def : edef.
Variable F : st -> meaning.

(** The next step of a thread, with what the allocator does and the state in which user code runs; [None]: not allowed.
    A thread that is waiting or at its end stays. *)
Definition kamove (e : kdone) (y : kasys) : option kasys :=
  let '(t, fail, usr) := e in
  match nth_error (kathreads y) t with
  | None => Some y
  | Some h =>
      match kaprog h with
      | KTStop => Some y
      | KTCall o k =>
          if kallowed (kaowners y) t o && considered o then
            match kastep def (F (fst usr)) fail o (kplain y) with
            | None => None
            | Some (r, a') =>
                let '(i, owners') := match kresult o with
                                     | Nowhere => (0%nat, kaowners y)
                                     | There i => (i, kaowners y)
                                     | Anew => (List.length (kcells (kplain y)), kaowners y ++ [By t])
                                     end in
                Some (KASys (put t (KAThread (k i r) (kamail h) (kaseen h ++ [r])) (kathreads y)) owners' a')
            end
          else None
      | KTGive i t' k =>
          let l := put t (KAThread k (kamail h) (kaseen h)) (kathreads y) in
          match nth_error l t' with
          | None => None
          | Some h' =>
              let l' := put t' (KAThread (kaprog h') (kamail h' ++ [i]) (kaseen h')) l in
              match nth_error (kaowners y) i with
              | Some (By z) => if Nat.eqb t z then Some (KASys l' (put i (By t') (kaowners y)) (kplain y)) else None
              | Some Everyone => Some (KASys l' (kaowners y) (kplain y))
              | None => None
              end
          end
      | KTShare i k =>
          match nth_error (kaowners y) i, nth_error (kcells (kplain y)) i with
          | Some (By z), Some (KABox _ _ _) =>
              if Nat.eqb t z
              then Some (KASys (put t (KAThread k (kamail h) (kaseen h)) (kathreads y)) (put i Everyone (kaowners y)) (kplain y))
              else None
          | _, _ => None
          end
      | KTTake k =>
          match kamail h with
          | [] => Some y
          | i :: r => Some (KASys (put t (KAThread (k i) r (kaseen h)) (kathreads y)) (kaowners y) (kplain y))
          end
      end
  end.

Fixpoint kamoves (l : list kdone) (y : kasys) : option kasys :=
  match l with
  | [] => Some y
  | e :: r => match kamove e y with Some y' => kamoves r y' | None => None end
  end.

(** In whatever order the threads make their calls, and whatever the allocator and user code do, each thread uses only
    variables it may use and keeps the rules of C35. *)
Definition kwell_behaved (E : env) (y : kasys) : Prop :=
  forall l, exists y', kamoves l y = Some y' /\
    forall t h, nth_error (kathreads y') t = Some h ->
    match kaprog h with KTCall o _ => forall s, kcontract E def (F s) (kplain y') o | _ => True end.

End Spec.

(** The threads are at the same place in the two systems. *)
Definition ksame_place (h : kthread) (a : kathread) : Prop :=
  kmail h = kamail a /\ kseen h = kaseen a /\
  match kdoing h with
  | KIdle p => kaprog a = p
  | KBusy o _ _ _ k => kaprog a = KTCall o k
  | KRejected => False
  end.

(** Two threads are about to make accesses that must not happen at the same time. *)
Definition kdata_race (y : ksys) : Prop := exists t1 t2 h1 h2 x1 x2, t1 <> t2 /\
  nth_error (kthreads y) t1 = Some h1 /\ nth_error (kthreads y) t2 = Some h2 /\
  kabout_to h1 = Some x1 /\ kabout_to h2 = Some x2 /\ conflict x1 x2.

(** The user's own work in the steps completed: the states before and after it. *)
Definition user_work (l : list kdone) : list (st * st) := map snd l.
