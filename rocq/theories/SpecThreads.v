(** What threads using the [TaggedBox] API are supposed to do: the same threads on variables that hold values
    directly, every call happening at once. *)
From Coq Require Import NArith String Bool List.
From Verif Require Import Words Config Pointer Mem Box SpecMem Session SpecSession Threads.
Import ListNotations.
Local Open Scope N_scope.

Record athread : Type := AThread { aprog : tprog; amail : list nat; aseen : list obs }.

(** The threads, the owners of the variables, and the variables with their values as in C38. *)
Record asys : Type := ASys { athreads : list athread; aowners : list owner; plain : astate }.

Definition aboot (ps : list tprog) : asys := ASys (map (fun p => AThread p [] []) ps) [] a0.

(** The next step of thread [t]; [None]: not allowed. A thread that is waiting or at its end stays. *)
Definition amove (e : nat * bool) (y : asys) : option asys :=
  let (t, fail) := e in
  match nth_error (athreads y) t with
  | None => Some y
  | Some h =>
      match aprog h with
      | TStop => Some y
      | TCall o k =>
          if allowed (aowners y) t o then
            match astep fail o (plain y) with
            | None => None
            | Some (x, a') =>
                let (i, owners') := match target_of o with
                                    | Some i => (i, aowners y)
                                    | None => (List.length (cells (plain y)), aowners y ++ [By t])
                                    end in
                Some (ASys (put t (AThread (k i x) (amail h) (aseen h ++ [x])) (athreads y)) owners' a')
            end
          else None
      | TGive i t' k =>
          let l := put t (AThread k (amail h) (aseen h)) (athreads y) in
          match nth_error l t' with
          | None => None
          | Some h' =>
              let l' := put t' (AThread (aprog h') (amail h' ++ [i]) (aseen h')) l in
              match nth_error (aowners y) i with
              | Some (By x) => if Nat.eqb t x then Some (ASys l' (put i (By t') (aowners y)) (plain y)) else None
              | Some Everyone => Some (ASys l' (aowners y) (plain y))
              | None => None
              end
          end
      | TShare i k =>
          match nth_error (aowners y) i, nth_error (cells (plain y)) i with
          | Some (By x), Some (ABox _ _ _ _) =>
              if Nat.eqb t x
              then Some (ASys (put t (AThread k (amail h) (aseen h)) (athreads y)) (put i Everyone (aowners y)) (plain y))
              else None
          | _, _ => None
          end
      | TTake k =>
          match amail h with
          | [] => Some y
          | i :: r => Some (ASys (put t (AThread (k i) r (aseen h)) (athreads y)) (aowners y) (plain y))
          end
      end
  end.

Fixpoint amoves (l : list (nat * bool)) (y : asys) : option asys :=
  match l with
  | [] => Some y
  | e :: r => match amove e y with Some y' => amoves r y' | None => None end
  end.

(** In whatever order the threads make their calls, each uses only variables it may use and keeps the
    documentation's rules for the call. (On plain values, every call at once: what Rust's type checker and
    the documentation ask for.) *)
Definition well_behaved (E : env) (y : asys) : Prop :=
  forall l, exists y', amoves l y = Some y' /\
    forall t h, nth_error (athreads y') t = Some h ->
    match aprog h with TCall o _ => contract E (plain y') o | _ => True end.

(** The threads are at the same place in the two systems: between calls at the same point, or inside the call
    that comes next; with the same mail, having seen the same. *)
Definition same_place (h : thread) (a : athread) : Prop :=
  mail h = amail a /\ seen h = aseen a /\
  match doing h with
  | Idle p => aprog a = p
  | Busy o _ _ k => aprog a = TCall o k
  | Rejected => False
  end.

(** Two accesses that must not happen at the same time. *)
Definition conflict (x y : touch) : Prop :=
  match x, y with
  | TRead _ _, TRead _ _ => False
  | TRead p n, TWrite q m | TWrite p n, TRead q m | TWrite p n, TWrite q m => p < q + m /\ q < p + n
  end.

(** Two threads are about to make conflicting accesses. *)
Definition data_race (y : sys) : Prop := exists t1 t2 h1 h2 x1 x2, t1 <> t2 /\
  nth_error (threads y) t1 = Some h1 /\ nth_error (threads y) t2 = Some h2 /\
  about_to h1 = Some x1 /\ about_to h2 = Some x2 /\ conflict x1 x2.
