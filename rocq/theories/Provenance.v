(** The client programs of [Session.v] on a machine whose pointers know the block they were made for. The crate keeps
    addresses in integers: [ptr as u64] ([/repo/src/tagged_box.rs:93], [100], [400]) and back, [.. as *const T]
    ([/repo/src/tagged_pointer.rs:75], [87], [110], [116]).

    Rust's rules, as in the documentation of [core::ptr]: a block is reached only through pointers made for it; an address put back
    into the memory of another block after the first was freed does not help. Casting a pointer to an integer exposes its
    block. Casting an integer to a pointer gives a pointer for an exposed block. Simplified: it is the live one that has that
    byte, where Rust lets the program have any that makes it work; under strict provenance it is none.
    Not modelled: which of several pointers for the same block may still be used (Stacked Borrows). *)
From Coq Require Import NArith String Bool List.
From Verif Require Import Words Config Pointer Mem Box Session.
Import ListNotations.
Local Open Scope N_scope.

(** ** The machine *)

(** A pointer: the address and the number of its block. As in [/repo/src/tagged_box.rs:92]. *)
Definition pptr : Type := (N * option nat)%type.

(** [p_blocks]: the live blocks, numbered; no number is used twice. [p_exposed]: the numbers of those exposed.
    Of the machine under [/repo/src/tagged_box.rs:82-480], not code of the repository. *)
Record pst : Type := PSt { p_mem : st; p_blocks : list (nat * block); p_exposed : list nat; p_next : nat }.

(** What may go wrong: also a pointer used for a block that is not its own.
    Of the machine under [/repo/src/tagged_box.rs:82-480], not code of the repository. *)
Inductive pub : Type := NoProvenance | Plain (u : ub).

(** As [res] in [Mem.v]. Of the machine under [/repo/src/tagged_box.rs:82-480], not code of the repository. *)
Inductive pres (A : Type) : Type :=
| POk (a : A) (s : pst)
| PPanic (p : panic) (s : pst)
| PUB (u : pub).
Arguments POk {A} a s.
Arguments PPanic {A} p s.
Arguments PUB {A} u.

(** Code. Of the machine under [/repo/src/tagged_box.rs:82-480], not code of the repository. *)
Definition PM (A : Type) : Type := pst -> pres A.
(** Code that just returns. Of the machine under [/repo/src/tagged_box.rs:82-480], not code of the repository. *)
Definition pret {A} (a : A) : PM A := fun s => POk a s.
(** Sequence. Of the machine under [/repo/src/tagged_box.rs:82-480], not code of the repository. *)
Definition pbind {A B} (m : PM A) (f : A -> PM B) : PM B := fun s =>
  match m s with POk a s' => f a s' | PPanic p s' => PPanic p s' | PUB u => PUB u end.

Declare Scope p_scope.
Delimit Scope p_scope with P.
Notation "x <- m ;; k" := (pbind m (fun x => k)) (at level 61, m at next level, right associativity) : p_scope.
Notation "m ;; k" := (pbind m (fun _ => k)) (at level 61, right associativity) : p_scope.
Local Open Scope p_scope.

(** Code that makes and frees no blocks. Of the machine under [/repo/src/tagged_box.rs:82-480], not code of the repository. *)
Definition under {A} (m : M A) : PM A := fun s =>
  match m (p_mem s) with
  | Ok a s' => POk a (PSt s' (p_blocks s) (p_exposed s) (p_next s))
  | Panicked q s' => PPanic q (PSt s' (p_blocks s) (p_exposed s) (p_next s))
  | UB u => PUB (Plain u)
  end.

(** [alloc::alloc::alloc(layout)], [/repo/src/tagged_box.rs:92], [185]: a pointer for the new block. *)
Definition p_alloc (A : allocator) (size align : N) : PM (option pptr) := fun s =>
  match alloc A size align (p_mem s) with
  | Ok None s' => POk None (PSt s' (p_blocks s) (p_exposed s) (p_next s))
  | Ok (Some a) s' =>
      POk (Some (a, Some (p_next s))) (PSt s' ((p_next s, Block a size align) :: p_blocks s) (p_exposed s) (S (p_next s)))
  | Panicked q s' => PPanic q (PSt s' (p_blocks s) (p_exposed s) (p_next s))
  | UB u => PUB (Plain u)
  end.

(** May [n] bytes be accessed through the pointer? As in [ptr.read()], [/repo/src/tagged_box.rs:299]. *)
Definition reaches (s : pst) (p : pptr) (n : N) : bool :=
  match snd p with
  | None => false
  | Some id => existsb (fun b => Nat.eqb (fst b) id && block_contains (fst p) n (snd b)) (p_blocks s)
  end.
(** Zero-sized accesses need no block. As in [ptr.read()], [/repo/src/tagged_box.rs:299]. *)
Definition p_access (H : hty) (p : pptr) : PM unit := fun s =>
  if (h_size H =? 0) || reaches s p (h_size H) then POk tt s else PUB NoProvenance.
(** [ptr.read()], [/repo/src/tagged_box.rs:299]. *)
Definition p_read (H : hty) (p : pptr) : PM hval := p_access H p ;; under (read_at H (fst p)).
(** [ptr.write(val)], [/repo/src/tagged_box.rs:94]. *)
Definition p_write (H : hty) (p : pptr) (v : hval) : PM unit := p_access H p ;; under (write_at H (fst p) v).

(** [dealloc], by the [Box<U>] of [/repo/src/tagged_box.rs:358]: the pointer must be for the block freed. *)
Definition p_dealloc (p : pptr) (size align : N) : PM unit := fun s =>
  match snd p with
  | None => PUB NoProvenance
  | Some id =>
      if existsb (fun b => Nat.eqb (fst b) id && block_eqb (snd b) (Block (fst p) size align)) (p_blocks s) then
        match dealloc (fst p) size align (p_mem s) with
        | Ok _ s' => POk tt (PSt s' (filter (fun b => negb (Nat.eqb (fst b) id)) (p_blocks s)) (p_exposed s) (p_next s))
        | Panicked q s' => PPanic q (PSt s' (p_blocks s) (p_exposed s) (p_next s))
        | UB u => PUB (Plain u)
        end
      else PUB NoProvenance
  end.

(** [ptr as u64], [/repo/src/tagged_box.rs:93], [100], [400]: exposes the block. *)
Definition to_int (p : pptr) : PM N := fun s =>
  POk (fst p) (PSt (p_mem s) (p_blocks s) (match snd p with Some id => id :: p_exposed s | None => p_exposed s end) (p_next s)).

Section Box.
Variable E : env.
(** Whether integers give pointers for no block at all. For the casts in [/repo/src/tagged_pointer.rs:75], [87], [110], [116]. *)
Variable strict : bool.
Let t := tgt E.

(** [addr as *const T], [/repo/src/tagged_pointer.rs:75], [87], [110], [116]. *)
Definition to_ptr (a : N) : PM pptr := fun s =>
  POk (a, if strict then None else
          option_map fst (find (fun b => (b_base (snd b) <=? a) && (a <? b_base (snd b) + b_size (snd b)) &&
                                         existsb (Nat.eqb (fst b)) (p_exposed s)) (p_blocks s))) s.

(** ** The functions of [Box.v] *)

(** [/repo/src/tagged_box.rs:82-104] and its copy, [175-197]; the [assert!] casts as well. *)
Definition p_new (U : hty) (val : hval) (d : N) : PM tagged_ptr :=
  if h_size U =? 0 then
    under (drop_hval U val) ;;
    pret (tb_dangling E (h_align U) d)
  else
    p <- p_alloc (alloc_fn E) (h_size U) (h_align U) ;;
    match p with
    | None => under (drop_hval U val) ;; under (raise PanicNullAlloc)
    | Some ptr =>
        _ <- to_int ptr ;;
        p_write U ptr val ;;
        a <- to_int ptr ;;
        under (of_outcome (tp_new t a d))
    end.

(** [/repo/src/tagged_box.rs:443-445], [/repo/src/tagged_pointer.rs:109-111]. *)
Definition p_as_ptr (w : tagged_ptr) : PM pptr := to_ptr (tp_as_ptr t w).
(** [/repo/src/tagged_box.rs:470-472], [/repo/src/tagged_pointer.rs:115-117]. *)
Definition p_as_mut_ptr (w : tagged_ptr) : PM pptr := to_ptr (tp_as_mut_ptr t w).
(** [/repo/src/tagged_box.rs:235-237], [/repo/src/tagged_pointer.rs:74-76]. *)
Definition p_as_ref (U : hty) (w : tagged_ptr) : PM hval := p <- to_ptr (tp_ref_addr t w) ;; p_read U p.
(** A value changed in place through [as_mut_ref], [/repo/src/tagged_box.rs:267-269], [/repo/src/tagged_pointer.rs:86-88]. *)
Definition p_modify (U : hty) (w : tagged_ptr) (f : hval -> hval) : PM unit :=
  p <- to_ptr (tp_mut_ref_addr t w) ;; v <- p_read U p ;; p_write U p (f v).
(** [*p = val]. For pointers of [/repo/src/tagged_box.rs:267-269], [470-472]. *)
Definition p_assign (U : hty) (p : pptr) (val : hval) : PM unit :=
  old <- p_read U p ;; under (drop_hval U old) ;; p_write U p val.
(** [/repo/src/tagged_box.rs:297-300]. *)
Definition p_into_inner (U : hty) (w : tagged_ptr) : PM hval := p <- p_as_mut_ptr w ;; p_read U p.
(** [/repo/src/tagged_box.rs:324-326]. *)
Definition p_into_raw (w : tagged_ptr) : PM pptr := to_ptr (tp_as_mut_ptr t w).
(** [/repo/src/tagged_box.rs:398-403]. *)
Definition p_from_raw (raw : pptr) (d : N) : PM tagged_ptr := a <- to_int raw ;; under (of_outcome (tp_new t a d)).

End Box.

(** Dropping a [Box<U>]. For the [Box] of [/repo/src/tagged_box.rs:354-359]. *)
Definition p_rbox_drop (U : hty) (p : pptr) : PM unit :=
  v <- p_read U p ;;
  under (drop_hval U v) ;;
  (if h_size U =? 0 then pret tt else p_dealloc p (h_size U) (h_align U)).
(** Moving the contents out of a [Box<U>]. For the [Box] of [/repo/src/tagged_box.rs:354-359]. *)
Definition p_rbox_unbox (U : hty) (p : pptr) : PM hval :=
  v <- p_read U p ;;
  (if h_size U =? 0 then pret tt else p_dealloc p (h_size U) (h_align U)) ;;
  pret v.

(** ** Clients *)

(** As [cell]; a box is still a plain word. For clients of [/repo/src/tagged_box.rs:82-480]. *)
Inductive pcell : Type :=
| PBox (U : hty) (w : tagged_ptr)
| PRaw (U : hty) (p : pptr)
| PRust (U : hty) (p : pptr)
| PVal (U : hty) (v : hval)
| PGone.

Section Clients.
Variable E : env.
Variable strict : bool.

(** As [Session.step]. [/repo/src/tagged_box.rs:82-480]. *)
Definition p_step (o : op) (c : list pcell) : option (PM (obs * list pcell)) :=
  let box i (f : hty -> tagged_ptr -> PM (obs * list pcell)) :=
    match nth_error c i with Some (PBox U w) => Some (f U w) | _ => None end in
  let raw i (f : hty -> pptr -> PM (obs * list pcell)) :=
    match nth_error c i with Some (PRaw U p) => Some (f U p) | _ => None end in
  let rust i (f : hty -> pptr -> PM (obs * list pcell)) :=
    match nth_error c i with Some (PRust U p) => Some (f U p) | _ => None end in
  match o with
  | NewBox _ U val d => Some (w <- p_new E U val d ;; pret (SawNothing, c ++ [PBox U w]))
  | Read i => box i (fun U w => v <- p_as_ref E strict U w ;; pret (SawValue v, c))
  | ReadPtr i => box i (fun U w => p <- p_as_ptr E strict w ;; v <- p_read U p ;; pret (SawValue v, c))
  | Tag i => box i (fun U w => pret (SawTag (tb_discriminant E w), c))
  | Modify i f => box i (fun U w => p_modify E strict U w f ;; pret (SawNothing, c))
  | Assign i val => box i (fun U w => p <- to_ptr strict (tp_mut_ref_addr (tgt E) w) ;; p_assign U p val ;; pret (SawNothing, c))
  | IntoInner i => box i (fun U w => v <- p_into_inner E strict U w ;; pret (SawValue v, put i (PVal U v) c))
  | IntoRaw i => box i (fun U w => p <- p_into_raw E strict w ;; pret (SawNothing, put i (PRaw U p) c))
  | FromRaw i d => raw i (fun U p => w <- p_from_raw E p d ;; pret (SawNothing, put i (PBox U w) c))
  | IntoBox i => box i (fun U w => p <- p_into_raw E strict w ;; pret (SawNothing, put i (PRust U p) c))
  | RawToBox i => raw i (fun U p => pret (SawNothing, put i (PRust U p) c))
  | RustRead i => rust i (fun U p => v <- p_read U p ;; pret (SawValue v, c))
  | RustDrop i => rust i (fun U p => p_rbox_drop U p ;; pret (SawNothing, put i PGone c))
  | RustUnbox i => rust i (fun U p => v <- p_rbox_unbox U p ;; pret (SawValue v, put i (PVal U v) c))
  | DropBox i => box i (fun U w => pret (SawNothing, put i PGone c))
  | DropValue i =>
      match nth_error c i with
      | Some (PVal U v) => Some (under (drop_hval U v) ;; pret (SawNothing, put i PGone c))
      | _ => None
      end
  | AssignPtr i val => box i (fun U w => p <- p_as_mut_ptr E strict w ;; p_assign U p val ;; pret (SawNothing, c))
  | RawRead i => raw i (fun U p => v <- p_read U p ;; pret (SawValue v, c))
  | RawAssign i val => raw i (fun U p => p_assign U p val ;; pret (SawNothing, c))
  end.

(** As [Session.after_panic]. The panics of [/repo/src/tagged_box.rs:93], [186], [/repo/src/tagged_pointer.rs:30-43]. *)
Definition p_after_panic (o : op) (c : list pcell) : list pcell :=
  match o with NewBox _ _ _ _ => c ++ [PGone] | _ => c end.

(** How a run ends. For clients of [/repo/src/tagged_box.rs:82-480]. *)
Inductive pending : Type :=
| PFinished (c : list pcell) (s : pst)
| PUndefined (u : pub)
| PDoesNotCompile.

(** As [Session.run]. For clients of [/repo/src/tagged_box.rs:82-480]. *)
Fixpoint p_run (p : prog) (c : list pcell) (s : pst) : list obs * pending :=
  match p with
  | Stop => ([], PFinished c s)
  | Do o k =>
      match p_step o c with
      | None => ([], PDoesNotCompile)
      | Some m =>
          match m s with
          | POk (x, c') s' => let (l, e) := p_run (k x) c' s' in (x :: l, e)
          | PPanic q s' => let (l, e) := p_run (k (SawPanic q)) (p_after_panic o c) s' in (SawPanic q :: l, e)
          | PUB u => ([], PUndefined u)
          end
      end
  end.

End Clients.
