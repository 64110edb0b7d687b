(** Fixed-width unsigned integers as used by the crate.

    A Rust [u64], [u16], [u8] or pointer-sized integer is an [N]; wrapping is written out. *)
From Coq Require Import NArith Lia Bool.
Local Open Scope N_scope.

(** [u64::max_value()] Used in [/repo/src/discriminant.rs:48], [59]. *)
Definition u64_max : N := 2 ^ 64 - 1.

(** Rust's [x << k] on [u64] for [k < 64]: bits shifted past bit 63 are lost.
    (For [k >= 64] Rust panics or masks the amount; the crate only shifts by the constants
    POINTER_WIDTH, see [Config.config_shift_in_range].) Used in [/repo/src/tagged_pointer.rs:131]. *)
Definition shl64 (x k : N) : N := N.shiftl x k mod 2 ^ 64.

(** Rust's [x >> k] on [u64].
    Used in [/repo/src/tagged_pointer.rs:139], [/repo/src/discriminant.rs:48], [59]. *)
Definition shr64 (x k : N) : N := N.shiftr x k.

(** Rust's [x as uN] for an unsigned target of [bits] bits: truncation.
    Used in [/repo/src/tagged_pointer.rs:139] and for [as u8], [/repo/src/tagged_box_macro/mod.rs:45]. *)
Definition cast (bits x : N) : N := x mod 2 ^ bits.

(** Does [x] fit in an unsigned integer of [bits] bits?
    For the arguments of [/repo/src/tagged_pointer.rs:29]. *)
Definition fits (bits x : N) : Prop := x < 2 ^ bits.
