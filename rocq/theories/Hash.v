(** Model of includes/acl/core/hash.h (model only). *)
From Verif Require Import Word.
Open Scope N_scope.

(** fnv1a_impl::update, hash.h:59-69: one byte, then the loop, for a [w]-bit result type *)
Definition fnv1a_byte (w prime acc next : N) : N := mulw w (N.lxor acc next) prime.
Definition fnv1a_update (w prime acc : N) (data : list N) : N :=
  fold_left (fnv1a_byte w prime) data acc.

(** hash32(const void*, size_t), hash.h:92-97 with the constants of :84 *)
Definition hash32 (buffer : list N) : N := fnv1a_update 32 16777619 2166136261 buffer.
(** hash64(const void*, size_t), hash.h:115-120 with the constants of :88 *)
Definition hash64 (buffer : list N) : N := fnv1a_update 64 1099511628211 14695981039346656037 buffer.

(** hash_combine, hash.h:138-139 *)
Definition hash_combine32 (hash_a hash_b : N) : N := mulw 32 (N.lxor hash_a hash_b) 16777619.
Definition hash_combine64 (hash_a hash_b : N) : N := mulw 64 (N.lxor hash_a hash_b) 1099511628211.
