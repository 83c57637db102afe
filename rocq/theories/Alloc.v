(** The ANSI allocator with its allocation count and its fill patterns (model only): core/ansi_allocator.h:57-250, with
    ACL_ALLOCATOR_TRACK_NUM_ALLOCATIONS and ACL_ALLOCATOR_SANITIZE_ALLOCATIONS, which are on with ACL_HAS_ASSERT_CHECKS.
    Threads call it concurrently: m_allocation_count is an std::atomic<int32_t>, whose read-modify-write operations have one
    order, and everything else a call touches belongs to the calling thread.  A call is two steps: allocate counts (:127), then
    gets its block from the system and fills it (:133-165); deallocate fills the block and counts (:172-190), then gives it
    back to the system (:195-203).  Not modelled: ACL_ALLOCATOR_TRACK_ALL_ALLOCATIONS, the Android branches. *)
From Coq Require Import ZArith.
From Verif Require Import Word MemoryUtils.
Local Open Scope N_scope.

(** int32_t arithmetic of std::atomic: it wraps *)
Definition int32 (x : Z) : Z := ((x + 2 ^ 31) mod 2 ^ 32 - 2 ^ 31)%Z.

(** a block: its address, the size asked for, the size asked from the system *)
Record block := { b_ptr : N; b_size : N; b_len : N }.
(** what a thread is doing *)
Inductive pc := Idle | Counted (size alignment : N) | Freeing (b : block).
(** m_allocation_count, the blocks that callers hold, the threads, the bytes of the address space, and whether the assert of
    deallocate failed (:188) *)
Record heap := { h_count : Z; h_held : list block; h_threads : list pc; h_memory : N -> N; h_assert_failed : bool }.

Definition memset (memory : N -> N) (at_ n value : N) : N -> N := fun a => if (at_ <=? a) && (a <? at_ + n) then value else memory a.
Definition disjoint (p n : N) (b : block) : Prop := p + n <= b_ptr b \/ b_ptr b + b_len b <= p.
(** the blocks the system has given and not got back *)
Definition freeing (t : pc) : list block := match t with Freeing b => [b] | _ => [] end.
Definition in_use (h : heap) : list block := h_held h ++ flat_map freeing (h_threads h).
(** aligned_alloc and _aligned_malloc: an aligned block that overlaps no other *)
Definition system_block (h : heap) (alignment n p : N) : Prop :=
  p <> 0 /\ p mod alignment = 0 /\ p + n < 2 ^ 64 /\ Forall (disjoint p n) (in_use h).

(** what a step does: a call, a return, or a write of a caller to a block it holds *)
Inductive label :=
  | CallAllocate (thread : nat) (size alignment : N)
  | ReturnAllocate (thread : nat) (p : N)
  | CallDeallocate (thread : nat) (b : block)
  | ReturnDeallocate (thread : nat)
  | DeallocateNull (thread : nat)
  | CallerWrites (b : block) (at_ value : N).

Inductive step : heap -> label -> heap -> Prop :=
  (** allocate, ansi_allocator.h:112-128 *)
  | step_count h t size k : nth_error (h_threads h) t = Some Idle -> k < 64 ->
      step h (CallAllocate t size (2 ^ k))
        {| h_count := int32 (h_count h + 1); h_held := h_held h; h_threads := upd (h_threads h) t (Counted size (2 ^ k));
           h_memory := h_memory h; h_assert_failed := h_assert_failed h |}
  (** :126, :133-165: aligned_size is align_to(size, alignment) *)
  | step_block h t size alignment p : nth_error (h_threads h) t = Some (Counted size alignment) ->
      let n := align_to 64 size alignment in
      system_block h alignment n p ->
      step h (ReturnAllocate t p)
        {| h_count := h_count h; h_held := {| b_ptr := p; b_size := size; b_len := n |} :: h_held h; h_threads := upd (h_threads h) t Idle;
           h_memory := memset (h_memory h) p size 0xCD; h_assert_failed := h_assert_failed h |}
  (** the system is out of memory *)
  | step_no_block h t size alignment : nth_error (h_threads h) t = Some (Counted size alignment) ->
      step h (ReturnAllocate t 0)
        {| h_count := h_count h; h_held := h_held h; h_threads := upd (h_threads h) t Idle;
           h_memory := h_memory h; h_assert_failed := h_assert_failed h |}
  (** deallocate, :168-190, of a block the caller holds, with its size; [before ++ after] are the others *)
  | step_uncount h t b before after : nth_error (h_threads h) t = Some Idle -> h_held h = before ++ b :: after ->
      step h (CallDeallocate t b)
        {| h_count := int32 (h_count h - 1); h_held := before ++ after; h_threads := upd (h_threads h) t (Freeing b);
           h_memory := memset (h_memory h) (b_ptr b) (b_size b) 0xFE; h_assert_failed := h_assert_failed h || negb (0 <? h_count h)%Z |}
  (** :195-203 *)
  | step_free h t b : nth_error (h_threads h) t = Some (Freeing b) ->
      step h (ReturnDeallocate t)
        {| h_count := h_count h; h_held := h_held h; h_threads := upd (h_threads h) t Idle;
           h_memory := h_memory h; h_assert_failed := h_assert_failed h |}
  (** :170 *)
  | step_null h t : nth_error (h_threads h) t = Some Idle -> step h (DeallocateNull t) h
  (** not the allocator: a caller uses its block *)
  | step_write h b at_ value : In b (h_held h) -> b_ptr b <= at_ < b_ptr b + b_size b ->
      step h (CallerWrites b at_ value)
        {| h_count := h_count h; h_held := h_held h; h_threads := h_threads h; h_memory := memset (h_memory h) at_ 1 value; h_assert_failed := h_assert_failed h |}.

Inductive run : heap -> list label -> heap -> Prop :=
  | run_nil h : run h [] h
  | run_step h1 h2 h3 tr l : run h1 tr h2 -> step h2 l h3 -> run h1 (tr ++ [l]) h3.

(** the constructor, :69-77, and [n] threads that are not in a call *)
Definition started (n : nat) (memory : N -> N) : heap :=
  {| h_count := 0; h_held := []; h_threads := repeat Idle n; h_memory := memory; h_assert_failed := false |}.
(** the destructor, :79-93: its assert holds *)
Definition destructor_is_silent (h : heap) : bool := (h_count h =? 0)%Z.

(** the calls of a history *)
Definition is_allocate (l : label) : bool := match l with CallAllocate _ _ _ => true | _ => false end.
Definition is_deallocate (l : label) : bool := match l with CallDeallocate _ _ => true | _ => false end.
Definition is_failure (l : label) : bool := match l with ReturnAllocate _ p => p =? 0 | _ => false end.
Definition how_many (f : label -> bool) (tr : list label) : N := N.of_nat (length (filter f tr)).
