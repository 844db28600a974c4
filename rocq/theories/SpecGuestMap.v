(** * SpecGuestMap: which lists of ranges make a guest memory, and what a search in a sorted list reports. *)
From Verif Require Import Base Mem GuestMap.

(** Ranges (start, size) are in order, each ending at or before the start of every later one. *)
Definition in_order (ranges : list (N * N)) : Prop :=
  forall i j a n b k, (i < j)%nat -> nth_error ranges i = Some (a, n) -> nth_error ranges j = Some (b, k) -> a + n <= b.

(** There is a range, none is empty, all end below 2^64, and they are in order. *)
Definition acceptable (ranges : list (N * N)) : Prop :=
  ranges <> [] /\ (forall a n, In (a, n) ranges -> 0 < n /\ a + n < 2 ^ 64) /\ in_order ranges.

(** Strictly increasing. *)
Definition increasing (keys : list N) : Prop :=
  forall i j x y, (i < j)%nat -> nth_error keys i = Some x -> nth_error keys j = Some y -> x < y.

(** The contract of [slice::binary_search]: where the key is, or else where it could be inserted. *)
Definition search_contract (search : list N -> N -> place_found) : Prop :=
  forall keys k, increasing keys ->
    match search keys k with
    | At i => nth_error keys i = Some k
    | Gap i => (i <= length keys)%nat /\
               (forall j x, (j < i)%nat -> nth_error keys j = Some x -> x < k) /\
               (forall j x, (i <= j)%nat -> nth_error keys j = Some x -> k < x)
    end.
