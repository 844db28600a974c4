(** * SpecRace: threads whose areas of guest memory overlap.

    Built on [SpecTrace]: there the threads keep apart; here they need not. *)
From Verif Require Import Base Io Mem SpecMem Cmdline Loader Elf BzImage Pe BootParams Configurators SpecVmm SpecTrace.

(** Some call of the thread is meant to put byte [b] at address [a]. *)
Definition may_put (ts : list task) (a : N) (b : byte) : Prop :=
  exists t pieces s, In t ts /\ plan t pieces /\ In s pieces /\
    in_range (fst s) (lenN (snd s)) a /\ nth_error (snd s) (N.to_nat (a - fst s)) = Some b.

(** Where two of the threads are meant to write to the same address, it is the same byte. *)
Definition threads_agree (threads : list (list task)) : Prop :=
  forall i j ts us a b c, i <> j -> nth_error threads i = Some ts -> nth_error threads j = Some us ->
    may_put ts a b -> may_put us a c -> b = c.

(** No source is cut short in a way that matters (see [unbroken]). *)
Definition all_unbroken (be : backend) (threads : list (list task)) : Prop := Forall (Forall (unbroken be)) threads.
