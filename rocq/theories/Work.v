(** * How many calls a reader makes.

    The number of calls of [read_exact], [read_until], [seek],
    [stream_position] and of the memory mapping that a reader makes on a
    stream, by the way in which it is written: [counts m c] has one rule for
    each of these operations and for each way to combine readers, and none that
    replaces a reader by another one with the same results.  In the loops of
    the readers of /repo each turn makes a call, so that this is their running
    time, up to the work in memory between two calls. *)
From Verif Require Import Base Stream Vocab Storage ChunkIO.
Local Open Scope N_scope.

Inductive counts : forall {A : Type}, reader A -> (stream -> N) -> Prop :=
| ct_lift A (r : res A) : counts (lift r) (fun _ => 0)
| ct_reserve n size : counts (reserve n size) (fun _ => 0)
| ct_alloc dims size : counts (alloc_zeros dims size) (fun _ => 0)
| ct_exact n : counts (read_exact n) (fun _ => 1)
| ct_until d : counts (read_until d) (fun _ => 1)
| ct_position : counts position (fun _ => 1)
| ct_seek n : counts (seek_forward n) (fun _ => 1)
| ct_map n : counts (mmap_region n) (fun _ => 1)
| ct_bind A B (m : reader A) (k : A -> reader B) cm ck :
    counts m cm -> (forall a, counts (k a) (ck a)) ->
    counts (bind m k) (fun s => cm s + match m s with (Ok a, s') => ck a s' | _ => 0 end)
| ct_ok_opt A (m : reader A) c : counts m c -> counts (ok_opt m) c
(** the position first; back to it if the reader succeeds *)
| ct_peek A (m : reader A) c : counts m c ->
    counts (peek m) (fun s => 1 + c s + match m s with (Ok _, _) => 1 | _ => 0 end)
(** the bound on the number of lines in the models of line readers *)
| ct_fuel A (m : nat -> reader A) c (f : stream -> nat) :
    (forall n, counts (m n) (c n)) -> counts (fun s => m (f s) s) (fun s => c (f s) s).
