(** * Devices on which any call may fail.

    In [IoDevice.v] a device fails at the end of its data, and seeking, asking
    for the position and mapping succeed.  Here every call of [read],
    [fill_buf], [seek], [stream_position], mapping and [write] may fail at any
    time, once or for good.  A state is the device together with whether a call
    has failed so far; after a failure the device may be in any state. *)
From Verif Require Import Base Stream Vocab Storage IoDevice IoSink.
Local Open Scope N_scope.

(** ** Reading *)
Section Reading.
  Context {D : Type} (src : source D).

  Definition shaky_source : source (D * bool) := mkSource
    (fun d n x d' => (so_read src (fst d) n x (fst d') /\ snd d' = snd d) \/ (x = Failed /\ snd d' = true))
    (fun d x d' => (so_fill src (fst d) x (fst d') /\ snd d' = snd d) \/ (x = Failed /\ snd d' = true))
    (fun d k => (so_consume src (fst d) k, snd d))
    (fun d p => (so_start src (fst d) p, snd d))
    (fun d n => (so_current src (fst d) n, snd d))
    (fun d => so_position src (fst d))
    (fun d => so_map src (fst d)).

  (** A failing [seek], [stream_position] or [map]: everywhere in the readers of
      /repo the error is mapped with [Error::read_error] and returned with [?]
      (vocab/wrappers.rs 112-120, norms.rs 73-77, storage/array.rs 135-160 and
      347-351, storage/quantized.rs 119-123, storage/wrappers.rs). *)
  Definition upset {A} (x : res A) (d' : D * bool) : Prop := x = Err ERead /\ snd d' = true.

  Fixpoint shaky_runs {A} (p : prog A) : D * bool -> res A -> D * bool -> Prop :=
    match p with
    | Pure r => fun d x d' => x = r /\ d' = d
    | Exact n => fun d x d' => exact_loop shaky_source n d x d'
    | Until c => fun d x d' => until_loop shaky_source c d x d'
    | Position => fun d x d' => (x = Ok (so_position shaky_source d) /\ d' = d) \/ upset x d'
    | Forward n => fun d x d' => (x = Ok tt /\ d' = so_current shaky_source d n) \/ upset x d'
    | Map n => fun d x d' => (x = so_map shaky_source d (so_position shaky_source d) n /\ d' = d) \/ upset x d'
    | Bind p k => fun d x d' =>
        (exists a d1, shaky_runs p d (Ok a) d1 /\ shaky_runs (k a) d1 x d') \/
        (exists e, shaky_runs p d (Err e) d' /\ x = Err e) \/
        (exists w, shaky_runs p d (Panic w) d' /\ x = Panic w)
    | Try p => fun d x d' =>
        (exists a, shaky_runs p d (Ok a) d' /\ x = Ok (Some a)) \/
        (exists e, shaky_runs p d (Err e) d' /\ x = Ok None) \/
        (exists w, shaky_runs p d (Panic w) d' /\ x = Panic w)
    | Peek p => fun d x d' =>
        upset x d' \/
        (exists a d1, shaky_runs p d (Ok a) d1 /\
           ((x = Ok a /\ d' = so_start shaky_source d1 (so_position shaky_source d)) \/ upset x d')) \/
        (exists e, shaky_runs p d (Err e) d' /\ x = Err e) \/
        (exists w, shaky_runs p d (Panic w) d' /\ x = Panic w)
    end.
End Reading.

(** ** Writing *)

(** [write_all] on such a device; a call that fails stores nothing. *)
Inductive shaky_all : sink * bool -> list byte -> res unit -> sink * bool -> Prop :=
| sa_done k f : shaky_all (k, f) [] (Ok tt) (k, f)
| sa_more k f bs n k1 r k2 : bs <> [] -> dev_write k bs (Wrote n) k1 -> shaky_all (k1, f) (dropN n bs) r k2 -> shaky_all (k, f) bs r k2
| sa_refused k f bs k1 : bs <> [] -> dev_write k bs Refused k1 -> shaky_all (k, f) bs (Err EWrite) (k1, f)
| sa_retry k f bs k1 r k2 : bs <> [] -> dev_write k bs Paused k1 -> shaky_all (k1, f) bs r k2 -> shaky_all (k, f) bs r k2
| sa_failed k f bs : bs <> [] -> shaky_all (k, f) bs (Err EWrite) (k, true).
(** [stream_position]; the writers of /repo report a failure as a read error
    when they compute the length of a chunk (vocab/simple.rs 105-107, norms.rs
    116-118, storage/array.rs 225-227) and as a write error when they compute
    padding (norms.rs 111-113, storage/array.rs 219-221). *)
Definition shaky_position (k : sink * bool) (r : res N) (k' : sink * bool) : Prop :=
  (r = Ok (k_pos (fst k)) /\ k' = k) \/ ((r = Err ERead \/ r = Err EWrite) /\ k' = (fst k, true)).
Definition shaky_drain : drain (sink * bool) := mkDrain shaky_all shaky_position.
