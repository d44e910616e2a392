(** * How the standard library writes (writers of std::io).

    [write_bytes] of [Stream.v] stores all its bytes at once.  Here is what
    happens underneath: a device accepts any number of the bytes that it is
    given and may be interrupted, [write_all] calls it until it is done, and
    [BufWriter] holds bytes back.  The definitions follow library/std/src/io:
    mod.rs ([Write::write_all]) and buffered/bufwriter.rs. *)
From Verif Require Import Base Stream.
Local Open Scope N_scope.

(** [Write::write] of a device: a number of bytes, [ErrorKind::Interrupted],
    or a refusal (another error, or no bytes at all). *)
Inductive wio := Wrote (n : N) | Paused | Refused.
(** Room for [n] more bytes. *)
Definition room (k : sink) (n : N) : Prop := match k_cap k with None => True | Some c => lenN (k_out k) + n <= c end.
(** At least one byte is accepted as long as there is room. *)
Inductive dev_write (k : sink) (bs : list byte) : wio -> sink -> Prop :=
| dw_some n : 0 < n -> n <= lenN bs -> room k n -> dev_write k bs (Wrote n) (push (takeN n bs) k)
| dw_refused : bs <> [] -> ~ room k 1 -> dev_write k bs Refused k
| dw_paused : dev_write k bs Paused k.

(** [Write::write_all]; no bytes at all are the error [WriteZero]. *)
Inductive all_loop : sink -> list byte -> res unit -> sink -> Prop :=
| al_done k : all_loop k [] (Ok tt) k
| al_more k bs n k1 r k2 : bs <> [] -> dev_write k bs (Wrote n) k1 -> all_loop k1 (dropN n bs) r k2 -> all_loop k bs r k2
| al_refused k bs k1 : bs <> [] -> dev_write k bs Refused k1 -> all_loop k bs (Err EWrite) k1
| al_retry k bs k1 r k2 : bs <> [] -> dev_write k bs Paused k1 -> all_loop k1 bs r k2 -> all_loop k bs r k2.

(** *** [BufWriter]: a capacity, the bytes held back, and the device *)
Record bufwriter := mkBw { bw_cap : N; bw_buf : list byte; bw_dev : sink }.
Definition bw_set (b : bufwriter) (buf : list byte) (k : sink) : bufwriter := mkBw (bw_cap b) buf k.

(** [flush_buf]; the guard removes what has been written. *)
Inductive bw_flush : bufwriter -> res unit -> bufwriter -> Prop :=
| fl_done b : bw_buf b = [] -> bw_flush b (Ok tt) b
| fl_more b n k r b2 : bw_buf b <> [] -> dev_write (bw_dev b) (bw_buf b) (Wrote n) k ->
    bw_flush (bw_set b (dropN n (bw_buf b)) k) r b2 -> bw_flush b r b2
| fl_refused b k : bw_buf b <> [] -> dev_write (bw_dev b) (bw_buf b) Refused k ->
    bw_flush b (Err EWrite) (bw_set b (bw_buf b) k)
| fl_retry b k r b2 : bw_buf b <> [] -> dev_write (bw_dev b) (bw_buf b) Paused k ->
    bw_flush (bw_set b (bw_buf b) k) r b2 -> bw_flush b r b2.

(** [write_all]: bytes that fit are held back; otherwise ([write_all_cold])
    the buffer is flushed if needed, and large requests bypass it. *)
Definition bw_spare (b : bufwriter) : N := bw_cap b - lenN (bw_buf b).
Definition bw_hold (b : bufwriter) (bs : list byte) : bufwriter := bw_set b (bw_buf b ++ bs) (bw_dev b).
Inductive bw_cold : bufwriter -> list byte -> res unit -> bufwriter -> Prop :=
| bc_bypass b bs r k : bw_cap b <= lenN bs -> all_loop (bw_dev b) bs r k -> bw_cold b bs r (bw_set b (bw_buf b) k)
| bc_hold b bs : lenN bs < bw_cap b -> bw_cold b bs (Ok tt) (bw_hold b bs).
Inductive bw_all : bufwriter -> list byte -> res unit -> bufwriter -> Prop :=
| ba_hold b bs : lenN bs < bw_spare b -> bw_all b bs (Ok tt) (bw_hold b bs)
| ba_fits b bs r b2 : lenN bs = bw_spare b -> bw_cold b bs r b2 -> bw_all b bs r b2
| ba_flush b bs b1 r b2 : bw_spare b < lenN bs -> bw_flush b (Ok tt) b1 -> bw_cold b1 bs r b2 -> bw_all b bs r b2
| ba_failed b bs e b1 : bw_spare b < lenN bs -> bw_flush b (Err e) b1 -> bw_all b bs (Err e) b1.
(** [Drop]: flushes and ignores the error. *)
Definition bw_drop (b : bufwriter) (k : sink) : Prop := exists r b1, bw_flush b r b1 /\ k = bw_dev b1.

(** ** What a writer offers: [write_all] and [stream_position] *)
Record drain (D : Type) := mkDrain {
  dn_all : D -> list byte -> res unit -> D -> Prop;
  dn_position : D -> res N -> D -> Prop
}.
Arguments mkDrain {D}. Arguments dn_all {D}. Arguments dn_position {D}.
Definition dev_drain : drain sink := mkDrain all_loop (fun k r k' => r = Ok (k_pos k) /\ k' = k).
(** [stream_position] is [seek(Current(0))], which flushes.  Its failure is
    reported as [Error::Read] (/repo/src/chunks/vocab/simple.rs, lines
    105-107) or [Error::Write] (/repo/src/chunks/storage/array.rs, lines
    219-221). *)
Definition bw_position (b : bufwriter) (r : res N) (b' : bufwriter) : Prop :=
  (bw_flush b (Ok tt) b' /\ r = Ok (k_pos (bw_dev b'))) \/ (exists e, bw_flush b (Err e) b' /\ (r = Err EWrite \/ r = Err ERead)).
Definition buf_drain : drain bufwriter := mkDrain bw_all bw_position.

(** ** Programs that write *)
Inductive wprog : Type -> Type :=
| WPure {A} (r : res A) : wprog A
| WAll (bs : list byte) : wprog unit
| WAllR (bs : list byte) : wprog unit (** reported as [Error::Read] *)
| WPosition : wprog N
| WBind {A B} (p : wprog A) (k : A -> wprog B) : wprog B.

Fixpoint wdenote {A} (p : wprog A) : writer A :=
  match p with
  | WPure r => lift r
  | WAll bs => write_bytes bs
  | WAllR bs => as_read (write_bytes bs)
  | WPosition => wposition
  | WBind p k => bind (wdenote p) (fun a => wdenote (k a))
  end.
Fixpoint wruns {D} (dn : drain D) {A} (p : wprog A) : D -> res A -> D -> Prop :=
  match p with
  | WPure r => fun d x d' => x = r /\ d' = d
  | WAll bs => fun d x d' => dn_all dn d bs x d'
  | WAllR bs => fun d x d' => exists y, dn_all dn d bs y d' /\ x = to_read y
  | WPosition => fun d x d' => dn_position dn d x d'
  | WBind p k => fun d x d' =>
      (exists a d1, wruns dn p d (Ok a) d1 /\ wruns dn (k a) d1 x d') \/
      (exists e, wruns dn p d (Err e) d' /\ x = Err e) \/
      (exists w, wruns dn p d (Panic w) d' /\ x = Panic w)
  end.
