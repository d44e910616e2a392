(** * How the standard library reads (readers of std::io).

    [Stream.v] describes readers by the data they hold.  Here is what happens
    underneath: a device delivers its data in parts of any size and may be
    interrupted at any time, [BufReader] holds some bytes, and the loops of
    [Read::read_exact] and [BufRead::read_until] call the device until they are
    done.  The definitions follow library/std/src/io: mod.rs
    ([default_read_exact], [read_until]), buffered/bufreader.rs and cursor.rs.
    [DeviceThms.v] proves that the readers of /repo cannot tell the
    difference. *)
From Verif Require Import Base Stream Vocab Storage.
Local Open Scope N_scope.

(** ** Data on a device *)

(** All bytes from position zero, the current position, and whether reading
    beyond the last byte fails instead of reporting the end. *)
Record medium := mkMedium { md_data : list byte; md_pos : N; md_fault : bool }.
Definition unread (m : medium) : list byte := dropN (md_pos m) (md_data m).
Definition advance (m : medium) (k : N) : medium := mkMedium (md_data m) (md_pos m + k) (md_fault m).
Definition jump (m : medium) (p : N) : medium := mkMedium (md_data m) p (md_fault m).

(** Results of a call: bytes, [ErrorKind::Interrupted], any other error. *)
Inductive io := Got (bs : list byte) | Interrupted | Failed.

(** [Read::read] of a device with a buffer of [n] bytes: any number of the
    next bytes but at least one, or an interruption; no bytes only at the end. *)
Inductive dev_read (m : medium) (n : N) : io -> medium -> Prop :=
| dr_some k : 0 < k -> k <= n -> k <= lenN (unread m) -> dev_read m n (Got (takeN k (unread m))) (advance m k)
| dr_end : unread m = [] -> md_fault m = false -> dev_read m n (Got []) m
| dr_fault : unread m = [] -> md_fault m = true -> dev_read m n Failed m
| dr_interrupted : dev_read m n Interrupted m.

(** Mapping [n] bytes of a file from the offset [off] (memmap2). *)
Definition map_medium (m : medium) (off n : N) : res mmap :=
  if n <=? isize_max then Ok (mkMmap n (takeN n (dropN off (md_data m)))) else Err ERead.

(** ** What a reader offers: [Read], [BufRead], [Seek], and mapping the file
    underneath ([get_ref]) *)
Record source (D : Type) := mkSource {
  so_read : D -> N -> io -> D -> Prop;
  so_fill : D -> io -> D -> Prop;
  so_consume : D -> N -> D;
  so_start : D -> N -> D;
  so_current : D -> N -> D;
  so_position : D -> N;
  so_map : D -> N -> N -> res mmap
}.
Arguments mkSource {D}. Arguments so_read {D}. Arguments so_fill {D}. Arguments so_consume {D}.
Arguments so_start {D}. Arguments so_current {D}. Arguments so_position {D}. Arguments so_map {D}.

(** *** [BufReader]: a capacity, the bytes that were read from the device and
    not yet consumed, and the device *)
Record bufreader := mkBuf { br_cap : N; br_buf : list byte; br_dev : medium }.

(** [fill_buf]: reads only if the buffer is empty. *)
Inductive br_fill (b : bufreader) : io -> bufreader -> Prop :=
| bf_full : br_buf b <> [] -> br_fill b (Got (br_buf b)) b
| bf_read bs m : br_buf b = [] -> dev_read (br_dev b) (br_cap b) (Got bs) m ->
    br_fill b (Got bs) (mkBuf (br_cap b) bs m)
| bf_interrupted m : br_buf b = [] -> dev_read (br_dev b) (br_cap b) Interrupted m ->
    br_fill b Interrupted (mkBuf (br_cap b) [] m)
| bf_failed m : br_buf b = [] -> dev_read (br_dev b) (br_cap b) Failed m ->
    br_fill b Failed (mkBuf (br_cap b) [] m).
(** [consume] *)
Definition br_consume (b : bufreader) (k : N) : bufreader := mkBuf (br_cap b) (dropN k (br_buf b)) (br_dev b).
(** [read]: large requests bypass an empty buffer. *)
Inductive br_read (b : bufreader) (n : N) : io -> bufreader -> Prop :=
| bb_bypass x m : br_buf b = [] -> br_cap b <= n -> dev_read (br_dev b) n x m ->
    br_read b n x (mkBuf (br_cap b) [] m)
| bb_got bs b' : (br_buf b <> [] \/ n < br_cap b) -> br_fill b (Got bs) b' ->
    br_read b n (Got (takeN n bs)) (br_consume b' (lenN (takeN n bs)))
| bb_interrupted b' : (br_buf b <> [] \/ n < br_cap b) -> br_fill b Interrupted b' -> br_read b n Interrupted b'
| bb_failed b' : (br_buf b <> [] \/ n < br_cap b) -> br_fill b Failed b' -> br_read b n Failed b'.
(** [seek]: the buffer is discarded; relative to the bytes that were consumed. *)
Definition br_start (b : bufreader) (p : N) : bufreader := mkBuf (br_cap b) [] (jump (br_dev b) p).
Definition br_current (b : bufreader) (n : N) : bufreader :=
  mkBuf (br_cap b) [] (jump (br_dev b) (Z.to_N (Z.of_N (md_pos (br_dev b)) + (Z.of_N n - Z.of_N (lenN (br_buf b)))))).
(** [stream_position] *)
Definition br_position (b : bufreader) : N := md_pos (br_dev b) - lenN (br_buf b).
Definition buf_source : source bufreader := mkSource br_read br_fill br_consume br_start br_current br_position (fun b => map_medium (br_dev b)).

(** *** [Cursor<Vec<u8>>]: everything at once *)
Inductive cur_read (m : medium) (n : N) : io -> medium -> Prop :=
| cr_read : cur_read m n (Got (takeN n (unread m))) (advance m (lenN (takeN n (unread m)))).
Inductive cur_fill (m : medium) : io -> medium -> Prop :=
| cr_fill : cur_fill m (Got (unread m)) m.
Definition cur_source : source medium := mkSource cur_read cur_fill advance jump advance md_pos map_medium.

(** ** The loops of the standard library *)
Section Loops.
  Context {D : Type} (src : source D).

  Definition after (bs : list byte) (r : res (list byte)) : res (list byte) :=
    match r with Ok l => Ok (bs ++ l) | Err e => Err e | Panic p => Panic p end.

  (** [default_read_exact]; [BufReader] has a shortcut for bytes that are in
      its buffer, which are the bytes that its [read] returns. *)
  Inductive exact_loop : N -> D -> res (list byte) -> D -> Prop :=
  | el_done d : exact_loop 0 d (Ok []) d
  | el_more n d bs d1 r d2 : 0 < n -> so_read src d n (Got bs) d1 -> bs <> [] ->
      exact_loop (n - lenN bs) d1 r d2 -> exact_loop n d (after bs r) d2
  | el_end n d d1 : 0 < n -> so_read src d n (Got []) d1 -> exact_loop n d (Err ERead) d1
  | el_retry n d d1 r d2 : 0 < n -> so_read src d n Interrupted d1 -> exact_loop n d1 r d2 -> exact_loop n d r d2
  | el_failed n d d1 : 0 < n -> so_read src d n Failed d1 -> exact_loop n d (Err ERead) d1.

  (** [read_until]; the position of the delimiter is what [memchr] finds. *)
  Inductive until_loop (c : byte) : D -> res (list byte) -> D -> Prop :=
  | ul_found d x y d1 : so_fill src d (Got (x ++ c :: y)) d1 -> ~ In c x ->
      until_loop c d (Ok (x ++ [c])) (so_consume src d1 (lenN x + 1))
  | ul_more d bs d1 r d2 : so_fill src d (Got bs) d1 -> bs <> [] -> ~ In c bs ->
      until_loop c (so_consume src d1 (lenN bs)) r d2 -> until_loop c d (after bs r) d2
  | ul_end d d1 : so_fill src d (Got []) d1 -> until_loop c d (Ok []) (so_consume src d1 0)
  | ul_retry d d1 r d2 : so_fill src d Interrupted d1 -> until_loop c d1 r d2 -> until_loop c d r d2
  | ul_failed d d1 : so_fill src d Failed d1 -> until_loop c d (Err ERead) d1.
End Loops.

(** ** Programs that read

    The ways in which the readers of /repo use a reader: [Bind] is sequential
    composition with [?], [Try] is [.ok()], [Peek] remembers the position, reads,
    and seeks back to it. *)
Inductive prog : Type -> Type :=
| Pure {A} (r : res A) : prog A
| Exact (n : N) : prog (list byte)
| Until (c : byte) : prog (list byte)
| Position : prog N
| Forward (n : N) : prog unit
| Map (n : N) : prog mmap
| Bind {A B} (p : prog A) (k : A -> prog B) : prog B
| Try {A} (p : prog A) : prog (option A)
| Peek {A} (p : prog A) : prog A.

(** On a stream. *)
Fixpoint denote {A} (p : prog A) : reader A :=
  match p with
  | Pure r => lift r
  | Exact n => read_exact n
  | Until c => read_until c
  | Position => position
  | Forward n => seek_forward n
  | Map n => mmap_region n
  | Bind p k => bind (denote p) (fun a => denote (k a))
  | Try p => ok_opt (denote p)
  | Peek p => peek (denote p)
  end.

(** On a device: the possible results and states after them. *)
Fixpoint runs {D} (src : source D) {A} (p : prog A) : D -> res A -> D -> Prop :=
  match p with
  | Pure r => fun d x d' => x = r /\ d' = d
  | Exact n => fun d x d' => exact_loop src n d x d'
  | Until c => fun d x d' => until_loop src c d x d'
  | Position => fun d x d' => x = Ok (so_position src d) /\ d' = d
  | Forward n => fun d x d' => x = Ok tt /\ d' = so_current src d n
  | Map n => fun d x d' => x = so_map src d (so_position src d) n /\ d' = d
  | Bind p k => fun d x d' =>
      (exists a d1, runs src p d (Ok a) d1 /\ runs src (k a) d1 x d') \/
      (exists e, runs src p d (Err e) d' /\ x = Err e) \/
      (exists w, runs src p d (Panic w) d' /\ x = Panic w)
  | Try p => fun d x d' =>
      (exists a, runs src p d (Ok a) d' /\ x = Ok (Some a)) \/
      (exists e, runs src p d (Err e) d' /\ x = Ok None) \/
      (exists w, runs src p d (Panic w) d' /\ x = Panic w)
  | Peek p => fun d x d' =>
      (exists a d1, runs src p d (Ok a) d1 /\ x = Ok a /\ d' = so_start src d1 (so_position src d)) \/
      (exists e, runs src p d (Err e) d' /\ x = Err e) \/
      (exists w, runs src p d (Panic w) d' /\ x = Panic w)
  end.
