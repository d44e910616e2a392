(** * Theorems about machines with pointers of other widths (C113). *)
From Verif Require Import Base BaseFacts Utf8 F32 Stream ChunkIO Subword Vocab Storage Embeddings Width WidthThms.
From Verif Require P_File.
Local Open Scope N_scope.

(** On 64-bit machines nothing changes. *)
Theorem width_64_thm : forall b T pf s,
  w_read m64 b T pf s = read_embeddings T (read_vocab_wrap pf) read_storage_wrap s.
Proof. exact (@WidthThms.width_64). Qed.
Print Assumptions width_64_thm.
Theorem width_64_mmap_thm : forall b T pf s,
  w_mmap m64 b T pf s = mmap_embeddings T (read_vocab_wrap pf) (mmap_storage_wrap pf) s.
Proof. exact (@WidthThms.width_64_mmap). Qed.
Print Assumptions width_64_mmap_thm.

(** If conversions took the place of the casts. *)
Theorem strict_read_thm : forall (w : machine) (N : narrow w) (T : toml_ops),
  forall pf s,
  as_64 w false (w_read w true T pf s) (read_embeddings T (read_vocab_wrap pf) read_storage_wrap s).
Proof. exact (@WidthThms.strict_read). Qed.
Print Assumptions strict_read_thm.
Theorem strict_mmap_thm : forall (w : machine) (N : narrow w) (T : toml_ops),
  forall s,
  as_64 w true (w_mmap w true T Debug s) (mmap_embeddings T (read_vocab_wrap Debug) (mmap_storage_wrap Debug) s).
Proof. exact (@WidthThms.strict_mmap). Qed.
Print Assumptions strict_mmap_thm.
(** Where the casts matter. *)
Theorem casts_read_thm : forall (w : machine),
  forall T pf s,
  w_read w false T pf s = w_read w true T pf s \/ fst (w_read w true T pf s) = Err EOverflow.
Proof. exact (@WidthThms.casts_read). Qed.
Print Assumptions casts_read_thm.
Theorem casts_mmap_thm : forall (w : machine),
  forall T pf s,
  w_mmap w false T pf s = w_mmap w true T pf s \/ fst (w_mmap w true T pf s) = Err EOverflow.
Proof. exact (@WidthThms.casts_mmap). Qed.
Print Assumptions casts_mmap_thm.
(** Files that fit. *)
Theorem fits_read_thm : forall w b T pf s e s',
  narrow w -> 3 * lenN (s_rest s) <= w_max w ->
  read_embeddings T (read_vocab_wrap pf) read_storage_wrap s = (Ok e, s') ->
  vocab_fits w pf (em_vocab e) -> shape_fits w (em_storage e) ->
  (em_norms e <> None -> w_read w b T pf s = (Ok e, s')) /\
  (fst (w_read w b T pf s) = Ok e \/ em_norms e = None /\ fst (w_read w b T pf s) = Panic PCapacity).
Proof. exact (@WidthThms.fits_read). Qed.
Print Assumptions fits_read_thm.
Theorem fits_mmap_thm : forall w b T pf s e s',
  narrow w -> 3 * lenN (s_rest s) <= w_max w ->
  mmap_embeddings T (read_vocab_wrap pf) (mmap_storage_wrap Debug) s = (Ok e, s') ->
  vocab_fits w pf (em_vocab e) -> shape_fits w (em_storage e) ->
  (em_norms e <> None -> w_mmap w b T pf s = (Ok e, s')) /\
  (fst (w_mmap w b T pf s) = Ok e \/ em_norms e = None /\ fst (w_mmap w b T pf s) = Panic PCapacity).
Proof. exact (@WidthThms.fits_mmap). Qed.
Print Assumptions fits_mmap_thm.
(** Mapped matrices that do not fit. *)
Theorem short_map_thm : forall w s m s',
  w_mmap_ndarray w Release s = (Ok m, s') -> w_size w <= ma_rows m * ma_cols m * 4 ->
  mm_len (ma_map m) < ma_rows m * ma_cols m * 4 /\ mma_row m (ma_rows m - 1) = Panic PUnsafe.
Proof. exact (@WidthThms.short_map). Qed.
Print Assumptions short_map_thm.

(** A file: a bucket vocabulary with [count] words, of which one ("a") is
    there, a matrix of shape 5 x 1 and possibly the start of norms. *)
Definition wx_vocab (count : N) : list byte :=
  le_bytes 4 3 ++ le_bytes 8 0 ++ le_bytes 8 count ++ le_bytes 4 3 ++ le_bytes 4 6 ++ le_bytes 4 2 ++ le_bytes 4 1 ++ [x61].
Definition wx_head : list byte := [x46; x69; x46; x75] ++ le_bytes 4 0 ++ le_bytes 4 2 ++ le_bytes 4 3 ++ le_bytes 4 2.
Definition wx_matrix (rows : N) (pad : nat) (data : list byte) : list byte :=
  le_bytes 4 2 ++ le_bytes 8 0 ++ le_bytes 8 rows ++ le_bytes 4 1 ++ le_bytes 4 10 ++ le_bytes pad 0 ++ data.
Definition wx_norms (count : N) (pad : nat) : list byte := le_bytes 4 6 ++ le_bytes 8 0 ++ le_bytes 8 count ++ le_bytes 4 10 ++ le_bytes pad 0.
Definition wx_file (count : N) (norms : list byte) : list byte := wx_head ++ wx_vocab count ++ wx_matrix 5 3 (le_bytes 20 0) ++ norms.
Definition wx_stream l := mkStream l 0.
Definition wx_read w b l := fst (w_read w b P_File.ex_toml Debug (wx_stream l)).

Example narrow_ex : narrow i686 /\ narrow arm32.
Proof. split; [apply narrow_i686|apply narrow_arm32]. Qed.
(** Room for pairs of a string and a [u64] is limited to 2 GiB: 107374182 of
    them on i686, where they take 20 bytes. *)
Example width_pairs_ex : map (fun w => map (fun n => fst (w_reserve w n (mw_pair w) (wx_stream []))) [89478485; 89478486; 107374182; 107374183]) [i686; arm32]
  = [[Ok tt; Ok tt; Ok tt; Panic PCapacity]; [Ok tt; Panic PCapacity; Panic PCapacity; Panic PCapacity]].
Proof. vm_compute. reflexivity. Qed.
Definition wx_emb : embeddings (toml_table P_File.ex_toml) vocab_wrap storage_wrap f32 :=
  match fst (read_embeddings P_File.ex_toml (read_vocab_wrap Debug) read_storage_wrap (wx_stream (wx_file 1 (wx_norms 1 4 ++ le_bytes 4 0)))) with
  | Ok e => e | _ => mkEmb None (SNdArray (mkA2 0 [])) (VSimple (mkSimple [] [])) None end.
Example fits_read_ex : exists s', 3 * lenN (s_rest (wx_stream (wx_file 1 (wx_norms 1 4 ++ le_bytes 4 0)))) <= w_max i686 /\
  read_embeddings P_File.ex_toml (read_vocab_wrap Debug) read_storage_wrap (wx_stream (wx_file 1 (wx_norms 1 4 ++ le_bytes 4 0))) = (Ok wx_emb, s') /\
  vocab_fits i686 Debug (em_vocab wx_emb) /\ shape_fits i686 (em_storage wx_emb) /\ em_norms wx_emb <> None /\
  v_words wrap_ops (em_vocab wx_emb) = [[x61]].
Proof.
  eexists. split; [vm_compute; discriminate|]. split; [vm_compute; reflexivity|]. split.
  - intros n H. vm_compute in H. injection H as <-. reflexivity.
  - split; [vm_compute; split; discriminate|]. split; [vm_compute; discriminate|reflexivity].
Qed.

(** The casts accept files that 64-bit machines reject. *)
Theorem truncated_refuted : exists l e, wx_read i686 false l = Ok e /\ v_words wrap_ops (em_vocab e) = [[x61]] /\
  (exists er, wx_read m64 false l = Err er) /\ wx_read i686 true l = Err EOverflow.
Proof. exists (wx_file 4294967297 []). eexists. split; [vm_compute; reflexivity|]. split; [reflexivity|]. split; [eexists|]; vm_compute; reflexivity. Qed.
Print Assumptions truncated_refuted.

(** A file with damaged norms that 64-bit machines read without norms. *)
Theorem damaged_norms_refuted : exists l e, wx_read m64 false l = Ok e /\ em_norms e = None /\ wx_read i686 false l = Panic PCapacity /\
  vocab_fits i686 Debug (em_vocab e) /\ shape_fits i686 (em_storage e).
Proof.
  exists (wx_file 1 (wx_norms 536870912 4)). eexists. split; [vm_compute; reflexivity|]. split; [reflexivity|]. split; [vm_compute; reflexivity|]. split.
  - intros n H. vm_compute in H. injection H as <-. reflexivity.
  - vm_compute. split; discriminate.
Qed.
Print Assumptions damaged_norms_refuted.

(** A matrix of 4 GiB: without overflow checks nothing of it is mapped. *)
Theorem unmapped_refuted : exists l m s', w_mmap_ndarray i686 Release (wx_stream l) = (Ok m, s') /\ w_size i686 <= ma_rows m * ma_cols m * 4 /\
  mm_len (ma_map m) = 0 /\ mma_row m 0 = Panic PUnsafe /\ w_mmap_ndarray i686 Debug (wx_stream l) = (Panic PArithOverflow, s').
Proof.
  exists (wx_matrix 1073741824 4 (le_bytes 20 0)). eexists. eexists. split; [vm_compute; reflexivity|]. split; [vm_compute; discriminate|].
  split; [reflexivity|]. split; vm_compute; reflexivity.
Qed.
Print Assumptions unmapped_refuted.
