(** * Theorems about devices that deliver their data in parts (C110, C111). *)
From Verif Require Import Base BaseFacts Utf8 Stream F32 ChunkIO Subword Vocab Storage Embeddings TextIO FastText FileSpec IoDevice DeviceThms IoSink SinkThms DrainThms P_File.
From Verif Require P_Text P_FastText P_Emb TextThms.
Local Open Scope N_scope.

(** ** C110: however a device delivers its data, the readers give one result

    Readers of /repo are programs over [read_exact], [read_until] and seeking
    (on data of any length). *)
Theorem vocab_programs_thm : forall pf,
  is_program read_simple /\ (forall I (ops : bucket_ops I) id, is_program (read_bucketed ops pf id)) /\
  is_program (read_explicit pf) /\ is_program (read_floret pf) /\ is_program (read_vocab_wrap pf).
Proof. exact (@DeviceThms.vocab_programs). Qed.
Print Assumptions vocab_programs_thm.
Theorem storage_programs_thm : is_program read_ndarray /\ is_program read_quantized /\ is_program read_storage_wrap /\ is_program read_storage_view_wrap.
Proof. exact (@DeviceThms.storage_programs). Qed.
Print Assumptions storage_programs_thm.
Theorem embeddings_programs_thm : forall T (V S : Type) (rv : reader V) (rs : reader S),
  is_program rv -> is_program rs -> is_program (read_embeddings T rv rs).
Proof. exact (@DeviceThms.embeddings_programs). Qed.
Print Assumptions embeddings_programs_thm.
Theorem mapped_programs_thm : forall pf,
  is_program (mmap_ndarray pf) /\ is_program (mmap_quantized_chunk pf) /\ is_program (mmap_storage_wrap pf) /\ is_program (mmap_storage_view_wrap pf) /\
  forall T V S (rv : reader V) (rs : reader S), is_program rv -> is_program rs -> is_program (mmap_embeddings T rv rs).
Proof. exact (@DeviceThms.mapped_programs). Qed.
Print Assumptions mapped_programs_thm.
Theorem metadata_programs_thm : forall T,
  is_program (read_metadata T).
Proof. exact (@DeviceThms.metadata_programs). Qed.
Print Assumptions metadata_programs_thm.
Theorem text_programs_thm : forall P pf (Md : Type) lossy,
  is_program (read_text_raw (Md := Md) P pf lossy) /\ is_program (read_text (Md := Md) P pf lossy) /\
  is_program (read_text_dims_raw (Md := Md) P pf lossy) /\ is_program (read_text_dims (Md := Md) P pf lossy) /\
  is_program (read_word2vec_raw (Md := Md) pf lossy) /\ is_program (read_word2vec (Md := Md) pf lossy) /\ is_program (read_floret_text (Md := Md) P pf).
Proof. exact (@DeviceThms.text_programs). Qed.
Print Assumptions text_programs_thm.
Theorem fasttext_programs_thm : forall pf T config_table lossy,
  is_program (read_fasttext pf T config_table lossy).
Proof. exact (@DeviceThms.fasttext_programs). Qed.
Print Assumptions fasttext_programs_thm.

(** A program on any reader that keeps the contracts of [Read], [BufRead] and
    [Seek]. *)
Theorem device_result_thm : forall (A : Type) (m : reader A) n p,
  performs n p m ->
  forall D (src : source D) inv abs, contract src inv abs -> forall d, inv d -> (length (unread (abs d)) <= n)%nat ->
  (forall x d', runs src p d x d' ->
    inv d' /\ m (stream_of (abs d)) = (x, stream_of (abs d')) /\ md_data (abs d') = md_data (abs d)) /\
  (responsive src inv -> exists x d', runs src p d x d').
Proof. exact (@DeviceThms.device_result). Qed.
Print Assumptions device_result_thm.
Theorem devices_agree_thm : forall (A : Type) (m : reader A) n p,
  performs n p m ->
  forall D src inv abs D' src' inv' abs', @contract D src inv abs -> @contract D' src' inv' abs' ->
  forall d d0 x y e e0, inv d -> inv' d0 -> abs d = abs' d0 -> (length (unread (abs d)) <= n)%nat ->
  runs src p d x e -> runs src' p d0 y e0 -> x = y /\ md_data (abs e) = md_data (abs' e0) /\ s_rest (stream_of (abs e)) = s_rest (stream_of (abs' e0)) /\ md_pos (abs e) = md_pos (abs' e0).
Proof. exact (@DeviceThms.devices_agree). Qed.
Print Assumptions devices_agree_thm.
(** [BufReader] with any capacity on a device with any part sizes and
    interruptions, and [Cursor]. *)
Theorem buf_contract_thm : contract buf_source buf_inv buf_abs.
Proof. exact (@DeviceThms.buf_contract). Qed.
Print Assumptions buf_contract_thm.
Theorem buf_responsive_thm : responsive buf_source buf_inv.
Proof. exact (@DeviceThms.buf_responsive). Qed.
Print Assumptions buf_responsive_thm.
Theorem cur_contract_thm : contract cur_source (fun m => md_fault m = false) (fun m => m) /\ responsive cur_source (fun m => md_fault m = false).
Proof. exact (@DeviceThms.cur_contract). Qed.
Print Assumptions cur_contract_thm.
Theorem bufreader_result_thm : forall (A : Type) (m : reader A) n p,
  performs n p m ->
  forall cap data fault, 0 < cap -> (length data <= n)%nat ->
  (exists x b, runs buf_source p (opened cap data fault) x b) /\
  forall x b, runs buf_source p (opened cap data fault) x b -> m (mkBroken data 0 fault) = (x, stream_of (buf_abs b)).
Proof. exact (@DeviceThms.bufreader_result). Qed.
Print Assumptions bufreader_result_thm.
Theorem cursor_result_thm : forall (A : Type) (m : reader A) n p,
  performs n p m -> forall data, (length data <= n)%nat ->
  (exists x c, runs cur_source p (mkMedium data 0 false) x c) /\
  forall x c, runs cur_source p (mkMedium data 0 false) x c -> m (mkStream data 0) = (x, stream_of c).
Proof. exact (@DeviceThms.cursor_result). Qed.
Print Assumptions cursor_result_thm.

(** Two bytes and a line. *)
Definition ex_prog : prog (list byte * list byte) := Bind (Exact 2) (fun b => Bind (Until x0a) (fun l => Pure (Ok (b, l)))).
Definition ex_reader : reader (list byte * list byte) := b <- read_exact 2 ;; l <- read_until x0a ;; ret (b, l).
Definition ex_data : list byte := [x61; x62; x63; x0a; x64].
Example ex_performs : is_program ex_reader /\ forall n, performs n ex_prog ex_reader.
Proof. assert (forall n, performs n ex_prog ex_reader) as H by (intros n s _; reflexivity). split; [intros n; exists ex_prog; apply H|exact H]. Qed.
(** A buffer of three bytes, one byte at first, an interruption, two bytes,
    and the rest. *)
Example device_ex : exists b, runs buf_source ex_prog (opened 3 ex_data false) (Ok ([x61; x62], [x63; x0a])) b /\
  br_buf b = [x64] /\ stream_of (buf_abs b) = mkStream [x64] 4 /\
  ex_reader (mkStream ex_data 0) = (Ok ([x61; x62], [x63; x0a]), mkStream [x64] 4).
Proof.
  exists (mkBuf 3 [x64] (mkMedium ex_data 5 false)). split; [|vm_compute; repeat split].
  left. exists [x61; x62], (mkBuf 3 [x63] (mkMedium ex_data 3 false)). split.
  - change (Ok [x61; x62]) with (after [x61] (after [x62] (Ok []))). eapply el_more with (bs := [x61]) (d1 := mkBuf 3 [] (mkMedium ex_data 1 false)); [reflexivity| |discriminate|].
    { apply (bb_got (opened 3 ex_data false) 2 [x61] (mkBuf 3 [x61] (mkMedium ex_data 1 false))); [right; reflexivity|].
      apply bf_read; [reflexivity|]. apply (dr_some (mkMedium ex_data 0 false) 3 1); [reflexivity|discriminate|discriminate]. }
    eapply el_retry; [reflexivity| |].
    { apply bb_interrupted; [right; reflexivity|]. eapply bf_interrupted; [reflexivity|apply dr_interrupted]. }
    eapply el_more with (bs := [x62]) (d1 := mkBuf 3 [x63] (mkMedium ex_data 3 false)); [reflexivity| |discriminate|apply el_done].
    apply (bb_got (mkBuf 3 [] (mkMedium ex_data 1 false)) 1 [x62; x63] (mkBuf 3 [x62; x63] (mkMedium ex_data 3 false))); [right; reflexivity|].
    apply bf_read; [reflexivity|]. apply (dr_some (mkMedium ex_data 1 false) 3 2); [reflexivity|discriminate|discriminate].
  - left. exists [x63; x0a], (mkBuf 3 [x64] (mkMedium ex_data 5 false)). split; [|split; reflexivity].
    change (Ok [x63; x0a]) with (after [x63] (Ok ([] ++ [x0a]))). eapply ul_more; [apply bf_full; discriminate|discriminate|intros [H|[]]; discriminate|].
    apply (ul_found buf_source x0a (mkBuf 3 [] (mkMedium ex_data 3 false)) [] [x64] (mkBuf 3 [x0a; x64] (mkMedium ex_data 5 false))); [|intros []].
    apply bf_read; [reflexivity|]. apply (dr_some (mkMedium ex_data 3 false) 3 2); [reflexivity|discriminate|discriminate].
Qed.
(** A text file on devices of every kind; a failing device is an error. *)
Example text_device_ex : let m := read_text_raw (Md := unit) P_Text.ex_P Debug false in
  let f := TextThms.text_file P_Text.ex_P P_Text.ex_items in
  exists p, performs (length f) p m /\
  (forall cap x b, 0 < cap -> runs buf_source p (opened cap f false) x b -> x = fst (m (mkStream f 0)) /\ exists e, x = Ok e) /\
  (forall cap x b, 0 < cap -> runs buf_source p (opened cap f true) x b -> x = Err ERead).
Proof.
  intros m f. destruct (proj1 (text_programs P_Text.ex_P Debug (Md := unit) false) (length f)) as [p P]. exists p. split; [exact P|]. split; intros cap x b C R.
  - apply (bufreader_result m (length f) p P cap f false C (le_n _)) in R. rewrite R. split; [reflexivity|].
    apply (f_equal fst) in R. cbn [fst] in R. rewrite <- R. vm_compute. eexists. reflexivity.
  - apply (bufreader_result m (length f) p P cap f true C (le_n _)) in R. apply (f_equal fst) in R. cbn [fst] in R. rewrite <- R. vm_compute. reflexivity.
Qed.

(** ** C111: writing in parts and through [BufWriter]

    Writers of /repo are programs over [write_all] and [stream_position]; the
    text formats do not ask for the position. *)
Theorem chunk_wprograms_thm : (forall v, exists p, wperforms p (write_vocab_wrap v)) /\ (forall s, exists p, wperforms p (write_storage_wrap s)) /\
  (forall s, exists p, wperforms p (write_storage_view_wrap s)) /\ (forall T t, exists p, wperforms p (write_metadata T t)) /\ (forall l, exists p, wperforms p (write_norms l)).
Proof. exact (@DrainThms.chunk_wprograms). Qed.
Print Assumptions chunk_wprograms_thm.
Theorem file_wprogram_thm : forall T (V S : Type) (VC : chunk_ops V) (SC : chunk_ops S) e pv ps,
  wperforms pv (ck_write VC (em_vocab e)) -> wperforms ps (ck_write SC (em_storage e)) -> exists p, wperforms p (write_embeddings T VC SC e).
Proof. exact (@DrainThms.file_wprogram). Qed.
Print Assumptions file_wprogram_thm.
Theorem text_wprograms_thm : forall P (Md V S : Type) (VO : vocab_ops V) (SO : storage_ops f32 S) u (e : embeddings Md V S f32),
  (exists p, wperforms p (write_text P VO SO u e) /\ plain p) /\ (exists p, wperforms p (write_text_dims P VO SO u e) /\ plain p) /\
  (exists p, wperforms p (write_word2vec VO SO u e) /\ plain p).
Proof. exact (@DrainThms.text_wprograms). Qed.
Print Assumptions text_wprograms_thm.
Theorem floret_wprogram_thm : forall P pf (Md : Type) (e : embeddings Md (subword_vocab floret_indexer) (array2 f32) f32),
  exists p, wperforms p (write_floret_text P pf e) /\ plain p.
Proof. exact (@DrainThms.floret_wprogram). Qed.
Print Assumptions floret_wprogram_thm.
Theorem fasttext_wprogram_thm : forall pf T (S : Type) (SO : storage_ops f32 S) (e : embeddings (toml_table T) (subword_vocab ft_indexer) S f32),
  exists p, wperforms p (write_fasttext pf T SO e) /\ plain p.
Proof. exact (@DrainThms.fasttext_wprogram). Qed.
Print Assumptions fasttext_wprogram_thm.
(** On a device that accepts parts of any size. *)
Theorem device_written_thm : forall (A : Type) (m : writer A) p,
  wperforms p m -> forall base cap,
  let k := mkSink base [] cap in
  (exists x k', wruns dev_drain p k x k') /\ forall x k', wruns dev_drain p k x k' -> m k = (x, k').
Proof. exact (@DrainThms.device_written). Qed.
Print Assumptions device_written_thm.
(** Through [BufWriter] with any capacity. *)
Theorem bufwriter_written_thm : forall (A : Type) (m : writer A) p,
  wperforms p m ->
  forall B base cap r bytes, m (mkSink base [] None) = (r, mkSink base bytes None) ->
  let b0 := mkBw B [] (mkSink base [] cap) in
  (exists x b, wruns buf_drain p b0 x b) /\
  forall x b, wruns buf_drain p b0 x b ->
    (x = r \/ (io_failed x /\ exists c, cap = Some c /\ c < lenN bytes)) /\
    (exists k, bw_drop b k) /\ (forall k, bw_drop b k -> k = mkSink base (kept cap bytes) cap) /\
    (forall a b', x = Ok a -> bw_flush b (Ok tt) b' -> bw_dev b' = mkSink base bytes cap) /\
    (forall c, cap = Some c -> c + B < lenN bytes -> io_failed x).
Proof. exact (@DrainThms.bufwriter_written). Qed.
Print Assumptions bufwriter_written_thm.
Theorem plain_unnoticed_thm : forall (A : Type) (m : writer A) p,
  wperforms p m -> plain p ->
  forall B base cap r bytes, m (mkSink base [] None) = (r, mkSink base bytes None) -> lenN bytes < B ->
  forall x b, wruns buf_drain p (mkBw B [] (mkSink base [] cap)) x b -> x = r /\ bw_dev b = mkSink base [] cap.
Proof. exact (@DrainThms.plain_unnoticed). Qed.
Print Assumptions plain_unnoticed_thm.

(** A file on a device with room for [cap] bytes behind a buffer of [B] bytes:
    result, bytes on the device, and bytes held back. *)
Definition file_code : wprog unit := proj1_sig (wcode_file ex_toml (ex_emb (Some ex_norms))).
Definition file_bytes : list byte := ok_or (run_writer (write_file ex_toml (ex_emb (Some ex_norms))) 3) [].
Definition buffered (B : N) (cap : option N) : res unit * N * N :=
  let '(r, b) := bw_exec file_code (mkBw B [] (mkSink 3 [] cap)) in (r, lenN (k_out (bw_dev b)), lenN (bw_buf b)).
Example bufwriter_written_ex : wperforms file_code (write_file ex_toml (ex_emb (Some ex_norms))) /\
  write_file ex_toml (ex_emb (Some ex_norms)) (mkSink 3 [] None) = (Ok tt, mkSink 3 file_bytes None) /\
  (forall B cap, wruns buf_drain file_code (mkBw B [] (mkSink 3 [] (Some cap))) (fst (bw_exec file_code (mkBw B [] (mkSink 3 [] (Some cap)))))
     (snd (bw_exec file_code (mkBw B [] (mkSink 3 [] (Some cap)))))).
Proof.
  split; [exact (proj2_sig (wcode_file ex_toml (ex_emb (Some ex_norms))))|]. split; [vm_compute; reflexivity|].
  intros B cap. apply bw_exec_runs. split; apply N.le_0_l.
Qed.
(** A small text file is held back as a whole, even if the device is full. *)
Example plain_unnoticed_ex : let m := write_text P_Text.ex_P wrap_ops (nd_ops f32) true P_Emb.ex_emb in
  exists p, wperforms p m /\ plain p /\ forall x b, wruns buf_drain p (mkBw 8192 [] (mkSink 0 [] (Some 0))) x b -> x = Ok tt /\ bw_dev b = mkSink 0 [] (Some 0).
Proof.
  intros m. destruct (proj1 (text_wprograms P_Text.ex_P wrap_ops (nd_ops f32) true P_Emb.ex_emb)) as (p & P & PL). exists p. split; [exact P|]. split; [exact PL|].
  intros x b R. refine (plain_unnoticed m p P PL 8192 0 (Some 0) (Ok tt) (ok_or (run_writer m 0) []) _ _ x b R); vm_compute; reflexivity.
Qed.
Example buffered_ex : lenN file_bytes = 209 /\ buffered 8192 None = (Ok tt, 177, 32) /\ buffered 8192 (Some 169) = (Err EWrite, 169, 8) /\
  buffered 0 (Some 209) = (Ok tt, 209, 0) /\ buffered 16 (Some 190) = (Err EWrite, 190, 3) /\ buffered 8192 (Some 190) = (Ok tt, 177, 32).
Proof. vm_compute. repeat split. Qed.

(** [Ok] from a writer does not mean that the file is complete, unless the
    buffer is flushed by the caller: here [write_embeddings] succeeds, and the
    norms are lost. *)
Theorem buffered_ok_refuted : exists (T : toml_ops) (e : emb T) p x b k, wperforms p (write_file T e) /\
  wruns buf_drain p (mkBw 8192 [] (mkSink 3 [] (Some 190))) x b /\ x = Ok tt /\ bw_drop b k /\
  k_out k = takeN 190 (ok_or (run_writer (write_file T e) 3) []) /\ lenN (ok_or (run_writer (write_file T e) 3) []) = 209.
Proof.
  exists ex_toml, (ex_emb (Some ex_norms)), file_code. destruct (bw_exec file_code (mkBw 8192 [] (mkSink 3 [] (Some 190)))) as [x b] eqn:E.
  assert (wruns buf_drain file_code (mkBw 8192 [] (mkSink 3 [] (Some 190))) x b) as R.
  { pose proof (bw_exec_runs file_code (mkBw 8192 [] (mkSink 3 [] (Some 190)))) as H. rewrite E in H. apply H. split; apply N.le_0_l. }
  pose proof bufwriter_written_ex as (P & M & _).
  destruct (proj2 (bufwriter_written _ _ P 8192 3 (Some 190) _ _ M) x b R) as (_ & (k & D) & U & _). exists x, b, k.
  split; [exact P|]. split; [exact R|]. split; [|split; [exact D|split; [rewrite (U k D); reflexivity|vm_compute; reflexivity]]].
  pose proof buffered_ex as (_ & _ & _ & _ & _ & Q). unfold buffered in Q. rewrite E in Q. apply pair_equal_spec in Q as [Q _]. apply pair_equal_spec in Q as [Q _]. exact Q.
Qed.
Print Assumptions buffered_ok_refuted.
