(** * Theorems about devices that deliver their data in parts (C110, C111). *)
From Verif Require Import Base BaseFacts Utf8 Stream F32 ChunkIO Subword Vocab Storage Embeddings TextIO FastText FileSpec IoDevice DeviceThms IoSink SinkThms DrainThms P_File.
From Verif Require P_Text P_FastText P_Emb TextThms.
Local Open Scope N_scope.

(** ** C110: however a device delivers its data, the readers give one result

    Readers of /repo are programs over [read_exact], [read_until] and seeking
    (on data of any length). *)
@thm vocab_programs_thm DeviceThms vocab_programs
@thm storage_programs_thm DeviceThms storage_programs
@thm embeddings_programs_thm DeviceThms embeddings_programs
@thm mapped_programs_thm DeviceThms mapped_programs
@thm metadata_programs_thm DeviceThms metadata_programs
@thm text_programs_thm DeviceThms text_programs
@thm fasttext_programs_thm DeviceThms fasttext_programs

(** A program on any reader that keeps the contracts of [Read], [BufRead] and
    [Seek]. *)
@thm device_result_thm DeviceThms device_result
@thm devices_agree_thm DeviceThms devices_agree
(** [BufReader] with any capacity on a device with any part sizes and
    interruptions, and [Cursor]. *)
@thm buf_contract_thm DeviceThms buf_contract
@thm buf_responsive_thm DeviceThms buf_responsive
@thm cur_contract_thm DeviceThms cur_contract
@thm bufreader_result_thm DeviceThms bufreader_result
@thm cursor_result_thm DeviceThms cursor_result

(** Two bytes and a line. *)
Definition ex_prog : prog (list byte * list byte) := Bind (Exact 2) (fun b => Bind (Until x0a) (fun l => Pure (Ok (b, l)))).
Definition ex_reader : reader (list byte * list byte) := b <- read_exact 2 ;; l <- read_until x0a ;; ret (b, l).
Definition ex_data : list byte := [x61; x62; x63; x0a; x64].
Example ex_performs : is_program ex_reader /\ forall n, performs n ex_prog ex_reader.
Proof. assert (forall n, performs n ex_prog ex_reader) as H by (intros n s _; reflexivity). split; [intros n; exists ex_prog; apply H|exact H]. Qed.
(** A buffer of three bytes, one byte at first, an interruption, two bytes,
    and the rest. *)
Example device_ex : exists b, runs buf_source ex_prog (opened 3 ex_data false) (Ok ([x61; x62], [x63; x0a])) b /\
  br_buf b = [x64] /\ stream_of (buf_abs b) = mkStream [x64] 4 /\
  ex_reader (mkStream ex_data 0) = (Ok ([x61; x62], [x63; x0a]), mkStream [x64] 4).
Proof.
  exists (mkBuf 3 [x64] (mkMedium ex_data 5 false)). split; [|vm_compute; repeat split].
  left. exists [x61; x62], (mkBuf 3 [x63] (mkMedium ex_data 3 false)). split.
  - change (Ok [x61; x62]) with (after [x61] (after [x62] (Ok []))). eapply el_more with (bs := [x61]) (d1 := mkBuf 3 [] (mkMedium ex_data 1 false)); [reflexivity| |discriminate|].
    { apply (bb_got (opened 3 ex_data false) 2 [x61] (mkBuf 3 [x61] (mkMedium ex_data 1 false))); [right; reflexivity|].
      apply bf_read; [reflexivity|]. apply (dr_some (mkMedium ex_data 0 false) 3 1); [reflexivity|discriminate|discriminate]. }
    eapply el_retry; [reflexivity| |].
    { apply bb_interrupted; [right; reflexivity|]. eapply bf_interrupted; [reflexivity|apply dr_interrupted]. }
    eapply el_more with (bs := [x62]) (d1 := mkBuf 3 [x63] (mkMedium ex_data 3 false)); [reflexivity| |discriminate|apply el_done].
    apply (bb_got (mkBuf 3 [] (mkMedium ex_data 1 false)) 1 [x62; x63] (mkBuf 3 [x62; x63] (mkMedium ex_data 3 false))); [right; reflexivity|].
    apply bf_read; [reflexivity|]. apply (dr_some (mkMedium ex_data 1 false) 3 2); [reflexivity|discriminate|discriminate].
  - left. exists [x63; x0a], (mkBuf 3 [x64] (mkMedium ex_data 5 false)). split; [|split; reflexivity].
    change (Ok [x63; x0a]) with (after [x63] (Ok ([] ++ [x0a]))). eapply ul_more; [apply bf_full; discriminate|discriminate|intros [H|[]]; discriminate|].
    apply (ul_found buf_source x0a (mkBuf 3 [] (mkMedium ex_data 3 false)) [] [x64] (mkBuf 3 [x0a; x64] (mkMedium ex_data 5 false))); [|intros []].
    apply bf_read; [reflexivity|]. apply (dr_some (mkMedium ex_data 3 false) 3 2); [reflexivity|discriminate|discriminate].
Qed.
(** A text file on devices of every kind; a failing device is an error. *)
Example text_device_ex : let m := read_text_raw (Md := unit) P_Text.ex_P Debug false in
  let f := TextThms.text_file P_Text.ex_P P_Text.ex_items in
  exists p, performs (length f) p m /\
  (forall cap x b, 0 < cap -> runs buf_source p (opened cap f false) x b -> x = fst (m (mkStream f 0)) /\ exists e, x = Ok e) /\
  (forall cap x b, 0 < cap -> runs buf_source p (opened cap f true) x b -> x = Err ERead).
Proof.
  intros m f. destruct (proj1 (text_programs P_Text.ex_P Debug (Md := unit) false) (length f)) as [p P]. exists p. split; [exact P|]. split; intros cap x b C R.
  - apply (bufreader_result m (length f) p P cap f false C (le_n _)) in R. rewrite R. split; [reflexivity|].
    apply (f_equal fst) in R. cbn [fst] in R. rewrite <- R. vm_compute. eexists. reflexivity.
  - apply (bufreader_result m (length f) p P cap f true C (le_n _)) in R. apply (f_equal fst) in R. cbn [fst] in R. rewrite <- R. vm_compute. reflexivity.
Qed.

(** ** C111: writing in parts and through [BufWriter]

    Writers of /repo are programs over [write_all] and [stream_position]; the
    text formats do not ask for the position. *)
@thm chunk_wprograms_thm DrainThms chunk_wprograms
@thm file_wprogram_thm DrainThms file_wprogram
@thm text_wprograms_thm DrainThms text_wprograms
@thm floret_wprogram_thm DrainThms floret_wprogram
@thm fasttext_wprogram_thm DrainThms fasttext_wprogram
(** On a device that accepts parts of any size. *)
@thm device_written_thm DrainThms device_written
(** Through [BufWriter] with any capacity. *)
@thm bufwriter_written_thm DrainThms bufwriter_written
@thm plain_unnoticed_thm DrainThms plain_unnoticed

(** A file on a device with room for [cap] bytes behind a buffer of [B] bytes:
    result, bytes on the device, and bytes held back. *)
Definition file_code : wprog unit := proj1_sig (wcode_file ex_toml (ex_emb (Some ex_norms))).
Definition file_bytes : list byte := ok_or (run_writer (write_file ex_toml (ex_emb (Some ex_norms))) 3) [].
Definition buffered (B : N) (cap : option N) : res unit * N * N :=
  let '(r, b) := bw_exec file_code (mkBw B [] (mkSink 3 [] cap)) in (r, lenN (k_out (bw_dev b)), lenN (bw_buf b)).
Example bufwriter_written_ex : wperforms file_code (write_file ex_toml (ex_emb (Some ex_norms))) /\
  write_file ex_toml (ex_emb (Some ex_norms)) (mkSink 3 [] None) = (Ok tt, mkSink 3 file_bytes None) /\
  (forall B cap, wruns buf_drain file_code (mkBw B [] (mkSink 3 [] (Some cap))) (fst (bw_exec file_code (mkBw B [] (mkSink 3 [] (Some cap)))))
     (snd (bw_exec file_code (mkBw B [] (mkSink 3 [] (Some cap)))))).
Proof.
  split; [exact (proj2_sig (wcode_file ex_toml (ex_emb (Some ex_norms))))|]. split; [vm_compute; reflexivity|].
  intros B cap. apply bw_exec_runs. split; apply N.le_0_l.
Qed.
(** A small text file is held back as a whole, even if the device is full. *)
Example plain_unnoticed_ex : let m := write_text P_Text.ex_P wrap_ops (nd_ops f32) true P_Emb.ex_emb in
  exists p, wperforms p m /\ plain p /\ forall x b, wruns buf_drain p (mkBw 8192 [] (mkSink 0 [] (Some 0))) x b -> x = Ok tt /\ bw_dev b = mkSink 0 [] (Some 0).
Proof.
  intros m. destruct (proj1 (text_wprograms P_Text.ex_P wrap_ops (nd_ops f32) true P_Emb.ex_emb)) as (p & P & PL). exists p. split; [exact P|]. split; [exact PL|].
  intros x b R. refine (plain_unnoticed m p P PL 8192 0 (Some 0) (Ok tt) (ok_or (run_writer m 0) []) _ _ x b R); vm_compute; reflexivity.
Qed.
Example buffered_ex : lenN file_bytes = 209 /\ buffered 8192 None = (Ok tt, 177, 32) /\ buffered 8192 (Some 169) = (Err EWrite, 169, 8) /\
  buffered 0 (Some 209) = (Ok tt, 209, 0) /\ buffered 16 (Some 190) = (Err EWrite, 190, 3) /\ buffered 8192 (Some 190) = (Ok tt, 177, 32).
Proof. vm_compute. repeat split. Qed.

(** [Ok] from a writer does not mean that the file is complete, unless the
    buffer is flushed by the caller: here [write_embeddings] succeeds, and the
    norms are lost. *)
Theorem buffered_ok_refuted : exists (T : toml_ops) (e : emb T) p x b k, wperforms p (write_file T e) /\
  wruns buf_drain p (mkBw 8192 [] (mkSink 3 [] (Some 190))) x b /\ x = Ok tt /\ bw_drop b k /\
  k_out k = takeN 190 (ok_or (run_writer (write_file T e) 3) []) /\ lenN (ok_or (run_writer (write_file T e) 3) []) = 209.
Proof.
  exists ex_toml, (ex_emb (Some ex_norms)), file_code. destruct (bw_exec file_code (mkBw 8192 [] (mkSink 3 [] (Some 190)))) as [x b] eqn:E.
  assert (wruns buf_drain file_code (mkBw 8192 [] (mkSink 3 [] (Some 190))) x b) as R.
  { pose proof (bw_exec_runs file_code (mkBw 8192 [] (mkSink 3 [] (Some 190)))) as H. rewrite E in H. apply H. split; apply N.le_0_l. }
  pose proof bufwriter_written_ex as (P & M & _).
  destruct (proj2 (bufwriter_written _ _ P 8192 3 (Some 190) _ _ M) x b R) as (_ & (k & D) & U & _). exists x, b, k.
  split; [exact P|]. split; [exact R|]. split; [|split; [exact D|split; [rewrite (U k D); reflexivity|vm_compute; reflexivity]]].
  pose proof buffered_ex as (_ & _ & _ & _ & _ & Q). unfold buffered in Q. rewrite E in Q. apply pair_equal_spec in Q as [Q _]. apply pair_equal_spec in Q as [Q _]. exact Q.
Qed.
Print Assumptions buffered_ok_refuted.
