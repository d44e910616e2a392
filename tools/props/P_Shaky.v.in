(** * Theorems about devices on which any call may fail (C118). *)
From Verif Require Import Base BaseFacts Utf8 Stream F32 ChunkIO Subword Vocab Storage Embeddings TextIO FastText FileSpec IoDevice DeviceThms IoSink SinkThms DrainThms Shaky ShakyThms P_File P_Device.
Local Open Scope N_scope.

(** ** C118: a call that fails is an error, and does nothing else

    The readers that ignore no error: all but the ones of a whole file. *)
@thm strict_readers_thm ShakyThms strict_readers
@thm strict_formats_thm ShakyThms strict_formats
(** A run in which a call fails returns the error; a run in which no call
    fails returns what is on the device. *)
@thm shaky_result_thm ShakyThms shaky_result

Example shaky_result_ex : let d := mkMedium ex_data 0 false in
  performs 5 ex_prog ex_reader /\ tryless ex_prog /\ contract cur_source (fun m => md_fault m = false) (fun m => m) /\
  shaky_runs cur_source ex_prog (d, false) (Ok ([x61; x62], [x63; x0a])) (mkMedium ex_data 4 false, false) /\
  shaky_runs cur_source ex_prog (d, false) (Err ERead) (mkMedium ex_data 99 false, true).
Proof.
  split; [intros s _; reflexivity|]. split; [repeat split|]. split; [apply cur_contract|].
  assert (exact_loop (shaky_source cur_source) 2 (mkMedium ex_data 0 false, false) (Ok [x61; x62]) (mkMedium ex_data 2 false, false)) as H.
  { change (Ok [x61; x62]) with (after [x61; x62] (Ok [])). apply (el_more (shaky_source cur_source)) with (d1 := (mkMedium ex_data 2 false, false)); [reflexivity| |discriminate|apply el_done].
    left. split; [apply (cr_read (mkMedium ex_data 0 false) 2)|reflexivity]. }
  split.
  - left. exists [x61; x62], (mkMedium ex_data 2 false, false). split; [exact H|]. left. exists [x63; x0a], (mkMedium ex_data 4 false, false). split; [|split; reflexivity].
    apply (ul_found (shaky_source cur_source) x0a (mkMedium ex_data 2 false, false) [x63] [x64] (mkMedium ex_data 2 false, false)); [|intros [Q|[]]; discriminate].
    left. split; [apply (cr_fill (mkMedium ex_data 2 false))|reflexivity].
  - left. exists [x61; x62], (mkMedium ex_data 2 false, false). split; [exact H|]. right. left. exists ERead. split; [|reflexivity]. apply ul_failed. right. auto.
Qed.

(** Files: if a call fails, the result is an error, or the norms are missing;
    both happen. *)
@thm shaky_file_thm ShakyThms shaky_file

Example shaky_file_ex : let f := file_of (ex_emb (Some ex_norms)) 0 in let d := mkMedium f 0 false in
  exists p, performs (length f) p (read_file Release ex_toml) /\
  (forall x d', shaky_runs cur_source p (d, false) x (d', false) -> x = Ok (ex_emb (Some ex_norms))) /\
  (forall x d', shaky_runs cur_source p (d, false) x (d', true) -> x = Err ERead \/ x = Ok (ex_emb None)) /\
  (exists d', shaky_runs cur_source p (d, false) (Err ERead) (d', true)) /\ (exists d', shaky_runs cur_source p (d, false) (Ok (ex_emb None)) (d', true)).
Proof.
  intros f d. destruct (strict_readers Release) as (_ & _ & _ & _ & SV & _ & _ & SS & _).
  destruct (shaky_file ex_toml (read_vocab_wrap Release) read_storage_wrap (length f) SV SS) as (p & P & H); [apply Nat.leb_le; vm_compute; reflexivity|].
  assert (fst (read_file Release ex_toml (mkStream f 0)) = Ok (ex_emb (Some ex_norms))) as E by (vm_compute; reflexivity).
  destruct cur_contract as [C RS]. destruct (H medium cur_source _ _ C d eq_refl (le_n _)) as (H1 & H2 & H3 & H4). change (stream_of d) with (mkStream f 0) in *.
  exists p. split; [exact P|]. unfold read_file in E. rewrite E in H2. split; [|split; [exact H2|split; [exact H3|exact (H4 RS _ E)]]].
  intros x d' R. pose proof (H1 x d' R) as Q. apply (f_equal fst) in Q. rewrite E in Q. symmetry. exact Q.
Qed.

(** ** Writers: a call that fails is an error, and what has been stored is the
    beginning of the output *)
@thm shaky_written_thm ShakyThms shaky_written

(** The second call fails after two of the three bytes. *)
Definition ex_wprog : wprog unit := WBind WPosition (fun n => WBind (WAll [x61; x62; x63]) (fun _ => WAll (le_bytes 4 n))).
Example shaky_written_ex : let k := mkSink 0 [] None in
  wdenote ex_wprog k = (Ok tt, mkSink 0 [x61; x62; x63; x00; x00; x00; x00] None) /\ within k /\
  wruns shaky_drain ex_wprog (k, false) (Err EWrite) (mkSink 0 [x61; x62] None, true) /\
  wruns shaky_drain ex_wprog (k, false) (Err ERead) (k, true).
Proof.
  split; [reflexivity|]. split; [exact I|]. split.
  - left. exists 0, (mkSink 0 [] None, false). split; [left; split; reflexivity|]. right. left. exists EWrite. split; [|reflexivity].
    apply (sa_more (mkSink 0 [] None) false [x61; x62; x63] 2 (mkSink 0 [x61; x62] None)); [discriminate|apply (dw_some (mkSink 0 [] None) [x61; x62; x63] 2); [reflexivity|discriminate|exact I]|].
    apply sa_failed. discriminate.
  - right. left. exists ERead. split; [|reflexivity]. right. split; [left; reflexivity|reflexivity].
Qed.
