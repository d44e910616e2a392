(** * Theorems about text, word2vec and floret files
    (C41-C44, C47-C50, C54-C57). *)
From Coq Require Import Reals.
From Verif Require Import Base BaseFacts Utf8 F32 F32Facts Stream ChunkIO Subword Vocab Storage Embeddings TextIO FileSpec VocabSpec EmbSpec TextSpec
  RealOps TextFacts P_Emb P_Sim.
From Verif Require Import TextThms BinaryThms LossyFacts TextAccept FloretThms TextReal WhiteSpace LossyExact.
Local Open Scope N_scope.

(** ** Concrete values for the examples

    Numbers are written as the decimal value of their bits. *)
Definition ex_P : ftext_ops :=
  mkFtext (fun x => dec_print (f32_bits x)) (fun s => option_map f32_of_bits (dec_parse s)).
Lemma ex_P_law : ftext_law ex_P.
Proof.
  intros x. cbn [ft_print ft_parse ex_P]. split; [|split].
  - exists x. assert (dec_parse (dec_print (f32_bits x)) = Some (f32_bits x)) as ->.
    { apply dec_parse_spec. split; [apply dec_print_numeral|]. pose proof (f32_bits_lt x). unfold two32, two64 in *. lia. }
    cbn [option_map]. rewrite f32_of_bits_bits. auto.
  - destruct (dec_print_numeral (f32_bits x)) as (ds & NE & _ & _ & D). intros K. rewrite K in D. destruct ds; [contradiction|]. destruct D; discriminate.
  - apply Forall_forall. intros b Hb. apply dec_print_range in Hb. lia.
Qed.
Lemma ex_text_words : Forall text_word (v_words wrap_ops (em_vocab ex_emb)).
Proof.
  repeat (apply Forall_cons || apply Forall_nil); (split; [discriminate|split; [|reflexivity]]);
    repeat (apply Forall_cons || apply Forall_nil); intros K; cbn in K; intuition discriminate.
Qed.
Lemma ex_norms_fit : norms_fit ex_emb.
Proof. intros ns H. inv H. reflexivity. Qed.
Definition ex_text : list byte := dec_print (f32_bits (fN 3)).
(** One word with the vector [3 4]. *)
Definition ex_34 : embeddings unit vocab_wrap (array2 f32) f32 := sim_emb [[x61]] [[fN 3; fN 4]].
Lemma ex_34_made : emb_made (nd_ops f32) Debug ex_34 2 [[fN 3; fN 4]].
Proof. apply sim_emb_made; [vm_compute; reflexivity|reflexivity|repeat constructor]. Qed.
Lemma ex_34_fits : norms_fit ex_34.
Proof. intros ns H. discriminate. Qed.
Lemma ex_34_words : Forall text_word (v_words wrap_ops (em_vocab ex_34)).
Proof.
  constructor; [|constructor]. split; [discriminate|split; [|reflexivity]]. constructor; [|constructor]. intros K; cbn in K; intuition discriminate.
Qed.
Lemma ex_34_output un l : output_items un ex_34 [[fN 3; fN 4]] l -> l = [([x61], [fN 3; fN 4])].
Proof.
  intros [W H]. destruct l as [|[w v] [|]]; try discriminate. injection W as ->. destruct (H 0 _ _ eq_refl) as (r & n & R & N0 & ->). injection R as <-.
  destruct un; [|reflexivity]. cbn in N0. subst n. repeat f_equal; vm_compute; reflexivity.
Qed.
Lemma nan_free_34 : nan_free [([x61], [fN 3; fN 4])].
Proof. repeat constructor. Qed.
Lemma scaled_34 r n : scaled_by_length f32_ops [fN 3; fN 4] r n -> r <> [fN 3; fN 4].
Proof. intros (-> & _ & H). rewrite H by (vm_compute; reflexivity). vm_compute. discriminate. Qed.

(** ** C41, C42: round trips

    Full statement: [read_text] returns the vectors that were written.  The
    readers named so divide every vector by its length and return the lengths
    as norms; [read_text_raw] returns the vectors. *)
@thm text_round_trip_partial TextThms text_round_trip | forall (P : ftext_ops), ftext_law P -> forall (Md S : Type) (SO : storage_ops f32 S) (pf : profile) (e : embeddings Md vocab_wrap S f32) (cols : N) (rows : list (list f32)), emb_made SO pf e cols rows -> norms_fit e -> Forall text_word (v_words wrap_ops (em_vocab e)) ->
@thm text_raw_round_trip_thm TextThms text_round_trip | forall (P : ftext_ops), ftext_law P -> forall (Md S : Type) (SO : storage_ops f32 S) (pf : profile) (e : embeddings Md vocab_wrap S f32) (cols : N) (rows : list (list f32)), emb_made SO pf e cols rows -> norms_fit e -> Forall text_word (v_words wrap_ops (em_vocab e)) ->
@thm text_dims_round_trip_partial TextThms text_dims_round_trip | forall (P : ftext_ops), ftext_law P -> forall (Md S : Type) (SO : storage_ops f32 S) (pf : profile) (e : embeddings Md vocab_wrap S f32) (cols : N) (rows : list (list f32)), emb_made SO pf e cols rows -> norms_fit e -> Forall text_word (v_words wrap_ops (em_vocab e)) ->
@thm text_dims_raw_round_trip_thm TextThms text_dims_round_trip | forall (P : ftext_ops), ftext_law P -> forall (Md S : Type) (SO : storage_ops f32 S) (pf : profile) (e : embeddings Md vocab_wrap S f32) (cols : N) (rows : list (list f32)), emb_made SO pf e cols rows -> norms_fit e -> Forall text_word (v_words wrap_ops (em_vocab e)) ->

Example text_round_trip_ex : ftext_law ex_P /\ emb_made (nd_ops f32) Debug ex_emb 2 ex_rows /\ norms_fit ex_emb /\
  Forall text_word (v_words wrap_ops (em_vocab ex_emb)) /\ v_words wrap_ops (em_vocab ex_emb) <> [] /\
  dims_fit (v_words_len wrap_ops (em_vocab ex_emb)) 2 /\
  exists out e', run_writer (write_text_dims ex_P wrap_ops (nd_ops f32) true ex_emb) 0 = Ok out /\
  run_reader (read_text_dims_raw (Md := unit) ex_P Debug true) out = Ok e' /\
  a2_rows (em_storage e') = [[fN 7; fN 14]; [fN 16; fN 24]].
Proof.
  split; [apply ex_P_law|]. split; [apply ex_emb_made|]. split; [apply ex_norms_fit|]. split; [apply ex_text_words|]. split; [discriminate|].
  split; [split; vm_compute; discriminate|].
  eexists. eexists. split; [vm_compute; reflexivity|]. split; vm_compute; reflexivity.
Qed.

(** [read_text] changes the vector [3 4], whatever the representation of
    numbers. *)
Theorem text_round_trip_refuted : forall P, ftext_law P -> exists (e : embeddings unit vocab_wrap (array2 f32) f32) out e',
  emb_made (nd_ops f32) Debug e 2 [[fN 3; fN 4]] /\ em_norms e = None /\ v_words wrap_ops (em_vocab e) = [[x61]] /\
  run_writer (write_text P wrap_ops (nd_ops f32) false e) 0 = Ok out /\
  run_reader (read_text (Md := unit) P Debug false) out = Ok e' /\ a2_rows (em_storage e') <> [[fN 3; fN 4]].
Proof.
  intros P law. destruct (text_round_trip P law (nd_ops f32) Debug ex_34 2 _ ex_34_made ex_34_fits ex_34_words false false 0) as (l & out & O & W & R); [discriminate|].
  apply ex_34_output in O. subst l. destruct (R nan_free_34) as (_ & e' & E & _ & _ & _ & _ & ns & _ & _ & V). exists ex_34, out, e'.
  split; [apply ex_34_made|]. split; [reflexivity|]. split; [reflexivity|]. split; [exact W|]. split; [exact E|].
  destruct (V 0 [x61] _ eq_refl) as (r & n & E1 & _ & SC). apply scaled_34 in SC. intros K. rewrite K in E1. injection E1 as <-. contradiction.
Qed.
Print Assumptions text_round_trip_refuted.
Theorem text_dims_round_trip_refuted : forall P, ftext_law P -> exists (e : embeddings unit vocab_wrap (array2 f32) f32) out e',
  emb_made (nd_ops f32) Debug e 2 [[fN 3; fN 4]] /\ em_norms e = None /\ v_words wrap_ops (em_vocab e) = [[x61]] /\
  run_writer (write_text_dims P wrap_ops (nd_ops f32) false e) 0 = Ok out /\
  run_reader (read_text_dims (Md := unit) P Debug false) out = Ok e' /\ a2_rows (em_storage e') <> [[fN 3; fN 4]].
Proof.
  intros P law. destruct (text_dims_round_trip P law (nd_ops f32) Debug ex_34 2 _ ex_34_made ex_34_fits ex_34_words false false 0) as (l & out & O & W & R);
    [discriminate|split; vm_compute; discriminate|].
  apply ex_34_output in O. subst l. destruct (R nan_free_34) as (_ & e' & E & _ & _ & _ & _ & ns & _ & _ & V). exists ex_34, out, e'.
  split; [apply ex_34_made|]. split; [reflexivity|]. split; [reflexivity|]. split; [exact W|]. split; [exact E|].
  destruct (V 0 [x61] _ eq_refl) as (r & n & E1 & _ & SC). apply scaled_34 in SC. intros K. rewrite K in E1. injection E1 as <-. contradiction.
Qed.
Print Assumptions text_dims_round_trip_refuted.
(** Embeddings without words cannot be read back: the readers divide by the
    number of words. *)
Theorem text_empty_refuted : forall P pf lossy,
  let e := sim_emb [] [] in
  emb_made (nd_ops f32) Debug e 2 [] /\
  run_writer (write_text P wrap_ops (nd_ops f32) false e) 0 = Ok [] /\
  run_reader (read_text_raw (Md := unit) P pf lossy) [] = Panic PDivByZero /\
  run_writer (write_text_dims P wrap_ops (nd_ops f32) false e) 0 = Ok [x30; x20; x32; x0a] /\
  run_reader (read_text_dims_raw (Md := unit) P pf lossy) [x30; x20; x32; x0a] = Panic PDivByZero.
Proof.
  intros P pf lossy e. split; [apply sim_emb_made; [vm_compute; reflexivity|reflexivity|constructor]|]. repeat split; destruct pf, lossy; vm_compute; reflexivity.
Qed.
Print Assumptions text_empty_refuted.

(** ** C55, C56: the outcome for every file *)
@thm text_outcomes_thm TextAccept text_outcomes | forall (P : ftext_ops) (pf : profile) (Md : Type),
@thm text_normalized_thm TextAccept text_normalized | forall (P : ftext_ops) (pf : profile) (Md : Type),
@thm text_dims_outcomes_thm TextAccept text_dims_outcomes | forall (P : ftext_ops) (pf : profile) (Md : Type),
@thm text_dims_normalized_thm TextAccept text_dims_normalized | forall (P : ftext_ops) (pf : profile) (Md : Type),

(** ["a 3 4\nb 4 3\n"] is such a file, with and without a header; ["a 3\na 4\n"]
    has a duplicate, ["a 3\nb\n"] the wrong number of components. *)
Definition ex_items : list (str * list f32) := [([x61], [fN 3; fN 4]); ([x62], [fN 4; fN 3])].
Lemma ex_word b : 33 <= bN b <= 126 -> text_word [b].
Proof.
  intros H. split; [discriminate|]. split; [constructor; [apply printable_nonblank; exact H|constructor]|].
  apply ascii_valid. intros c [<-|[]]. lia.
Qed.
Lemma no_fields s fs : has_fields s fs -> s = [] -> fs = [].
Proof. intros [ |pre f r fs' _ NE _ _ _] E; [reflexivity|]. exfalso. apply app_eq_nil in E as [_ E]. apply app_eq_nil in E as [E _]. contradiction. Qed.
Example text_outcomes_ex :
  (text_items ex_P false (text_file ex_P ex_items) ex_items /\ ex_items <> [] /\ lenN (flat_map snd ex_items) mod lenN ex_items = 0 /\
   NoDup (map fst ex_items) /\ header_line (dims_bytes 2 2 ++ text_file ex_P ex_items) 2 2 (text_file ex_P ex_items) /\ dims_fit 2 2) /\
  (let dup := [([x61], [fN 3]); ([x61], [fN 4])] in
   text_items ex_P false (text_file ex_P dup) dup /\ lenN (flat_map snd dup) mod lenN dup = 0 /\ ~ NoDup (map fst dup)) /\
  (let bad := [([x61], [fN 3]); ([x62], [])] in
   text_items ex_P false (text_file ex_P bad) bad /\ lenN (flat_map snd bad) mod lenN bad <> 0) /\
  (forall items, ~ text_items ex_P false [x0a] items).
Proof.
  assert (forall l : list (str * list f32), Forall (fun it => exists b, fst it = [b] /\ 33 <= bN b <= 126) l -> nan_free l -> text_items ex_P false (text_file ex_P l) l) as T.
  { intros l H N0. apply text_file_items; [apply ex_P_law| |exact N0]. apply Forall_map. eapply Forall_impl; [|exact H]. cbn beta. intros [w v] (b & E & R). cbn [fst] in *. subst w. apply ex_word, R. }
  split; [split; [apply T; [repeat constructor; eexists; (split; [reflexivity|split; vm_compute; discriminate])|repeat constructor]|]|split; [split|split; [split|]]].
  - split; [discriminate|]. split; [reflexivity|]. split; [repeat constructor; cbn; intuition discriminate|].
    split; [apply header_dims; reflexivity|split; vm_compute; discriminate].
  - apply T; [repeat constructor; eexists; (split; [reflexivity|split; vm_compute; discriminate])|repeat constructor].
  - split; [reflexivity|]. intros K. inv K. apply H1. left. reflexivity.
  - apply T; [repeat constructor; eexists; (split; [reflexivity|split; vm_compute; discriminate])|repeat constructor].
  - vm_compute. discriminate.
  - intros items (ls & L & F).
    assert (run_reader (read_text_raw (Md := unit) ex_P Debug false) [x0a] = Err EFormat) as E by (vm_compute; reflexivity).
    assert (text_items ex_P false [x0a] items) as K by (exists ls; auto).
    destruct (text_outcomes ex_P Debug (Md := unit) false [x0a]) as [_ O]. destruct (O items K) as (O1 & O2 & O3 & O4).
    assert (ls = [[]]) as ->.
    { eapply lines_unique; [exact L|]. apply (lines_cons [] [] []); [intros []|constructor]. }
    inversion F as [|l it ls' its H H']; subst. destruct H as (s & ps & [-> _] & HF & _). apply no_fields in HF; [discriminate|reflexivity].
Qed.

(** ** C43: whose numbers

    Full statement: the vector of every word has the numbers on its line.  It
    holds if all lines have the same number of components. *)
@thm text_accepted_partial TextAccept text_accepted | forall (P : ftext_ops) (pf : profile) (Md : Type),
@thm text_dims_accepted_partial TextAccept text_dims_accepted | forall (P : ftext_ops) (pf : profile) (Md : Type),
Example text_accepted_ex : exists e, run_reader (read_text_raw (Md := unit) ex_P Debug false) (text_file ex_P ex_items) = Ok e /\
  Forall (fun it => lenN (snd it) = a2_cols (em_storage e)) ex_items /\ a2_rows (em_storage e) = map snd ex_items.
Proof. eexists. split; [vm_compute; reflexivity|]. split; [repeat constructor|reflexivity]. Qed.

(** Lines of one and of three numbers are accepted as lines of two, even if
    the header says two. *)
Definition ragged : list (str * list f32) := [([x61], [fN 1]); ([x62], [fN 2; fN 3; fN 4])].
Theorem text_ragged_refuted : forall P, ftext_law P -> forall pf lossy, exists e e' : embeddings unit simple_vocab (array2 f32) f32,
  text_items P lossy (text_file P ragged) ragged /\
  run_reader (read_text_raw P pf lossy) (text_file P ragged) = Ok e /\ a2_rows (em_storage e) = [[fN 1; fN 2]; [fN 3; fN 4]] /\
  run_reader (read_text_dims_raw P pf lossy) (dims_bytes 2 2 ++ text_file P ragged) = Ok e' /\ a2_rows (em_storage e') = [[fN 1; fN 2]; [fN 3; fN 4]].
Proof.
  intros P law pf lossy. assert (text_items P lossy (text_file P ragged) ragged) as T.
  { apply text_file_items; [exact law| |repeat constructor]. constructor; [|constructor; [|constructor]]; apply ex_word; split; vm_compute; discriminate. }
  assert (NoDup (map fst ragged)) as ND by (repeat constructor; cbn; intuition discriminate).
  destruct (text_outcomes P pf (Md := unit) lossy (text_file P ragged)) as [_ O]. destruct (O ragged T) as (_ & _ & _ & O4).
  destruct (O4 ltac:(discriminate) ltac:(reflexivity) ND) as (e & E & C).
  destruct (text_dims_outcomes P pf (Md := unit) lossy (dims_bytes 2 2 ++ text_file P ragged) 2 2 (text_file P ragged)) as [_ O'];
    [apply header_dims; reflexivity|split; vm_compute; discriminate|].
  destruct (O' ragged T) as (_ & _ & _ & _ & O5). destruct (O5 ltac:(reflexivity) ltac:(discriminate) ltac:(reflexivity) ND) as (e' & E' & C').
  assert (forall e'' : embeddings unit simple_vocab (array2 f32) f32, text_contents e'' ragged 2 -> a2_rows (em_storage e'') = [[fN 1; fN 2]; [fN 3; fN 4]]) as K.
  { intros e'' (_ & _ & X & L & W & _). destruct (a2_rows (em_storage e'')) as [|a [|b [|]]]; try (unfold lenN, ragged in L; cbn [length] in L; lia).
    inv W. inv H2. destruct a as [|a1 [|a2 [|]]]; try (unfold lenN in H1; cbn [length] in H1; lia). destruct b as [|b1 [|b2 [|]]]; try (unfold lenN in H3; cbn [length] in H3; lia).
    cbn in X. inv X. reflexivity. }
  exists e, e'. split; [exact T|]. split; [exact E|]. split; [apply K; exact C|]. split; [exact E'|]. apply K, C'.
Qed.
Print Assumptions text_ragged_refuted.
(** A header that promises too much makes the reader panic. *)
Theorem text_capacity_refuted : forall P pf lossy,
  run_reader (read_text_dims_raw (Md := unit) P pf lossy) (dims_bytes (two64 - 1) 2 ++ [x61; x0a]) = Panic PCapacity.
Proof. intros P pf lossy. destruct pf, lossy; vm_compute; reflexivity. Qed.
Print Assumptions text_capacity_refuted.

(** ** C44, C57: word2vec files

    Full statement of C44: [read_word2vec_binary] returns the vectors that
    were written.  It divides them by their lengths;
    [read_word2vec_binary_raw] returns them, bit for bit. *)
@thm word2vec_round_trip_partial BinaryThms binary_round_trip | forall (Md S : Type) (SO : storage_ops f32 S) (pf : profile) (e : embeddings Md vocab_wrap S f32) (cols : N) (rows : list (list f32)), emb_made SO pf e cols rows -> norms_fit e -> Forall binary_word (v_words wrap_ops (em_vocab e)) ->
@thm word2vec_raw_round_trip_thm BinaryThms binary_round_trip | forall (Md S : Type) (SO : storage_ops f32 S) (pf : profile) (e : embeddings Md vocab_wrap S f32) (cols : N) (rows : list (list f32)), emb_made SO pf e cols rows -> norms_fit e -> Forall binary_word (v_words wrap_ops (em_vocab e)) ->
@thm word2vec_reader_thm BinaryThms read_binary_items | forall (pf : profile) (Md : Type),
@thm word2vec_accepted_thm BinaryThms read_binary_inv | forall (pf : profile) (Md : Type),

Definition w2v_emb : embeddings unit vocab_wrap (array2 f32) f32 :=
  sim_emb [[x61]; [xc3; xab; x62]] [[F32 x0a x20 x0a x20; F32 x0a x0a x0a x0a]; [F32 x20 x20 x20 x20; F32 x01 x00 xc0 x7f]].
Lemma plain_word w cs : w = utf8_encode cs -> forallb scalarb cs = true -> Forall (fun c => is_whitespace c = false) cs -> ~ In x20 w -> binary_word w.
Proof.
  intros -> S0 W N0. split; [exact N0|]. exists [], cs, []. rewrite app_nil_r. repeat split; auto.
  - intros c r ->. inv W. auto.
  - intros c r ->. apply Forall_app in W as [_ W]. inv W. auto.
Qed.
Example word2vec_ex : emb_made (nd_ops f32) Debug w2v_emb 2 (a2_rows (em_storage w2v_emb)) /\ norms_fit w2v_emb /\
  Forall binary_word (v_words wrap_ops (em_vocab w2v_emb)) /\ binary_fits (v_words_len wrap_ops (em_vocab w2v_emb)) 2 /\
  exists out e', run_writer (write_word2vec wrap_ops (nd_ops f32) false w2v_emb) 0 = Ok out /\
  run_reader (read_word2vec_raw (Md := unit) Debug false) out = Ok e' /\ em_storage e' = em_storage w2v_emb.
Proof.
  split; [apply sim_emb_made; [vm_compute; reflexivity|reflexivity|repeat constructor]|]. split; [intros ns H; discriminate|].
  split; [|split; [split; vm_compute; repeat split; try discriminate; repeat constructor|eexists; eexists; split; [vm_compute; reflexivity|split; vm_compute; reflexivity]]].
  constructor; [|constructor; [|constructor]].
  - apply (plain_word _ [97]); [reflexivity|reflexivity|repeat constructor|cbn; intuition discriminate].
  - apply (plain_word _ [235; 98]); [reflexivity|reflexivity|repeat constructor|cbn; intuition discriminate].
Qed.
Example word2vec_reader_ex : exists data rest tail l, header_line data 1 1 rest /\ binary_items false 1 rest l tail /\ lenN l = 1 /\
  NoDup (map fst l) /\ binary_fits 1 1 /\ tail <> [] /\
  exists e s', read_word2vec_raw (Md := unit) Debug false (mkStream data 0) = (Ok e, s') /\ a2_nrows (em_storage e) <> 0 /\ a2_cols (em_storage e) <> 0.
Proof.
  exists ([x31; x20; x31; x0a] ++ [x0a; x61] ++ x20 :: f32s_bytes [fN 1] ++ [x0a]), ([x0a; x61] ++ x20 :: f32s_bytes [fN 1] ++ [x0a]), [x0a], [([x61], [fN 1])].
  split; [apply (header_dims 1 1); reflexivity|]. split.
  { eapply bi_cons; [cbn; intuition discriminate|split; reflexivity| |reflexivity|constructor].
    apply (trims_newline [x61]). apply (proj2 (plain_word [x61] [97] eq_refl eq_refl ltac:(repeat constructor) ltac:(cbn; intuition discriminate))). }
  split; [reflexivity|]. split; [repeat constructor; intros []|]. split; [split; vm_compute; repeat split; try discriminate; repeat constructor|]. split; [discriminate|].
  eexists. eexists. split; [vm_compute; reflexivity|]. split; vm_compute; discriminate.
Qed.
Theorem word2vec_round_trip_refuted : exists (e : embeddings unit vocab_wrap (array2 f32) f32) out e',
  emb_made (nd_ops f32) Debug e 2 [[fN 3; fN 4]] /\ em_norms e = None /\ v_words wrap_ops (em_vocab e) = [[x61]] /\
  run_writer (write_word2vec wrap_ops (nd_ops f32) false e) 0 = Ok out /\
  run_reader (read_word2vec (Md := unit) Debug false) out = Ok e' /\ a2_rows (em_storage e') <> [[fN 3; fN 4]].
Proof.
  exists ex_34. eexists. eexists. split; [apply ex_34_made|]. split; [reflexivity|]. split; [reflexivity|]. split; [vm_compute; reflexivity|].
  split; [vm_compute; reflexivity|]. vm_compute. discriminate.
Qed.
Print Assumptions word2vec_round_trip_refuted.
(** ["0 23"] without a newline is accepted: no words, two columns. *)
Theorem word2vec_header_refuted : exists e : embeddings unit simple_vocab (array2 f32) f32,
  run_reader (read_word2vec_raw Debug false) [x30; x20; x32; x33] = Ok e /\ em_storage e = mkA2 2 [].
Proof. eexists. split; vm_compute; reflexivity. Qed.
Print Assumptions word2vec_header_refuted.

(** ** C47: floret round trip *)
@thm floret_round_trip_partial FloretThms floret_round_trip | forall (P : ftext_ops), ftext_law P -> forall (pf : profile) (Md : Type) (e : embeddings Md (subword_vocab floret_indexer) (array2 f32) f32) (ws : list str) (mn mx nb nh seed : N) (ix : floret_indexer) (bow eow : str), floret_indexer_new nb nh seed = Ok ix -> sub_new_with_boundaries floret_ops pf ws mn mx ix bow eow = Ok (em_vocab e) -> emb_new_with_maybe_norms (sub_ops floret_ops) (nd_ops f32) pf (em_meta e) (em_vocab e) (em_storage e) (em_norms e) = Ok e -> a2_wf (em_storage e) -> Forall (fun n => n < two32) [mn; mx; seed] -> mn <= mx -> ~ In x20 bow /\ utf8_valid bow = true -> ~ In x0a eow /\ utf8_valid eow = true -> a2_cols (em_storage e) <> 0 -> nb * a2_cols (em_storage e) * 4 <= isize_max -> Forall (Forall (fun x => f32_is_nan x = false)) (dropN (lenN ws) (a2_rows (em_storage e))) ->

(** Two buckets; one word, whose row is not written. *)
Definition floret_emb (bow eow : str) : embeddings unit (subword_vocab floret_indexer) (array2 f32) f32 :=
  mkEmb None (mkA2 1 [[fN 9]; [fN 1]; [fN 2]]) (mkSub bow eow (mkFloretIx 2 7 3) (create_indices [[x61]]) [[x61]] 3 6) None.
Definition floret_emb_built (bow eow : str) : Prop :=
  floret_indexer_new 2 3 7 = Ok (mkFloretIx 2 7 3) /\
  sub_new_with_boundaries floret_ops Debug [[x61]] 3 6 (mkFloretIx 2 7 3) bow eow = Ok (em_vocab (floret_emb bow eow)) /\
  emb_new_with_maybe_norms (sub_ops floret_ops) (nd_ops f32) Debug None (em_vocab (floret_emb bow eow)) (em_storage (floret_emb bow eow)) None = Ok (floret_emb bow eow).
Lemma floret_emb_ok bow eow : floret_emb_built bow eow.
Proof. repeat split; vm_compute; reflexivity. Qed.
Example floret_round_trip_ex : floret_emb_built [x3c] [x20; x3e] /\ a2_wf (em_storage (floret_emb [x3c] [x20; x3e])) /\
  Forall (fun n => n < two32) [3; 6; 7] /\ 3 <= 6 /\ (~ In x20 [x3c] /\ utf8_valid [x3c] = true) /\ (~ In x0a [x20; x3e] /\ utf8_valid [x20; x3e] = true) /\
  2 * 1 * 4 <= isize_max /\ Forall (Forall (fun x => f32_is_nan x = false)) (dropN (lenN [[x61]]) (a2_rows (em_storage (floret_emb [x3c] [x20; x3e])))) /\
  exists out e', run_writer (write_floret_text ex_P Debug (floret_emb [x3c] [x20; x3e])) 0 = Ok out /\
  run_reader (read_floret_text (Md := unit) ex_P Debug) out = Ok e' /\ a2_rows (em_storage e') = [[fN 1]; [fN 2]].
Proof.
  split; [apply floret_emb_ok|]. split; [repeat constructor|]. split; [repeat constructor|]. split; [vm_compute; discriminate|].
  split; [split; [cbn; intuition discriminate|reflexivity]|]. split; [split; [cbn; intuition discriminate|reflexivity]|]. split; [vm_compute; discriminate|].
  split; [repeat constructor|]. eexists. eexists. split; [vm_compute; reflexivity|]. split; vm_compute; reflexivity.
Qed.
(** A space in the begin marker moves into the end marker; a newline in the
    end marker makes the file unreadable. *)
Theorem floret_markers_refuted :
  floret_emb_built [x3c; x20] [x3e] /\ floret_emb_built [x3c] [x3e; x0a] /\
  (exists out e', run_writer (write_floret_text ex_P Debug (floret_emb [x3c; x20] [x3e])) 0 = Ok out /\
     run_reader (read_floret_text (Md := unit) ex_P Debug) out = Ok e' /\ sv_bow (em_vocab e') = [x3c] /\ sv_eow (em_vocab e') = [x20; x3e]) /\
  (exists out, run_writer (write_floret_text ex_P Debug (floret_emb [x3c] [x3e; x0a])) 0 = Ok out /\
     exists er, run_reader (read_floret_text (Md := unit) ex_P Debug) out = Err er).
Proof.
  split; [apply floret_emb_ok|]. split; [apply floret_emb_ok|]. split.
  - eexists. eexists. split; [vm_compute; reflexivity|]. split; [vm_compute; reflexivity|]. split; vm_compute; reflexivity.
  - eexists. split; [vm_compute; reflexivity|]. eexists. vm_compute. reflexivity.
Qed.
Print Assumptions floret_markers_refuted.

(** ** C48: which floret files are accepted *)
@thm floret_accepts_thm FloretThms floret_read_exact | forall (P : ftext_ops) (pf : profile) (Md : Type),
@thm floret_params_rejected_thm FloretThms floret_params_rejected | forall (P : ftext_ops) (pf : profile) (Md : Type),
@thm floret_rows_rejected_thm FloretThms floret_rows_rejected | forall (P : ftext_ops) (pf : profile) (Md : Type),
@thm floret_header_required_thm FloretThms floret_head_exists | forall (P : ftext_ops) (pf : profile) (Md : Type),
(** Full statement: accepted files give usable vocabularies.  Lookups panic
    if the shortest n-gram has length zero. *)
@thm floret_accepted_partial FloretThms floret_accepted | forall (P : ftext_ops) (pf : profile) (Md : Type),
@thm floret_accepted_thm FloretThms floret_accepted | forall (P : ftext_ops) (pf : profile) (Md : Type),

Definition floret_file (nb dims mn mx nh seed : N) (rest : list byte) : list byte :=
  dec_print nb ++ x20 :: dec_print dims ++ x20 :: dec_print mn ++ x20 :: dec_print mx ++ x20 :: dec_print nh ++ x20 :: dec_print seed ++ x20 ::
  [x3c] ++ x20 :: [x3e] ++ x0a :: rest.
Lemma floret_file_head nb dims mn mx nh seed rest : Forall (fun n => n < two64) [nb; dims; mn; mx; nh; seed] ->
  floret_head (floret_file nb dims mn mx nh seed rest) nb dims mn mx nh seed [x3c] [x3e] rest.
Proof.
  intros F. unfold floret_head, floret_file. exists (dec_print nb), (dec_print dims), (dec_print mn), (dec_print mx), (dec_print nh), (dec_print seed).
  do 6 (split; [apply dec_print_numeral|]). split; [exact F|]. split; [cbn; intuition discriminate|]. split; [reflexivity|]. split; [cbn; intuition discriminate|].
  split; reflexivity.
Qed.
Definition ex_row : list byte := text_file ex_P [([x61], [fN 3; fN 4])].
Lemma ex_row_rows : floret_rows ex_P 2 ex_row [[fN 3; fN 4]].
Proof.
  destruct (text_file_items ex_P ex_P_law false [([x61], [fN 3; fN 4])]) as (ls & L & F); [constructor; [apply ex_word; split; vm_compute; discriminate|constructor]|repeat constructor|].
  exists ls. split; [exact L|]. inversion F as [|l it ls' its H F']; subst. inversion F'; subst. constructor; [|constructor].
  destruct H as (s & ps & [-> V] & HF & PF). exists [x61], ps. auto.
Qed.
Example floret_accepts_ex :
  floret_head (floret_file 1 2 3 6 2 7 ex_row) 1 2 3 6 2 7 [x3c] [x3e] ex_row /\ params_ok 1 2 3 6 2 /\ 1 * 2 * 4 <= isize_max /\
  floret_rows ex_P 2 ex_row [[fN 3; fN 4]] /\
  (exists e, run_reader (read_floret_text (Md := unit) ex_P Debug) (floret_file 1 2 3 6 2 7 ex_row) = Ok e) /\
  floret_head (floret_file 1 2 6 3 2 7 ex_row) 1 2 6 3 2 7 [x3c] [x3e] ex_row /\ ~ params_ok 1 2 6 3 2 /\
  floret_head (floret_file 2 2 3 6 2 7 ex_row) 2 2 3 6 2 7 [x3c] [x3e] ex_row /\ params_ok 2 2 3 6 2 /\
  (forall rows, floret_rows ex_P 2 ex_row rows -> lenN rows <> 2).
Proof.
  split; [apply floret_file_head; repeat constructor|]. split; [repeat split; vm_compute; discriminate|]. split; [vm_compute; discriminate|].
  split; [apply ex_row_rows|]. split; [eexists; vm_compute; reflexivity|]. split; [apply floret_file_head; repeat constructor|].
  split; [intros (_ & _ & K & _); vm_compute in K; apply K; reflexivity|]. split; [apply floret_file_head; repeat constructor|].
  split; [repeat split; vm_compute; discriminate|]. intros rows (ls & L & F). destruct ex_row_rows as (ls' & L' & F').
  rewrite (lines_unique _ _ L _ L') in F. inversion F' as [|a b c d _ F'']; subst. inversion F''; subst. inversion F as [|? ? ? ? _ F3]; subst. inversion F3; subst. discriminate.
Qed.

(** Parameters are reduced modulo [2^32] before they are checked, a length of
    zero is accepted, and a huge number of buckets makes the reader panic. *)
Theorem floret_truncated_refuted : exists data (e : embeddings unit (subword_vocab floret_indexer) (array2 f32) f32),
  floret_head data 1 2 (two32 + 3) 6 (two32 + 2) 7 [x3c] [x3e] ex_row /\ ~ (two32 + 3 <= 6) /\ ~ (two32 + 2 <= 4) /\
  run_reader (read_floret_text ex_P Debug) data = Ok e.
Proof.
  exists (floret_file 1 2 (two32 + 3) 6 (two32 + 2) 7 ex_row). eexists. split; [apply floret_file_head; repeat constructor|].
  split; [intros K; vm_compute in K; apply K; reflexivity|]. split; [intros K; vm_compute in K; apply K; reflexivity|]. vm_compute. reflexivity.
Qed.
Print Assumptions floret_truncated_refuted.
Theorem floret_zero_ngram_refuted : exists data (e : embeddings unit (subword_vocab floret_indexer) (array2 f32) f32),
  floret_head data 1 2 0 6 2 7 [x3c] [x3e] ex_row /\ run_reader (read_floret_text ex_P Debug) data = Ok e /\
  exists p, emb_embedding f32_ops (sub_ops floret_ops) (nd_ops f32) Debug e [x61] = Panic p.
Proof.
  exists (floret_file 1 2 0 6 2 7 ex_row). eexists. split; [apply floret_file_head; repeat constructor|].
  split; [vm_compute; reflexivity|]. eexists. vm_compute. reflexivity.
Qed.
Print Assumptions floret_zero_ngram_refuted.
Theorem floret_capacity_refuted : forall P, exists data p,
  floret_head data (two64 - 1) 2 3 6 2 7 [x3c] [x3e] ex_row /\ run_reader (read_floret_text (Md := unit) P Debug) data = Panic p.
Proof.
  intros P. exists (floret_file (two64 - 1) 2 3 6 2 7 ex_row). eexists. split; [apply floret_file_head; repeat constructor|]. vm_compute. reflexivity.
Qed.
Print Assumptions floret_capacity_refuted.

(** ** C49: lossy readers *)
@thm lossy_string_total_thm LossyFacts lossy_string_total
@thm string_valid_thm LossyFacts string_valid
@thm text_lossy_is_strict_thm LossyFacts text_lossy_is_strict | forall (P : ftext_ops) (pf : profile) (Md : Type),
@thm text_lossy_agrees_thm LossyFacts text_lossy_agrees | forall (P : ftext_ops) (pf : profile) (Md : Type),
@thm text_dims_lossy_is_strict_thm LossyFacts dims_lossy_is_strict | forall (P : ftext_ops) (pf : profile) (Md : Type),
@thm text_dims_lossy_agrees_thm LossyFacts dims_lossy_agrees | forall (P : ftext_ops) (pf : profile) (Md : Type),
@thm text_words_valid_thm LossyFacts text_readers_words_valid | forall (P : ftext_ops) (pf : profile) (Md : Type),
@thm word2vec_lossy_raw_agrees_thm LossyFacts word2vec_raw_relaxes | forall (pf : profile) (Md : Type),
@thm word2vec_lossy_agrees_thm LossyFacts word2vec_relaxes | forall (pf : profile) (Md : Type),
@thm word2vec_words_valid_thm LossyFacts word2vec_words_valid | forall (pf : profile) (Md : Type),
@thm word2vec_lossy_items_thm TextAccept binary_lossy_items

(** The word is the byte [ff]. *)
Example lossy_ex :
  run_reader (read_text_raw (Md := unit) ex_P Debug false) (text_file ex_P [([xff], [fN 3])]) = Err EFormat /\
  (exists e, run_reader (read_text_raw (Md := unit) ex_P Debug true) (text_file ex_P [([xff], [fN 3])]) = Ok e /\
     v_words simple_ops (em_vocab e) = [[xef; xbf; xbd]]) /\
  run_reader (read_word2vec_raw (Md := unit) Debug false) ([x31; x20; x31; x0a] ++ [xff] ++ x20 :: f32s_bytes [fN 1]) = Err EFormat /\
  (exists e, run_reader (read_word2vec_raw (Md := unit) Debug true) ([x31; x20; x31; x0a] ++ [xff] ++ x20 :: f32s_bytes [fN 1]) = Ok e /\
     v_words simple_ops (em_vocab e) = [[xef; xbf; xbd]]) /\
  utf8_valid (text_file ex_P ex_items) = true /\ header_line ([x31; x20; x31; x0a] ++ text_file ex_P [([xff], [fN 3])]) 1 1 (text_file ex_P [([xff], [fN 3])]).
Proof.
  split; [vm_compute; reflexivity|]. split; [eexists; split; vm_compute; reflexivity|]. split; [vm_compute; reflexivity|].
  split; [eexists; split; vm_compute; reflexivity|]. split; [vm_compute; reflexivity|]. apply (header_dims 1 1); reflexivity.
Qed.

(** ** C50: normalisation loses nothing over the reals *)
Local Open Scope R_scope.
@thm normalize_invertible_thm TextReal normalize_invertible
Local Close Scope R_scope.
Example normalize_invertible_ex : exists v, simple_new [[x61]; [x62]] = Ok v /\
  lenN (a2_rows (mkA2 2 [[3; 4]; [0; 0]]%R)) = lenN [[x61]; [x62]].
Proof. eexists. split; vm_compute; reflexivity. Qed.

(** ** C54: numbers

    Full statement: the field ends at the delimiter.  If there is no
    delimiter, the last byte of the file is taken for one. *)
@thm read_number_partial TextFacts read_number_field
@thm read_number_last_thm TextFacts read_number_last
Example read_number_ex : ~ In x20 [x31; x32] /\ numeral [x31; x32] 12 /\ numeral [x2b; x30; x37] 7 /\
  read_number x20 (mkStream [x31; x32; x20; x61] 5) = (Ok 12, mkStream [x61] 8) /\
  (exists s, read_number x20 (mkStream [x31; x78; x20] 0) = (Err EFormat, s)).
Proof.
  split; [cbn; intuition discriminate|]. split; [exists [1; 2]; repeat split; [discriminate|repeat constructor|left; reflexivity]|].
  split; [exists [0; 7]; repeat split; [discriminate|repeat constructor|right; reflexivity]|]. split; [reflexivity|]. eexists. reflexivity.
Qed.
Theorem read_number_refuted : read_number x20 (mkStream [x31; x32; x35] 0) = (Ok 12, mkStream [] 3).
Proof. vm_compute. reflexivity. Qed.
Print Assumptions read_number_refuted.

(** ** White space around words in word2vec files (C44, C57) *)
@thm white_space_thm WhiteSpace white_space_exact
@thm trim_thm WhiteSpace trim_exact
Example trim_ex : str_trim [x0d; x0a; x61; x20; x62; xe3; x80; x80; x09] = [x61; x20; x62] /\ utf8_valid [x0d; x0a; x61; x20; x62; xe3; x80; x80; x09] = true /\ In 0xD white_space /\ ~ In 0x200B white_space.
Proof. split; [reflexivity|]. split; [reflexivity|]. split; cbn; intuition discriminate. Qed.

(** ** What lossy readers make of text that is not UTF-8 (C49) *)
@thm lossy_exact_thm LossyExact lossy_exact
(** Three bytes of a character of four are one part; a surrogate is three; the
    first bytes of two characters are two. *)
Example lossy_exact_ex : lossy_of [x61; xf0; x9f; x98; x62] [x61; xef; xbf; xbd; x62] /\
  lossy_of [xed; xa0; x80] [xef; xbf; xbd; xef; xbf; xbd; xef; xbf; xbd] /\ lossy_of [xe3; x80; xc3] [xef; xbf; xbd; xef; xbf; xbd].
Proof. split; [|split]; apply lossy_exact_thm; reflexivity. Qed.
