(** * Reading and writing text and word2vec files (C41-C44). *)
From Verif Require Import Base BaseFacts Utf8 Utf8Facts Stream StreamFacts F32 ChunkIO Subword Vocab Storage Embeddings TextIO FileSpec VocabSpec
  ChunkFacts VocabFacts StorageFacts ReadFacts LookupFacts EmbSpec MatrixFacts EmbFacts BatchFacts TextSpec TextFacts.
Local Open Scope N_scope.

Lemma flat_map_snd {A B} (l : list (A * list B)) : flat_map snd l = concat (map snd l).
Proof. induction l as [|[a b] l IH]; [reflexivity|]. cbn. f_equal. exact IH. Qed.

(** ** Constructing embeddings from the parts *)
Lemma simple_emb {Md} pf words v (a : array2 f32) : simple_new words = Ok v -> a2_nrows a = lenN words ->
  emb_new_with_maybe_norms (Md := Md) simple_ops (nd_ops f32) pf None v a None = Ok (mkEmb None a v None).
Proof.
  intros H L. apply simple_new_Ok in H as [ND ->]. unfold emb_new_with_maybe_norms. cbn [v_vocab_len simple_ops rbind sm_indices st_shape nd_ops fst].
  rewrite <- (proj1 (ci_len_NoDup words) ND). rewrite L, N.eqb_refl. reflexivity.
Qed.

Section NormalizeAll.
  Context {Md F : Type} (o : fops F) (pf : profile).
  Lemma normalize_all_exact (e : embeddings Md simple_vocab (array2 F) F) words :
    simple_new words = Ok (em_vocab e) -> a2_nrows (em_storage e) = lenN words ->
    exists e', normalize_all o pf e = Ok e' /\
    normalized_result o e' (a2_cols (em_storage e)) (combine words (a2_rows (em_storage e))).
  Proof.
    intros H L. unfold normalize_all. cbn [l2_normalize_array]. unfold l2_normalize_array.
    pose proof (simple_new_Ok _ _ H) as [ND EV]. unfold emb_new, emb_new_with_maybe_norms.
    cbn [v_words_len v_vocab_len simple_ops rbind st_shape nd_ops fst]. unfold a2_nrows in *. cbn [a2_rows].
    cbv zeta. unfold vec. rewrite !lenN_map. rewrite EV. cbn [sm_indices]. rewrite <- (proj1 (ci_len_NoDup words) ND). rewrite L, N.eqb_refl. cbn [rassert rbind].
    eexists. split; [reflexivity|]. unfold normalized_result. cbn [em_vocab em_storage em_norms em_meta a2_cols a2_rows].
    assert (length words = length (a2_rows (em_storage e))) as LL by (unfold lenN in L; lia).
    assert (map fst (combine words (a2_rows (em_storage e))) = words) as ->.
    { clear - LL. revert LL. generalize (a2_rows (em_storage e)). induction words as [|w ws IH]; intros [|r rs] LL; try discriminate; [reflexivity|].
      cbn. f_equal. apply IH. cbn in LL. lia. }
    split; [rewrite H, EV; reflexivity|]. split; [reflexivity|]. split; [reflexivity|].
    assert (lenN (combine words (a2_rows (em_storage e))) = lenN words) as LC by (unfold lenN in *; rewrite combine_length; lia).
    split; [rewrite !lenN_map, LC; exact L|]. eexists. split; [reflexivity|].
    split; [rewrite !lenN_map, LC; exact L|].
    intros i w v HI. assert (nthN (a2_rows (em_storage e)) i = Some v) as R.
    { clear - HI LL. rewrite !nthN_spec in *. revert LL HI. generalize (a2_rows (em_storage e)) (N.to_nat i). induction words as [|x ws IH]; intros [|r rs] [|k] LL HI; try discriminate.
      - cbn in *. inv HI. reflexivity.
      - cbn in *. eapply IH; eauto. }
    unfold vec. rewrite !nthN_map, R. cbn [option_map]. do 2 eexists. split; [reflexivity|]. split; [reflexivity|]. apply l2_normalize_scaled.
  Qed.
End NormalizeAll.

(** ** [read_embeds] *)
Section ReadEmbeds.
  Context (P : ftext_ops) (pf : profile) {Md : Type}.

  Definition shape_agrees (shape : option (N * N)) (n d : N) : Prop :=
    match shape with None => True | Some (n', d') => n' = n /\ d' = d end.
  Definition shape_fits (shape : option (N * N)) : Prop :=
    match shape with None => True | Some (n, d) => dims_fit n d end.

  Lemma shape_reserve shape (s : stream) : shape_fits shape ->
    match shape with
    | Some (n, dims) => reserve n 24 ;;; c <- lift (mul64 pf n dims) ;; reserve c 4
    | None => ret tt
    end s = (Ok tt, s).
  Proof.
    destruct shape as [[n d]|]; [|reflexivity]. intros [H1 H2]. unfold bind, reserve. apply N.leb_le in H1. rewrite H1. unfold lift, mul64.
    destruct (N.ltb_spec (n * d) two64) as [L|L].
    - apply N.leb_le in H2. rewrite H2. reflexivity.
    - exfalso. unfold isize_max, two64 in *. lia.
  Qed.

  Lemma read_embeds_items shape lossy s items d : s_broken s = false ->
    text_items P lossy (s_rest s) items -> items <> [] -> NoDup (map fst items) ->
    lenN (flat_map snd items) = lenN items * d -> shape_agrees shape (lenN items) d -> shape_fits shape ->
    exists v, simple_new (map fst items) = Ok v /\
    read_embeds (Md := Md) P pf shape lossy s
    = (Ok (mkEmb None (mkA2 d (unflattenN (lenN items) d (flat_map snd items))) v None), mkStream [] (s_pos s + lenN (s_rest s))).
  Proof.
    intros B T N0 ND L A F. destruct (proj1 (simple_new_iff (map fst items))) as [_ SN]. destruct (SN ND) as (v & SV). exists v. split; [exact SV|].
    unfold read_embeds, bind at 1. rewrite (shape_reserve shape s F). unfold bind at 1. rewrite (read_lines_items P lossy s items B T).
    assert (lenN items <> 0) as NZ by (intros K; apply lenN_0 in K; contradiction).
    assert (lenN items * d / lenN items = d) as DV by (rewrite N.mul_comm; apply N.div_mul; exact NZ).
    assert (text_shape shape (lenN (map fst items)) (lenN (flat_map snd items)) = Ok (lenN items, d)) as TS.
    { rewrite lenN_map, L. unfold text_shape, div64. destruct (N.eqb_spec (lenN items) 0) as [K|_]; [contradiction|].
      destruct shape as [[n' d']|].
      - destruct A as [-> ->]. rewrite N.eqb_refl. cbn [negb rbind].
        destruct (N.eqb_spec (lenN items) 0) as [K|_]; [contradiction|]. cbn [rbind]. rewrite DV, N.eqb_refl. reflexivity.
      - cbn [rbind]. rewrite DV. reflexivity. }
    rewrite TS. unfold bind, lift. cbn [fst snd]. unfold from_shape_vec. rewrite L, N.eqb_refl, SV.
    rewrite (simple_emb pf (map fst items) v); [reflexivity|exact SV|]. unfold a2_nrows. cbn [a2_rows]. rewrite (proj2 (proj2 (unflattenN_spec _ _ _ L))), lenN_map. reflexivity.
  Qed.

  (** Everything a successful reader can return. *)
  Lemma read_embeds_inv shape lossy s e s' : read_embeds (Md := Md) P pf shape lossy s = (Ok e, s') ->
    exists items d, text_items P lossy (s_rest s) items /\ items <> [] /\ NoDup (map fst items) /\
    lenN (flat_map snd items) = lenN items * d /\ shape_agrees shape (lenN items) d /\
    simple_new (map fst items) = Ok (em_vocab e) /\ a2_cols (em_storage e) = d /\
    concat (a2_rows (em_storage e)) = flat_map snd items /\ lenN (a2_rows (em_storage e)) = lenN items /\
    Forall (fun r => lenN r = d) (a2_rows (em_storage e)) /\ em_norms e = None /\ em_meta e = None.
  Proof.
    intros H. unfold read_embeds in H. apply bind_Ok_inv in H as ([] & s1 & H1 & H).
    assert (s1 = s) as ->.
    { destruct shape as [[n d]|]; [|inv H1; reflexivity]. unfold bind, reserve, lift in H1.
      destruct (n * 24 <=? isize_max); [|discriminate]. destruct (mul64 pf n d); [|discriminate..]. destruct (a * 4 <=? isize_max); inv H1. reflexivity. }
    apply bind_Ok_inv in H as ([ws xs] & s2 & H2 & H).
    destruct (s_broken s) eqn:B; [destruct (read_lines_broken P lossy s B) as (er & s4 & E & _); congruence|].
    destruct (read_lines_cases P lossy s B) as [(items & T)|(_ & s3 & E)]; [|congruence].
    rewrite (read_lines_items P lossy s items B T) in H2. injection H2 as <- <- <-.
    apply bind_Ok_inv in H as ([n d] & s3 & H3 & H). unfold lift in H3. injection H3 as TS <-.
    apply bind_Ok_inv in H as (a & s4 & H4 & H). unfold lift in H4. injection H4 as FS <-. cbn [fst snd] in FS.
    apply bind_Ok_inv in H as (v & s5 & H5 & H). unfold lift in H5. injection H5 as SV <-. unfold lift in H. injection H as EE <-.
    unfold from_shape_vec in FS. destruct (N.eqb_spec (lenN (flat_map snd items)) (n * d)) as [L|L]; [|discriminate]. injection FS as <-.
    assert (n = lenN items /\ n <> 0 /\ shape_agrees shape n d) as (-> & NZ & A).
    { rewrite lenN_map in TS. unfold text_shape, div64 in TS. destruct shape as [[n' d']|].
      - destruct (N.eqb_spec (lenN items) n') as [E|E]; [|discriminate]. cbn [negb] in TS.
        destruct (N.eqb_spec n' 0) as [Z|Z]; [discriminate|]. cbn [rbind] in TS. destruct (negb _); [discriminate|]. inv TS. cbn. auto.
      - destruct (N.eqb_spec (lenN items) 0) as [Z|Z]; [discriminate|]. cbn [rbind] in TS. inv TS. cbn. auto. }
    exists items, d. split; [exact T|]. split; [intros ->; apply NZ; reflexivity|].
    pose proof (simple_new_Ok _ _ SV) as [ND EV]. split; [exact ND|]. split; [exact L|]. split; [exact A|].
    destruct (unflattenN_spec _ _ _ L) as (U1 & U2 & U3).
    rewrite (simple_emb pf (map fst items) v) in EE; [|exact SV|unfold a2_nrows; cbn [a2_rows]; rewrite U3, lenN_map; reflexivity].
    injection EE as <-. cbn [em_vocab em_storage em_norms em_meta a2_cols a2_rows]. auto 10.
  Qed.

  (** If all lines are equally long, the rows are the lines. *)
  Lemma equal_lines d (items : list (str * list f32)) (rows : list (list f32)) : Forall (fun it => lenN (snd it) = d) items ->
    Forall (fun r => lenN r = d) rows -> lenN rows = lenN items -> concat rows = flat_map snd items -> rows = map snd items.
  Proof.
    intros FI FR L E. rewrite flat_map_snd in E.
    rewrite <- (unflattenN_concat (lenN rows) d rows eq_refl FR). rewrite E.
    apply unflattenN_concat; [rewrite lenN_map; exact L|]. apply Forall_map. exact FI.
  Qed.

  (** Files that do not parse, or that do not fit their header. *)
  Lemma read_embeds_error shape lossy s : s_broken s = false -> shape_fits shape -> (forall items, ~ text_items P lossy (s_rest s) items) ->
    exists s', read_embeds (Md := Md) P pf shape lossy s = (Err EFormat, s').
  Proof.
    intros B F N0. unfold read_embeds, bind at 1. rewrite (shape_reserve shape s F). unfold bind.
    destruct (read_lines_cases P lossy s B) as [(items & T)|(_ & s3 & E)]; [exfalso; eapply N0; eauto|]. rewrite E. eauto.
  Qed.
  Lemma read_embeds_header n d lossy s items : s_broken s = false -> dims_fit n d -> text_items P lossy (s_rest s) items ->
    (lenN items <> n -> exists s', read_embeds (Md := Md) P pf (Some (n, d)) lossy s = (Err EFormat, s')) /\
    (lenN items = n -> n <> 0 -> lenN (flat_map snd items) <> n * d ->
     exists s' er, read_embeds (Md := Md) P pf (Some (n, d)) lossy s = (Err er, s') /\ (er = EFormat \/ er = EMatrixShape)).
  Proof.
    intros B F T.
    assert (read_embeds (Md := Md) P pf (Some (n, d)) lossy s =
      (sh <- lift (text_shape (Some (n, d)) (lenN items) (lenN (flat_map snd items))) ;;
       a <- lift (from_shape_vec (fst sh) (snd sh) (flat_map snd items)) ;;
       v <- lift (simple_new (map fst items)) ;;
       lift (emb_new_with_maybe_norms simple_ops (nd_ops f32) pf None v a None)) (mkStream [] (s_pos s + lenN (s_rest s)))) as ->.
    { unfold read_embeds, bind at 1. rewrite (shape_reserve (Some (n, d)) s F). unfold bind at 1. rewrite (read_lines_items P lossy s items B T), lenN_map. reflexivity. }
    unfold bind, lift, text_shape. split.
    - intros NE. destruct (N.eqb_spec (lenN items) n) as [E|_]; [contradiction|]. cbn [negb]. eauto.
    - intros E NZ NE. rewrite E, N.eqb_refl. cbn [negb]. unfold div64. destruct (N.eqb_spec n 0) as [Z|_]; [contradiction|]. cbn [rbind].
      destruct (N.eqb_spec (lenN (flat_map snd items) / n) d); cbn [negb]; [|eauto 6].
      unfold from_shape_vec. cbn [fst snd]. destruct (N.eqb_spec (lenN (flat_map snd items)) (n * d)); [contradiction|]. eauto 6.
  Qed.
End ReadEmbeds.

(** ** Files as they are written *)
Section WrittenFile.
  Context (P : ftext_ops) (law : ftext_law P).

  Definition line_of (it : str * list f32) : str := fst it ++ [x20] ++ join [x20] (map (ft_print P) (snd it)).
  Definition text_file (l : list (str * list f32)) : list byte := flat_map (fun it => text_line_of P (fst it) (snd it)) l.

  Definition field (p : str) : Prop := p <> [] /\ Forall (fun b => 33 <= bN b <= 126) p.
  Lemma printed_field x : field (ft_print P x).
  Proof. split; apply (law x). Qed.
  Lemma printable_nonblank b : 33 <= bN b <= 126 -> ~ blank b.
  Proof. intros H K. repeat (destruct K as [<-|K]; [cbn in H; lia|]). destruct K. Qed.
  Lemma field_nonblank p : field p -> Forall (fun b => ~ blank b) p.
  Proof. intros [_ H]. eapply Forall_impl; [|exact H]. intros b. apply printable_nonblank. Qed.

  Lemma join_cons p q ps : join [x20] (p :: q :: ps) = p ++ x20 :: join [x20] (q :: ps).
  Proof. reflexivity. Qed.
  Lemma join_fields ps : Forall field ps -> has_fields (x20 :: join [x20] ps) ps.
  Proof.
    induction 1 as [|p ps H F IH]; [constructor; repeat constructor|].
    assert (Forall blank [x20]) as B by (repeat constructor). destruct ps as [|q ps].
    - change (x20 :: join [x20] [p]) with ([x20] ++ p). rewrite <- (app_nil_r p) at 1.
      constructor; auto; [apply H|apply field_nonblank, H|discriminate|constructor; constructor].
    - rewrite join_cons. change (x20 :: p ++ x20 :: join [x20] (q :: ps)) with ([x20] ++ p ++ x20 :: join [x20] (q :: ps)).
      constructor; auto; [apply H|apply field_nonblank, H|]. intros b r' E. injection E as <- _. left. reflexivity.
  Qed.
  Lemma join_bytes ps b : Forall field ps -> In b (join [x20] ps) -> b = x20 \/ 33 <= bN b <= 126.
  Proof.
    induction 1 as [|p ps H F IH]; [intros []|]. destruct H as [_ H]. rewrite Forall_forall in H. destruct ps as [|q ps]; [intros K; right; apply H; exact K|].
    rewrite join_cons. intros K. apply in_app_or in K as [K|[K|K]]; [right; apply H; exact K|left; congruence|auto].
  Qed.
  Lemma printed_fields v : Forall field (map (ft_print P) v).
  Proof. apply Forall_map, Forall_forall. intros x _. apply printed_field. Qed.

  Lemma line_of_newline it : text_word (fst it) -> ~ In x0a (line_of it).
  Proof.
    intros (_ & W & _) K. unfold line_of in K. apply in_app_or in K as [K|[K|K]].
    - rewrite Forall_forall in W. apply (W _ K). right. right. left. reflexivity.
    - discriminate.
    - apply (join_bytes _ _ (printed_fields _)) in K as [K|K]; [discriminate|]. change (bN x0a) with 10 in K. lia.
  Qed.
  Lemma line_of_valid it : text_word (fst it) -> utf8_valid (line_of it) = true.
  Proof.
    intros (_ & _ & V). unfold line_of. apply utf8_valid_app; [exact V|]. apply ascii_valid. intros b [<-|K]; [reflexivity|].
    apply (join_bytes _ _ (printed_fields _)) in K as [->|K]; [reflexivity|]. lia.
  Qed.
  Lemma line_of_fields it : text_word (fst it) -> has_fields (line_of it) (fst it :: map (ft_print P) (snd it)).
  Proof.
    intros (N0 & W & _). unfold line_of. change (fst it ++ [x20] ++ join [x20] (map (ft_print P) (snd it)))
      with ([] ++ fst it ++ x20 :: join [x20] (map (ft_print P) (snd it))).
    constructor; auto; [|apply join_fields, printed_fields]. intros b r E. injection E as <- _. left. reflexivity.
  Qed.
  Lemma line_of_item lossy it : text_word (fst it) -> Forall (fun x => f32_is_nan x = false) (snd it) -> line_item P lossy (line_of it) it.
  Proof.
    intros W NN. exists (line_of it), (map (ft_print P) (snd it)). pose proof (line_of_valid it W) as V. split; [|split].
    - unfold decodes. destruct lossy; [rewrite from_utf8_lossy_id by exact V; reflexivity|auto].
    - apply line_of_fields. exact W.
    - induction NN as [|x xs Hx NN IH]; constructor; auto. destruct (law x) as [(y & E & K & _) _]. rewrite E, (K Hx). reflexivity.
  Qed.

  Lemma text_line_of_eq w v : text_line_of P w v = line_of (w, v) ++ [x0a].
  Proof. unfold text_line_of, line_of. cbn [fst snd]. rewrite <- !app_assoc. reflexivity. Qed.
  Lemma text_file_items lossy l : Forall text_word (map fst l) -> nan_free l -> text_items P lossy (text_file l) l.
  Proof.
    intros W NN. exists (map line_of l). split.
    - clear NN. induction l as [|[w v] l IH]; [constructor|]. inv W. cbn [text_file flat_map map fst snd]. rewrite text_line_of_eq, <- app_assoc.
      constructor; [apply line_of_newline; auto|]. apply IH. auto.
    - induction l as [|it l IH]; [constructor|]. inv W. inv NN. cbn [map]. constructor; [apply line_of_item; auto|]. apply IH; auto.
  Qed.
End WrittenFile.

(** ** Writers *)
Section Writers.
  Context (P : ftext_ops) {Md S : Type} (SO : storage_ops f32 S) (pf : profile).
  Variables (e : embeddings Md vocab_wrap S f32) (cols : N) (rows : list (list f32)).
  Hypothesis made : emb_made SO pf e cols rows.
  Hypothesis norms : norms_fit e.

  Lemma output_exist (un : bool) : exists l0, emb_iter_with_norms f32_ops wrap_ops SO e = Ok l0 /\
    output_items un e rows (map (fun '(w, en) => (w, output_vector un en)) l0).
  Proof.
    destruct (iter_with_norms_exact f32_ops SO pf e cols rows made norms) as (l0 & E & W & H).
    exists l0. split; [exact E|]. split.
    - rewrite <- W, map_map. apply map_ext. intros [w en]. reflexivity.
    - intros i w v K. rewrite nthN_map in K. destruct (nthN l0 i) as [[w' [r n]]|] eqn:N0; [|discriminate]. cbn in K. injection K as -> <-.
      destruct (H _ _ _ _ N0) as (R & NO & _). exists r, n. split; [exact R|]. split; [exact NO|]. destruct un; reflexivity.
  Qed.
  Lemma output_width un l : output_items un e rows l -> Forall (fun it => lenN (snd it) = cols) l.
  Proof.
    intros [_ H]. apply Forall_forall. intros [w v] K. apply In_nthN in K as (i & K). destruct (H _ _ _ K) as (r & n & R & _ & ->).
    destruct made as (_ & M & _). pose proof (sm_cols _ _ _ _ M) as C. rewrite Forall_forall in C. apply nthN_In in R. specialize (C r R). cbn in C.
    cbn [snd]. destruct un; [rewrite lenN_map|]; exact C.
  Qed.
  Lemma output_words un l : output_items un e rows l -> NoDup (map fst l) /\ lenN l = v_words_len wrap_ops (em_vocab e).
  Proof.
    intros [W _]. destruct (words_bijection pf (em_vocab e) [] 0 (proj1 made)) as (_ & WL & ND). rewrite W. split; [exact ND|].
    rewrite WL, <- W, lenN_map. reflexivity.
  Qed.

  Lemma emits_text un : exists l, output_items un e rows l /\
    emits (write_text P wrap_ops SO un e) (fconst (text_file P l)).
  Proof.
    destruct (output_exist un) as (l0 & E & O). eexists. split; [exact O|]. unfold write_text.
    apply emits_lift_ok with (a := l0); [exact E|].
    assert (text_file P (map (fun '(w, en) => (w, output_vector un en)) l0) = flat_map (fun '(w, en) => text_line_of P w (output_vector un en)) l0) as ->.
    { unfold text_file. clear. induction l0 as [|[w en] l0 IH]; [reflexivity|]. cbn [map flat_map fst snd]. f_equal. exact IH. }
    apply (emits_for_each_const l0 (fun '(w, en) => write_bytes (text_line_of P w (output_vector un en))) (fun '(w, en) => text_line_of P w (output_vector un en))).
    intros [w en] _. apply emits_bytes.
  Qed.
  Definition dims_bytes (n d : N) : str := dec_print n ++ [x20] ++ dec_print d ++ [x0a].
  Lemma dims_line_eq : dims_line wrap_ops SO e = dims_bytes (v_words_len wrap_ops (em_vocab e)) cols.
  Proof.
    destruct made as (_ & M & _). unfold dims_line, dims_bytes, emb_dims. rewrite (sm_shape _ _ _ _ M). reflexivity.
  Qed.
  Lemma emits_text_dims un : exists l, output_items un e rows l /\
    emits (write_text_dims P wrap_ops SO un e) (fconst (dims_bytes (v_words_len wrap_ops (em_vocab e)) cols ++ text_file P l)).
  Proof.
    destruct (emits_text un) as (l & O & E). exists l. split; [exact O|]. unfold write_text_dims.
    eapply emits_ext; [|apply emits_seq; [apply emits_bytes|exact E]]. intros pos. unfold fseq, fconst. rewrite dims_line_eq. reflexivity.
  Qed.
End Writers.

Lemma reads_dims n d : n < two64 -> d < two64 ->
  forall {A} (k : N -> N -> reader A) tail pos, exists pos',
  (x <- read_number x20 ;; y <- read_number x0a ;; k x y) (mkStream (dims_bytes n d ++ tail) pos) = k n d (mkStream tail pos').
Proof.
  intros Ln Ld A k tail pos. unfold dims_bytes.
  replace ((dec_print n ++ [x20] ++ dec_print d ++ [x0a]) ++ tail) with ((dec_print n ++ [x20]) ++ (dec_print d ++ [x0a]) ++ tail) by (rewrite <- !app_assoc; reflexivity).
  eexists. unfold bind. rewrite (reads_number x20 n Ln) by (cbn; lia). rewrite (reads_number x0a d Ld) by (cbn; lia). reflexivity.
Qed.

(** ** Round trips *)
Section RoundTrip.
  Context (P : ftext_ops) (law : ftext_law P) {Md S : Type} (SO : storage_ops f32 S) (pf : profile).
  Variables (e : embeddings Md vocab_wrap S f32) (cols : N) (rows : list (list f32)).
  Hypothesis made : emb_made SO pf e cols rows.
  Hypothesis norms : norms_fit e.
  Hypothesis text_words : Forall text_word (v_words wrap_ops (em_vocab e)).

  Lemma raw_then_normalized {Md'} (e' : embeddings Md' simple_vocab (array2 f32) f32) l : raw_result e' cols l ->
    exists e'', normalize_all f32_ops pf e' = Ok e'' /\ normalized_result f32_ops e'' cols l.
  Proof.
    intros (H1 & H2 & _). destruct (normalize_all_exact f32_ops pf e' (map fst l) H1) as (e'' & E & N0).
    - rewrite H2. unfold a2_nrows. cbn [a2_rows]. rewrite !lenN_map. reflexivity.
    - exists e''. split; [exact E|]. rewrite H2 in N0. cbn [a2_cols a2_rows] in N0.
      assert (combine (map fst l) (map snd l) = l) as C by (clear; induction l as [|[a b] l IH]; [reflexivity|cbn; f_equal; exact IH]).
      rewrite C in N0. exact N0.
  Qed.

  Lemma embeds_back {Md'} un l shape lossy s : output_items un e rows l -> nan_free l -> v_words wrap_ops (em_vocab e) <> [] ->
    shape_agrees shape (lenN l) cols -> shape_fits shape -> s_rest s = text_file P l -> s_broken s = false ->
    exists e' : embeddings Md' simple_vocab (array2 f32) f32,
    read_embeds P pf shape lossy s = (Ok e', mkStream [] (s_pos s + lenN (s_rest s))) /\ raw_result e' cols l.
  Proof.
    intros O NN W A F R BR. pose proof (output_width SO pf e cols rows made un l O) as OW. destruct (output_words SO pf e cols rows made un l O) as [ND L].
    destruct (read_embeds_items P pf (Md := Md') shape lossy s l cols) as (v & SV & E); auto.
    - rewrite R. apply text_file_items; auto. rewrite (proj1 O). exact text_words.
    - intros ->. apply W. rewrite <- (proj1 O). reflexivity.
    - rewrite flat_map_snd. rewrite (concat_lenN cols) by (apply Forall_map; exact OW). rewrite lenN_map. reflexivity.
    - eexists. split; [exact E|]. split; [exact SV|]. cbn [em_storage em_norms em_meta]. split; [|auto]. f_equal. rewrite flat_map_snd.
      apply unflattenN_concat; [rewrite lenN_map; reflexivity|]. apply Forall_map. exact OW.
  Qed.

  (** C41 *)
  Lemma text_round_trip un lossy base : v_words wrap_ops (em_vocab e) <> [] ->
    exists l out, output_items un e rows l /\ run_writer (write_text P wrap_ops SO un e) base = Ok out /\
    (nan_free l ->
     (exists e' : embeddings Md simple_vocab (array2 f32) f32, run_reader (read_text_raw P pf lossy) out = Ok e' /\ raw_result e' cols l) /\
     (exists e' : embeddings Md simple_vocab (array2 f32) f32, run_reader (read_text P pf lossy) out = Ok e' /\ normalized_result f32_ops e' cols l)).
  Proof.
    intros W. destruct (emits_text P SO pf e cols rows made norms un) as (l & O & E). exists l. eexists. split; [exact O|].
    split; [apply (emits_run _ _ base E)|]. intros NN. unfold fconst.
    destruct (embeds_back (Md' := Md) un l None lossy (mkStream (text_file P l) 0) O NN W I I eq_refl eq_refl) as (e' & R & RR). split.
    - exists e'. split; [|exact RR]. unfold run_reader, read_text_raw. rewrite R. reflexivity.
    - destruct (raw_then_normalized e' l RR) as (e'' & N1 & N2). exists e''. split; [|exact N2].
      unfold run_reader, read_text, read_text_raw, bind. rewrite R. unfold lift. cbn [fst]. exact N1.
  Qed.

  (** C42 *)
  Lemma text_dims_round_trip un lossy base : v_words wrap_ops (em_vocab e) <> [] -> dims_fit (v_words_len wrap_ops (em_vocab e)) cols ->
    exists l out, output_items un e rows l /\ run_writer (write_text_dims P wrap_ops SO un e) base = Ok out /\
    (nan_free l ->
     (exists e' : embeddings Md simple_vocab (array2 f32) f32, run_reader (read_text_dims_raw P pf lossy) out = Ok e' /\ raw_result e' cols l) /\
     (exists e' : embeddings Md simple_vocab (array2 f32) f32, run_reader (read_text_dims P pf lossy) out = Ok e' /\ normalized_result f32_ops e' cols l)).
  Proof.
    intros W DF. destruct (emits_text_dims P SO pf e cols rows made norms un) as (l & O & E). exists l. eexists. split; [exact O|].
    split; [apply (emits_run _ _ base E)|]. intros NN. unfold fconst.
    destruct (output_words SO pf e cols rows made un l O) as [ND L]. rewrite <- L in DF. rewrite <- L.
    assert (lenN l <> 0) as LZ by (intros K; apply W; rewrite <- (proj1 O); apply lenN_0 in K; rewrite K; reflexivity).
    assert (lenN l < two64 /\ cols < two64) as [B1 B2].
    { destruct DF as [D1 D2]. unfold isize_max, two64 in *. split; [lia|nia]. }
    assert (exists p (e' : embeddings Md simple_vocab (array2 f32) f32),
      read_text_dims_raw P pf lossy (mkStream (dims_bytes (lenN l) cols ++ text_file P l) 0) = (Ok e', p) /\ raw_result e' cols l) as (p & e' & R & RR).
    { unfold read_text_dims_raw. destruct (reads_dims (lenN l) cols B1 B2 (fun n d => read_embeds (Md := Md) P pf (Some (n, d)) lossy) (text_file P l) 0) as (pos & EQ).
      rewrite EQ. destruct (embeds_back (Md' := Md) un l (Some (lenN l, cols)) lossy (mkStream (text_file P l) pos) O NN W) as (e' & R & RR);
        [split; reflexivity|exact DF|reflexivity|reflexivity|]. eauto. }
    split.
    - exists e'. split; [|exact RR]. unfold run_reader. rewrite R. reflexivity.
    - destruct (raw_then_normalized e' l RR) as (e'' & N1 & N2). exists e''. split; [|exact N2].
      unfold run_reader, read_text_dims, bind. rewrite R. unfold lift. cbn [fst]. exact N1.
  Qed.
End RoundTrip.
