(** * When any call fails (stated in P_Shaky.v). *)
From Verif Require Import Base BaseFacts Utf8 Stream StreamFacts ReadFacts F32 ChunkIO Subword Vocab Storage Embeddings TextIO FastText IoDevice DeviceThms IoSink SinkThms DrainThms Shaky.
From Verif Require PanicFacts.
From Coq Require Import Lia ZifyBool ZifyNat ZifyN.
Local Open Scope N_scope.

Section Reading.
  Context {D : Type} (src : source D).

  Lemma shaky_exact n d x d' : exact_loop (shaky_source src) n d x d' -> snd d = false ->
    (snd d' = true /\ x = Err ERead) \/ (snd d' = false /\ exact_loop src n (fst d) x (fst d')).
  Proof.
    induction 1 as [d|n d bs d1 r d2 N0 R NE L IH|n d d1 N0 R|n d d1 r d2 N0 R L IH|n d d1 N0 R]; intros F; cbn [so_read shaky_source] in *.
    - right. split; [exact F|apply el_done].
    - destruct R as [[R E]|[R _]]; [|discriminate]. rewrite E in IH. destruct (IH F) as [[F2 ->]|[F2 L2]]; [left; auto|right]. split; [exact F2|]. eapply el_more; eauto.
    - destruct R as [[R E]|[R _]]; [|discriminate]. right. split; [congruence|]. apply el_end; assumption.
    - destruct R as [[R E]|[R _]]; [|discriminate]. rewrite E in IH. destruct (IH F) as [[F2 ->]|[F2 L2]]; [left; auto|right]. split; [exact F2|]. eapply el_retry; eauto.
    - destruct R as [[R E]|[_ R]]; [|left; auto]. right. split; [congruence|]. apply el_failed; assumption.
  Qed.
  Lemma shaky_until c d x d' : until_loop (shaky_source src) c d x d' -> snd d = false ->
    (snd d' = true /\ x = Err ERead) \/ (snd d' = false /\ until_loop src c (fst d) x (fst d')).
  Proof.
    induction 1 as [d x y d1 R NI|d bs d1 r d2 R NE NI L IH|d d1 R|d d1 r d2 R L IH|d d1 R]; intros F; cbn [so_fill so_consume shaky_source fst snd] in *.
    - destruct R as [[R E]|[R _]]; [|discriminate]. right. split; [congruence|]. eapply ul_found; eauto.
    - destruct R as [[R E]|[R _]]; [|discriminate]. rewrite E in IH. destruct (IH F) as [[F2 ->]|[F2 L2]]; [left; auto|right]. split; [exact F2|]. eapply ul_more; eauto.
    - destruct R as [[R E]|[R _]]; [|discriminate]. right. split; [congruence|]. apply ul_end; assumption.
    - destruct R as [[R E]|[R _]]; [|discriminate]. rewrite E in IH. destruct (IH F) as [[F2 ->]|[F2 L2]]; [left; auto|right]. split; [exact F2|]. eapply ul_retry; eauto.
    - destruct R as [[R E]|[_ R]]; [|left; auto]. right. split; [congruence|]. apply ul_failed; assumption.
  Qed.

  (** If a call fails the result is an error; otherwise it is an ordinary run. *)
  Lemma shaky_sound {A} (p : prog A) : tryless p -> forall d x d', snd d = false -> shaky_runs src p d x d' ->
    (snd d' = true /\ x = Err ERead) \/ (snd d' = false /\ runs src p (fst d) x (fst d')).
  Proof.
    induction p as [A r|n|c| |n|n|A B p IH k IHk|A p IH|A p IH]; intros TL d x d' F R; cbn [shaky_runs runs tryless] in *.
    - destruct R as [-> ->]. auto.
    - apply shaky_exact; assumption.
    - apply shaky_until; assumption.
    - destruct R as [[-> ->]|[-> R]]; auto.
    - destruct R as [[-> ->]|[-> R]]; auto.
    - destruct R as [[-> ->]|[-> R]]; auto.
    - destruct TL as [TP TK]. destruct R as [(a & d1 & R1 & R2)|[(e & R & ->)|(w & R & ->)]]; (destruct (IH TP _ _ _ F ltac:(eassumption)) as [[F1 E1]|[F1 E1]]; [try discriminate E1|]).
      + destruct (IHk a (TK a) _ _ _ F1 R2) as [|[F2 E2]]; [auto|]. right. split; [exact F2|]. left. eauto.
      + injection E1 as ->. auto.
      + right. eauto 6.
      + right. eauto 6.
    - destruct TL.
    - destruct R as [[-> R]|[(a & d1 & R1 & R2)|[(e & R & ->)|(w & R & ->)]]]; [auto|..]; (destruct (IH TL _ _ _ F ltac:(eassumption)) as [[F1 E1]|[F1 E1]]; [try discriminate E1|]).
      + destruct R2 as [[-> ->]|[-> R2]]; [|auto]. right. split; [exact F1|]. left. exists a, (fst d1). auto.
      + injection E1 as ->. auto.
      + right. eauto 6.
      + right. eauto 6.
  Qed.

  (** Ordinary runs are runs in which no call fails. *)
  Lemma exact_steady n d x d' : exact_loop src n d x d' -> forall f, exact_loop (shaky_source src) n (d, f) x (d', f).
  Proof.
    induction 1 as [d|n d bs d1 r d2 N0 R NE L IH|n d d1 N0 R|n d d1 r d2 N0 R L IH|n d d1 N0 R]; intros f.
    - apply el_done.
    - eapply (el_more (shaky_source src)) with (d1 := (d1, f)); [exact N0|left; auto|exact NE|apply IH].
    - apply el_end; [exact N0|left; auto].
    - eapply (el_retry (shaky_source src)) with (d1 := (d1, f)); [exact N0|left; auto|apply IH].
    - apply el_failed; [exact N0|left; auto].
  Qed.
  Lemma until_steady c d x d' : until_loop src c d x d' -> forall f, until_loop (shaky_source src) c (d, f) x (d', f).
  Proof.
    induction 1 as [d x y d1 R NI|d bs d1 r d2 R NE NI L IH|d d1 R|d d1 r d2 R L IH|d d1 R]; intros f.
    - apply (ul_found (shaky_source src) c (d, f) x y (d1, f)); [left; auto|exact NI].
    - apply (ul_more (shaky_source src) c (d, f) bs (d1, f)); [left; auto|exact NE|exact NI|apply IH].
    - apply (ul_end (shaky_source src) c (d, f) (d1, f)). left; auto.
    - apply (ul_retry (shaky_source src) c (d, f) (d1, f)); [left; auto|apply IH].
    - apply ul_failed. left; auto.
  Qed.
  Lemma steady {A} (p : prog A) : forall d x d' f, runs src p d x d' -> shaky_runs src p (d, f) x (d', f).
  Proof.
    induction p as [A r|n|c| |n|n|A B p IH k IHk|A p IH|A p IH]; intros d x d' f R; cbn [shaky_runs runs] in *.
    - destruct R as [-> ->]. auto.
    - apply exact_steady, R.
    - apply until_steady, R.
    - destruct R as [-> ->]. auto.
    - destruct R as [-> ->]. auto.
    - destruct R as [-> ->]. auto.
    - destruct R as [(a & d1 & R1 & R2)|[(e & R & ->)|(w & R & ->)]]; [left; exists a, (d1, f); auto|right; left; eauto|right; right; eauto].
    - destruct R as [(a & R & ->)|[(e & R & ->)|(w & R & ->)]]; [left; eauto|right; left; eauto|right; right; eauto].
    - right. destruct R as [(a & d1 & R & -> & ->)|[(e & R & ->)|(w & R & ->)]]; [left; exists a, (d1, f); auto|right; left; eauto|right; right; eauto].
  Qed.
  (** A program that calls the device at all may fail. *)
  Lemma fails_or_constant {A} (p : prog A) : tryless p -> forall d f,
    (exists d', shaky_runs src p (d, f) (Err ERead) (d', true)) \/
    (exists r, (forall s, denote p s = (r, s)) /\ shaky_runs src p (d, f) r (d, f)).
  Proof.
    induction p as [A r|n|c| |n|n|A B p IH k IHk|A p IH|A p IH]; intros TL d f; cbn [shaky_runs denote tryless] in *.
    - right. exists r. split; [reflexivity|auto].
    - destruct (N.eq_dec n 0) as [->|N0].
      + right. exists (Ok []). split; [|apply el_done]. intros [rest pos broken]. unfold read_exact. cbn [s_rest s_pos s_broken]. replace (0 <=? lenN rest) with true by lia. rewrite N.add_0_r. reflexivity.
      + left. exists d. apply el_failed; [lia|]. right. auto.
    - left. exists d. apply ul_failed. right. auto.
    - left. exists d. right. split; reflexivity.
    - left. exists d. right. split; reflexivity.
    - left. exists d. right. split; reflexivity.
    - destruct TL as [TP TK]. destruct (IH TP d f) as [[d' R]|([a|e|w] & E & R)]; [left; exists d'; right; left; eauto|..].
      + destruct (IHk a (TK a) d f) as [[d' R2]|(r & E2 & R2)]; [left; exists d'; left; eauto|right]. exists r. split; [|left; eauto].
        intros s. unfold bind. rewrite E. apply E2.
      + right. exists (Err e). split; [intros s; unfold bind; rewrite E; reflexivity|right; left; eauto].
      + right. exists (Panic w). split; [intros s; unfold bind; rewrite E; reflexivity|right; right; eauto].
    - destruct TL.
    - left. exists d. left. split; reflexivity.
  Qed.
End Reading.

Lemma shaky_result {A} (m : reader A) n p : performs n p m -> tryless p ->
  forall D (src : source D) inv abs, contract src inv abs -> forall d, inv d -> (length (unread (abs d)) <= n)%nat ->
  (forall x d', shaky_runs src p (d, false) x (d', true) -> x = Err ERead) /\
  (forall x d', shaky_runs src p (d, false) x (d', false) -> inv d' /\ m (stream_of (abs d)) = (x, stream_of (abs d'))) /\
  (forall x d', runs src p d x d' -> shaky_runs src p (d, false) x (d', false)).
Proof.
  intros P TL D src inv abs C d I L. split; [|split].
  - intros x d' R. destruct (shaky_sound src p TL (d, false) x (d', true) eq_refl R) as [[_ E]|[E _]]; [exact E|discriminate].
  - intros x d' R. destruct (shaky_sound src p TL (d, false) x (d', false) eq_refl R) as [[E _]|[_ E]]; [discriminate|]. cbn [fst] in E.
    destruct (proj1 (device_result m n p P D src inv abs C d I L) x d' E) as (I' & E' & _). auto.
  - intros x d' R. apply steady, R.
Qed.

(** ** The readers in which no error is ignored *)
Lemma strict_readers pf : is_strict read_simple /\ (forall I (ops : bucket_ops I) id, is_strict (read_bucketed ops pf id)) /\
  is_strict (read_explicit pf) /\ is_strict (read_floret pf) /\ is_strict (read_vocab_wrap pf) /\
  is_strict read_ndarray /\ is_strict read_quantized /\ is_strict read_storage_wrap /\ is_strict read_storage_view_wrap /\
  is_strict (mmap_ndarray pf) /\ is_strict (mmap_quantized_chunk pf) /\ is_strict (mmap_storage_wrap pf) /\ is_strict (mmap_storage_view_wrap pf) /\
  is_strict read_norms /\ (forall T, is_strict (read_metadata T)).
Proof.
  repeat apply conj; try intros I ops id; try intros T; apply code_is_strict; intros n;
    [apply code_simple|apply code_bucketed|apply code_explicit|apply code_floret|apply code_vocab_wrap|apply code_ndarray|apply code_quantized|apply code_storage_wrap
    |apply code_storage_view_wrap|apply code_mmap_ndarray|apply code_mmap_quantized|apply code_mmap_wrap|apply code_mmap_view_wrap|apply code_norms|apply code_metadata].
Qed.
Lemma strict_formats P pf {Md} T config_table lossy : is_strict (read_text_raw (Md := Md) P pf lossy) /\ is_strict (read_text (Md := Md) P pf lossy) /\
  is_strict (read_text_dims_raw (Md := Md) P pf lossy) /\ is_strict (read_text_dims (Md := Md) P pf lossy) /\
  is_strict (read_word2vec_raw (Md := Md) pf lossy) /\ is_strict (read_word2vec (Md := Md) pf lossy) /\ is_strict (read_floret_text (Md := Md) P pf) /\
  is_strict (read_fasttext pf T config_table lossy).
Proof.
  repeat apply conj; apply code_is_strict; intros n;
    [apply code_text_raw|apply code_text|apply code_text_dims_raw|apply code_text_dims|apply code_word2vec_raw|apply code_word2vec|apply code_floret_text|apply code_fasttext].
Qed.

(** ** Files: the norms are read with [.ok()] *)
Definition no_norms {Md V S F} (e : embeddings Md V S F) : embeddings Md V S F := mkEmb (em_meta e) (em_storage e) (em_vocab e) None.

Lemma embeddings_front T {V S} (rv : reader V) (rs : reader S) s :
  read_embeddings T rv rs s = bind (read_front T rv rs) (fun x => bind (ok_opt read_norms) (fun norms => ret (mkEmb (fst (fst x)) (snd (fst x)) (snd x) norms))) s.
Proof.
  unfold read_embeddings, read_front, bind, fail, ret. destruct (read_header s) as [[[|id ids]|e|w] s1]; try reflexivity.
  destruct (chunk_eqb id CMetadata); [destruct (read_metadata_chunk T s1) as [[md|e|w] s2]; try reflexivity; destruct (rv s2) as [[v|e|w] s3]|destruct (rv s1) as [[v|e|w] s3]]; try reflexivity;
    destruct (rs s3) as [[st|e|w] s4]; reflexivity.
Qed.

Lemma short_calls {T V S} (rv : reader V) (rs : reader S) : let s := mkStream [x00; x00; x00; x00] 0 in
  snd (read_front T rv rs s) <> s /\ snd (read_norms s) <> s.
Proof. split; vm_compute; discriminate. Qed.

Lemma shaky_file T {V S} (rv : reader V) (rs : reader S) n : is_strict rv -> is_strict rs -> (4 <= n)%nat ->
  exists p, performs n p (read_embeddings T rv rs) /\
  forall D (src : source D) inv abs, contract src inv abs -> forall d, inv d -> (length (unread (abs d)) <= n)%nat ->
  (forall x d', shaky_runs src p (d, false) x (d', false) -> read_embeddings T rv rs (stream_of (abs d)) = (x, stream_of (abs d'))) /\
  (forall x d', shaky_runs src p (d, false) x (d', true) ->
    match fst (read_embeddings T rv rs (stream_of (abs d))) with
    | Ok e => x = Err ERead \/ x = Ok (no_norms e)
    | Err _ => x = Err ERead
    | Panic w => x = Err ERead \/ w = PCapacity /\ exists e, x = Ok e /\ em_norms e = None
    end) /\
  (exists d', shaky_runs src p (d, false) (Err ERead) (d', true)) /\
  (responsive src inv -> forall e, fst (read_embeddings T rv rs (stream_of (abs d))) = Ok e -> exists d', shaky_runs src p (d, false) (Ok (no_norms e)) (d', true)).
Proof.
  intros HV HS L4. destruct (HV n) as [pv Pv], (HS n) as [ps Ps]. destruct (code_front n T rv rs (exist _ pv Pv) (exist _ ps Ps)) as [pf [Pf TF]]. destruct (code_norms n) as [pn [Pn TN]].
  set (k := fun x : option (toml_table T) * S * V => Bind (Try pn) (fun norms => Pure (Ok (mkEmb (fst (fst x)) (snd (fst x)) (snd x) norms)))).
  assert (performs n (Bind pf k) (read_embeddings T rv rs)) as PE.
  { intros s L. rewrite embeddings_front. refine (performs_bind n pf (read_front T rv rs) k _ Pf _ s L). intros x. apply performs_bind; [apply performs_try, Pn|]. intros norms. apply performs_pure. }
  exists (Bind pf k). split; [exact PE|]. intros D src inv abs C d I L. split; [|split; [|split]].
  - intros x d' R.
    assert (runs src (Bind pf k) d x d') as R'.
    { cbn [shaky_runs runs k] in *.
      destruct R as [(a & d1 & R1 & R2)|[(e & R & ->)|(w & R & ->)]].
      - destruct R2 as [(o & d2 & R2 & [-> <-])|[(e & R2 & ->)|(w & R2 & ->)]].
        + destruct R2 as [(ns & R2 & E)|[(e & R2 & E)|(w & R2 & E)]]; [| |discriminate].
          * destruct (shaky_sound src pf TF (d, false) _ _ eq_refl R1) as [[_ E1]|[F1 E1]]; [discriminate|].
            destruct (shaky_sound src pn TN _ _ _ F1 R2) as [[E2 _]|[F2 E2]]; [discriminate|]. injection E as ->. left. exists a, (fst d1). split; [exact E1|]. left. exists (Some ns), d'. split; [left; eauto|auto].
          * destruct (shaky_sound src pf TF (d, false) _ _ eq_refl R1) as [[_ E1]|[F1 E1]]; [discriminate|].
            destruct (shaky_sound src pn TN _ _ _ F1 R2) as [[E2 _]|[F2 E2]]; [discriminate|]. injection E as ->. left. exists a, (fst d1). split; [exact E1|]. left. exists None, d'. split; [right; left; eauto|auto].
        + destruct R2 as [(ns & R2 & E)|[(e' & R2 & E)|(w & R2 & E)]]; discriminate.
        + destruct R2 as [(ns & R2 & E)|[(e' & R2 & E)|(w' & R2 & E)]]; [discriminate..|].
          destruct (shaky_sound src pf TF (d, false) _ _ eq_refl R1) as [[_ E1]|[F1 E1]]; [discriminate|].
          destruct (shaky_sound src pn TN _ _ _ F1 R2) as [[E2 _]|[F2 E2]]; [discriminate|]. injection E as ->. left. exists a, (fst d1). split; [exact E1|]. right. right. exists w'. split; [right; right; eauto|auto].
      - destruct (shaky_sound src pf TF (d, false) _ _ eq_refl R) as [[E1 _]|[F1 E1]]; [discriminate|]. right. left. eauto.
      - destruct (shaky_sound src pf TF (d, false) _ _ eq_refl R) as [[E1 _]|[F1 E1]]; [discriminate|]. right. right. eauto. }
    apply (proj1 (device_result _ n _ PE D src inv abs C d I L) x d' R').
  - intros x d' R.
    assert (x = Err ERead \/ exists a d1 e, runs src pf d (Ok a) d1 /\ x = Ok e /\ e = mkEmb (fst (fst a)) (snd (fst a)) (snd a) None) as X.
    { cbn [shaky_runs k] in R. destruct R as [(a & d1 & R1 & R2)|[(e & R & ->)|(w & R & ->)]].
      - destruct (shaky_sound src pf TF (d, false) _ _ eq_refl R1) as [[_ E1]|[F1 E1]]; [discriminate|].
        destruct R2 as [(o & d2 & R2 & [-> <-])|[(e & R2 & ->)|(w & R2 & ->)]].
        + destruct R2 as [(ns & R2 & E)|[(e & R2 & E)|(w & R2 & E)]]; [| |discriminate];
            (destruct (shaky_sound src pn TN _ _ _ F1 R2) as [[_ E2]|[F2 _]]; [|discriminate F2]); [discriminate|]. injection E as ->. right. eauto 8.
        + destruct R2 as [(ns & R2 & E)|[(e' & R2 & E)|(w & R2 & E)]]; discriminate.
        + destruct R2 as [(ns & R2 & E)|[(e' & R2 & E)|(w' & R2 & E)]]; [discriminate..|].
          destruct (shaky_sound src pn TN _ _ _ F1 R2) as [[_ E2]|[F2 _]]; discriminate.
      - destruct (shaky_sound src pf TF (d, false) _ _ eq_refl R) as [[_ E1]|[F1 _]]; [injection E1 as ->; auto|discriminate].
      - destruct (shaky_sound src pf TF (d, false) _ _ eq_refl R) as [[_ E1]|[F1 _]]; discriminate. }
    destruct X as [->|(a & d1 & e & R1 & -> & ->)]; [destruct (fst _); auto|].
    pose proof (proj1 (device_result _ n _ Pf D src inv abs C d I L) _ _ R1) as (_ & E & _).
    rewrite embeddings_front. unfold bind. rewrite E. unfold ok_opt. destruct (read_norms (stream_of (abs d1))) as [[ns|er|w] s2] eqn:EN; cbn [fst ret]; [auto..|].
    right. split; [|eauto]. pose proof (PanicFacts.po_norms [PCapacity] (or_introl eq_refl) _ _ _ EN) as [<-|[]]. reflexivity.
  - destruct (fails_or_constant src pf TF d false) as [[d' R]|(r & E & _)]; [exists d'; right; left; eauto|].
    exfalso. apply (proj1 (@short_calls T V S rv rs)). rewrite <- (Pf (mkStream [x00; x00; x00; x00] 0)) by exact L4. rewrite E. reflexivity.
  - intros RS e LE. destruct (runs_ends src inv abs C RS pf d I) as (x & d1 & R). pose proof (proj1 (device_result _ n _ Pf D src inv abs C d I L) _ _ R) as (_ & E & _).
    rewrite embeddings_front in LE. unfold bind in LE. rewrite E in LE. destruct x as [a|er|w]; [|discriminate LE..].
    destruct (fails_or_constant src pn TN d1 false) as [[d' R2]|(r & E2 & _)].
    + exists d'. left. exists a, (d1, false). split; [apply steady, R|]. left. exists None, (d', true). split; [right; left; eauto|]. split; [|reflexivity].
      unfold ok_opt in LE. destruct (read_norms (stream_of (abs d1))) as [[ns|er|w] s2]; cbn [fst ret] in LE; [injection LE as <-; reflexivity..|discriminate].
    + exfalso. apply (proj2 (@short_calls T V S rv rs)). rewrite <- (Pn (mkStream [x00; x00; x00; x00] 0)) by exact L4. rewrite E2. reflexivity.
Qed.

(** ** Writers *)
Lemma write_rest k bs n k1 : bs <> [] -> dev_write k bs (Wrote n) k1 -> within k -> within k1 /\ write_bytes (dropN n bs) k1 = write_bytes bs k.
Proof.
  intros NE W I. destruct (all_loop_ends _ k1 (dropN n bs) eq_refl) as (r & k' & L).
  destruct (all_loop_sound _ _ _ _ (al_more k bs n k1 r k' NE W L) I) as [_ E].
  assert (within k1) as I1.
  { inversion W as [n' N0 NB R| |]; subst. unfold within, room, push in *. cbn [k_cap k_out]. destruct (k_cap k); [|exact I]. rewrite lenN_app, lenN_takeN. lia. }
  split; [exact I1|]. rewrite E. apply all_loop_sound; assumption.
Qed.
Lemma write_bytes_more bs k : exists more, k_out (snd (write_bytes bs k)) = k_out k ++ more.
Proof. unfold write_bytes, push. destruct (k_cap k) as [c|]; [destruct (_ <=? c)|]; cbn [snd k_out]; eauto. Qed.

Lemma shaky_all_sound kf bs r kf' : shaky_all kf bs r kf' -> within (fst kf) -> snd kf = false ->
  within (fst kf') /\
  ((snd kf' = false /\ write_bytes bs (fst kf) = (r, fst kf')) \/
   (snd kf' = true /\ r = Err EWrite /\ exists more, k_out (snd (write_bytes bs (fst kf))) = k_out (fst kf') ++ more)).
Proof.
  induction 1 as [k f|k f bs n k1 r k2 NE W L IH|k f bs k1 NE W|k f bs k1 r k2 NE W L IH|k f bs NE]; cbn [fst snd] in *; intros I ->.
  - split; [exact I|]. left. split; [reflexivity|]. apply (all_loop_sound k [] (Ok tt) k); [apply al_done|exact I].
  - destruct (write_rest k bs n k1 NE W I) as [I1 E]. rewrite <- E. apply IH; auto.
  - destruct (all_loop_sound k bs (Err EWrite) k1) as [I1 E]; [apply al_refused; assumption|exact I|]. auto.
  - inversion W; subst k1. apply IH; auto.
  - split; [exact I|]. right. split; [reflexivity|]. split; [reflexivity|]. apply write_bytes_more.
Qed.
Lemma wdenote_more {A} (p : wprog A) : forall k, exists more, k_out (snd (wdenote p k)) = k_out k ++ more.
Proof.
  induction p as [A r|bs|bs| |A B p IH f IHf]; intros k; cbn [wdenote].
  - exists []. rewrite app_nil_r. reflexivity.
  - apply write_bytes_more.
  - unfold as_read. destruct (write_bytes_more bs k) as [more E]. destruct (write_bytes bs k). eauto.
  - exists []. rewrite app_nil_r. reflexivity.
  - unfold bind. destruct (IH k) as [m1 E1]. destruct (wdenote p k) as [[a|e|w] k1]; cbn [snd] in *; eauto.
    destruct (IHf a k1) as [m2 E2]. rewrite E2, E1, <- app_assoc. eauto.
Qed.
Lemma shaky_writes {A} (p : wprog A) : forall k x k' f, within k -> wruns shaky_drain p (k, false) x (k', f) ->
  within k' /\
  ((f = false /\ wdenote p k = (x, k')) \/
   (f = true /\ (x = Err EWrite \/ x = Err ERead) /\ exists more, k_out (snd (wdenote p k)) = k_out k' ++ more)).
Proof.
  induction p as [A r|bs|bs| |A B p IH g IHg]; intros k x k' f I R; cbn [wruns wdenote shaky_drain dn_all dn_position] in *.
  - destruct R as [-> E]. apply pair_equal_spec in E as [-> ->]. auto.
  - destruct (shaky_all_sound _ _ _ _ R I eq_refl) as [I' [[F E]|(F & -> & E)]]; cbn [fst snd] in *; (split; [exact I'|]); auto 6.
  - destruct R as (y & R & ->). unfold as_read. destruct (shaky_all_sound _ _ _ _ R I eq_refl) as [I' [[F E]|(F & -> & E)]]; cbn [fst snd] in *; (split; [exact I'|]).
    + left. rewrite E. auto.
    + right. split; [exact F|]. split; [right; reflexivity|]. destruct (write_bytes bs k). exact E.
  - destruct R as [[-> E]|[E1 E]]; cbn [fst] in E; apply pair_equal_spec in E as [-> ->]; [auto|]. split; [exact I|]. right. split; [reflexivity|]. split; [tauto|].
    exists []. rewrite app_nil_r. reflexivity.
  - unfold bind. destruct R as [(a & [k1 f1] & R1 & R2)|[(e & R1 & ->)|(w & R1 & ->)]].
    + destruct (IH _ _ _ _ I R1) as [I1 [[-> E]|(_ & [X|X] & _)]]; [|discriminate..]. rewrite E. apply IHg; assumption.
    + destruct (IH _ _ _ _ I R1) as [I1 [[-> E]|(-> & X & more & E)]]; [rewrite E; auto|]. split; [exact I1|]. right. split; [reflexivity|].
      assert (Err e = @Err B EWrite \/ Err e = @Err B ERead) as X' by (destruct X as [X|X]; injection X as ->; auto). split; [exact X'|].
      destruct (wdenote p k) as [[a|e'|w] k1]; cbn [snd] in *; eauto. destruct (wdenote_more (g a) k1) as [m2 E2]. rewrite E2, E, <- app_assoc. eauto.
    + destruct (IH _ _ _ _ I R1) as [I1 [[-> E]|(_ & [X|X] & _)]]; [|discriminate..]. rewrite E. auto.
Qed.
Lemma steady_all k bs r k' f : all_loop k bs r k' -> shaky_all (k, f) bs r (k', f).
Proof. induction 1; [apply sa_done|eapply sa_more; eauto|eapply sa_refused; eauto|eapply sa_retry; eauto]. Qed.
Lemma steady_writes {A} (p : wprog A) : forall k x k' f, wruns dev_drain p k x k' -> wruns shaky_drain p (k, f) x (k', f).
Proof.
  induction p as [A r|bs|bs| |A B p IH g IHg]; intros k x k' f R; cbn [wruns dev_drain shaky_drain dn_all dn_position] in *.
  - destruct R as [-> ->]. auto.
  - apply steady_all, R.
  - destruct R as (y & R & ->). exists y. split; [apply steady_all, R|reflexivity].
  - left. destruct R as [-> ->]. auto.
  - destruct R as [(a & k1 & R1 & R2)|[(e & R1 & ->)|(w & R1 & ->)]]; [left; exists a, (k1, f); auto|right; left; eauto|right; right; eauto].
Qed.
Lemma shaky_written {A} (m : writer A) p : wperforms p m -> forall k, within k ->
  (forall x k', wruns shaky_drain p (k, false) x (k', false) -> m k = (x, k')) /\
  (forall x k', wruns shaky_drain p (k, false) x (k', true) -> (x = Err EWrite \/ x = Err ERead) /\ exists more, k_out (snd (m k)) = k_out k' ++ more) /\
  (forall x k', wruns dev_drain p k x k' -> wruns shaky_drain p (k, false) x (k', false)).
Proof.
  intros P k I. split; [|split].
  - intros x k' R. destruct (shaky_writes p k x k' false I R) as [_ [[_ E]|[E _]]]; [|discriminate]. rewrite <- P. exact E.
  - intros x k' R. destruct (shaky_writes p k x k' true I R) as [_ [[E _]|(_ & E)]]; [discriminate|]. rewrite <- P. exact E.
  - intros x k'. apply steady_writes.
Qed.
