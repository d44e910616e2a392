(** * Lookups with the size hints that [collect] asks for: proofs. *)
From Coq Require Import Lia ZifyBool ZifyNat ZifyN.
From Verif Require Import Base BaseFacts Utf8 Utf8Facts Stream StreamFacts F32 ChunkIO ChunkFacts Subword Vocab VocabSpec VocabFacts SubwordFacts IndexerFacts LookupFacts LookupExact
  Storage StorageFacts Embeddings Similarity EmbSpec ReadFacts FastText FastTextThms Width WidthThms MemoryThms WidthUse WidthUseThms Hints.
Local Open Scope N_scope.

(** The characters of a string. *)
Definition chars (s : str) : N := match utf8_decode s with Some cs => lenN cs | None => 0 end.
(** The product of the number of n-gram lengths and the number of characters
    fits [usize], or overflow is not checked. *)
Definition hint_fits (w : machine) (pf : profile) (mn mx : N) (s : str) : Prop :=
  pf = Release \/ (mx - mn + 1 < w_size w /\ (mx - mn + 1) * chars s < w_size w).
(** Room for twice the indices, and at least four. *)
Definition rows_fit (w : machine) (n : N) : Prop := N.max 4 (2 * n) * (mw_bits w / 8) <= mw_limit w.
(** Indexers that answer each n-gram with at least one index. *)
Definition dense {I} (ops : indexer_ops I) (ix : I) : Prop := forall g l, ix_index ops ix g = Ok l -> l <> [].

(** ** Iterators *)
Lemma next_shape g x g' : ngrams_next g = Ok (x, g') -> ng_max g' = ng_max g /\ ng_min g' = ng_min g /\ lenN (ng_offs g') <= lenN (ng_offs g).
Proof.
  assert (lenN (tl (ng_offs g)) <= lenN (ng_offs g)) as T by (unfold lenN; destruct (ng_offs g); cbn [tl length]; lia).
  assert (forall h, ngrams_emit h = Ok (x, g') -> ng_max g' = ng_max h /\ ng_min g' = ng_min h /\ ng_offs g' = ng_offs h) as E.
  { intros h H. unfold ngrams_emit in H. apply rbind_Ok_inv in H as (s & _ & H). inv H. auto. }
  unfold ngrams_next. destruct (_ <? _).
  - destruct (_ <? _); intros H; [inv H; cbn [ng_max ng_min ng_offs]; auto|]. apply E in H as (-> & -> & ->). cbn [ng_max ng_min ng_offs]. auto.
  - intros H. apply E in H as (-> & -> & ->). auto using N.le_refl.
Qed.
Lemma ngi_shape {I} (ops : indexer_ops I) it x it' : ngi_next ops it = Ok (x, it') ->
  ng_max (ni_ngrams it') = ng_max (ni_ngrams it) /\ ng_min (ni_ngrams it') = ng_min (ni_ngrams it) /\ lenN (ng_offs (ni_ngrams it')) <= lenN (ng_offs (ni_ngrams it)).
Proof.
  unfold ngi_next. destruct (ni_string it) as [s|]; intros H.
  - apply rbind_Ok_inv in H as (i & _ & H). inv H. cbn [ni_ngrams]. auto using N.le_refl.
  - apply rbind_Ok_inv in H as ([[y|] g'] & X & H); apply next_shape in X.
    + apply rbind_Ok_inv in H as (i & _ & H). inv H. exact X.
    + inv H. exact X.
Qed.
Lemma new_shape {I} (ops : indexer_ops I) s mn mx ix it : ngi_new ops s mn mx ix = Ok it ->
  ng_max (ni_ngrams it) = mx /\ ng_min (ni_ngrams it) = mn /\ lenN (ng_offs (ni_ngrams it)) = chars s /\ ng_len (ni_ngrams it) = N.min mx (chars s) /\ 1 <= mn /\ mn <= mx.
Proof.
  unfold ngi_new, ngrams_new, chars, utf8_decode. intros H. apply rbind_Ok_inv in H as (g & X & H). inv H. cbn [ni_ngrams].
  apply rbind_Ok_inv in X as (u & A1 & X). apply rbind_Ok_inv in X as (u' & A2 & X). apply rassert_Ok in A1, A2. destruct (char_indices s) as [ci|]; [|discriminate].
  inv X. cbn [ng_max ng_min ng_offs ng_len option_map]. rewrite !lenN_map. repeat apply conj; try reflexivity; lia.
Qed.

Section Hinted.
  Context (w : machine).

  Lemma add_release a b : exists c, w_add w Release a b = Ok c. Proof. unfold w_add. destruct (_ <? _); eauto. Qed.
  Lemma mul_release a b : exists c, w_mul w Release a b = Ok c. Proof. unfold w_mul. destruct (_ <? _); eauto. Qed.
  Lemma hint_release g : exists n, h_hint w Release g = Ok n.
  Proof. unfold h_hint. destruct (add_release (ng_max g - ng_min g) 1) as [a ->]. cbn [rbind]. apply mul_release. Qed.
  Lemma hint_small pf g : ng_max g - ng_min g + 1 < w_size w -> (ng_max g - ng_min g + 1) * lenN (ng_offs g) < w_size w ->
    h_hint w pf g = Ok ((ng_max g - ng_min g + 1) * lenN (ng_offs g)).
  Proof. intros A B. unfold h_hint, w_add, w_mul. apply N.ltb_lt in A, B. rewrite A. cbn [rbind]. rewrite B. reflexivity. Qed.
  Lemma hint_large g : ~ (ng_max g - ng_min g + 1 < w_size w /\ (ng_max g - ng_min g + 1) * lenN (ng_offs g) < w_size w) -> h_hint w Debug g = Panic PArithOverflow.
  Proof.
    intros A. unfold h_hint, w_add. destruct (N.ltb_spec (ng_max g - ng_min g + 1) (w_size w)) as [L|L]; [|reflexivity]. cbn [rbind].
    unfold w_mul. destruct (N.ltb_spec ((ng_max g - ng_min g + 1) * lenN (ng_offs g)) (w_size w)) as [K|K]; [tauto|reflexivity].
  Qed.
  (** What is needed of the state of an iterator. *)
  Definition calm pf (g : ngrams) : Prop := pf = Release \/ (ng_max g - ng_min g + 1 < w_size w /\ (ng_max g - ng_min g + 1) * lenN (ng_offs g) < w_size w).
  Lemma calm_hint pf g : calm pf g -> exists n, h_hint w pf g = Ok n.
  Proof. intros [->|[A B]]; [apply hint_release|]. rewrite hint_small by assumption. eauto. Qed.
  Lemma calm_next {I} (ops : indexer_ops I) pf it x it' : ngi_next ops it = Ok (x, it') -> calm pf (ni_ngrams it) -> calm pf (ni_ngrams it').
  Proof.
    intros H. apply ngi_shape in H as (E1 & E2 & L). unfold calm. rewrite E1, E2. intros [R|[A B]]; [left; exact R|right; split; [exact A|]].
    eapply N.le_lt_trans; [apply N.mul_le_mono_l; exact L|exact B].
  Qed.
  Lemma calm_new {I} (ops : indexer_ops I) pf s mn mx ix it : ngi_new ops s mn mx ix = Ok it -> hint_fits w pf mn mx s -> calm pf (ni_ngrams it).
  Proof. intros H. apply new_shape in H as (E1 & E2 & E3 & _). unfold calm, hint_fits. rewrite E1, E2, E3. exact (fun x => x). Qed.

  Context {I : Type} (ops : indexer_ops I) (pf : profile) (wl : N).

  (** Hints do not change what is returned. *)
  Lemma chunk_sound g : forall l st r st', h_chunk w pf wl g l st = Ok (r, st') -> rmap (fun i => w_row w pf i wl) l = Ok r.
  Proof.
    induction l as [|i l IH]; intros st r st' H; cbn [h_chunk rmap] in *; [inv H; reflexivity|].
    apply rbind_Ok_inv in H as (x & X & H). apply rbind_Ok_inv in H as (st1 & _ & H). apply rbind_Ok_inv in H as ([y z] & Y & H). inv H.
    apply IH in Y. rewrite X. cbn [rbind]. rewrite Y. reflexivity.
  Qed.
  Lemma rmap_app {A B} (f : A -> res B) a b x y : rmap f a = Ok x -> rmap f b = Ok y -> rmap f (a ++ b) = Ok (x ++ y).
  Proof.
    revert x. induction a as [|i a IH]; intros x H K; cbn [rmap app] in *; [inv H; exact K|].
    apply rbind_Ok_inv in H as (u & U & H). apply rbind_Ok_inv in H as (v & V & H). inv H. rewrite U. cbn [rbind]. rewrite (IH v V K). reflexivity.
  Qed.
  Lemma rmap_app_inv {A B} (f : A -> res B) a b z : rmap f (a ++ b) = Ok z -> exists x y, z = x ++ y /\ rmap f a = Ok x /\ rmap f b = Ok y.
  Proof.
    revert z. induction a as [|i a IH]; intros z H; cbn [rmap app] in *; [exists [], z; auto|].
    apply rbind_Ok_inv in H as (u & U & H). apply rbind_Ok_inv in H as (v & V & H). inv H. apply IH in V as (x & y & -> & V & K).
    exists (u :: x), y. rewrite U. cbn [rbind]. rewrite V. auto.
  Qed.
  Lemma indices_sound fuel : forall it st r, h_indices w ops pf fuel wl it st = Ok r ->
    exists l, ngi_drain ops fuel it = Ok l /\ rmap (fun i => w_row w pf i wl) (flat_map snd l) = Ok r.
  Proof.
    induction fuel as [|fuel IH]; intros it st r H; [discriminate|]. cbn [h_indices ngi_drain] in *. apply rbind_Ok_inv in H as ([[[g l]|] it'] & X & H).
    - apply rbind_Ok_inv in H as ([a st1] & A & H). apply rbind_Ok_inv in H as (b & B & H). inv H. cbn [fst snd] in *. apply chunk_sound in A. apply IH in B as (l' & L & B).
      rewrite X. cbn [rbind]. rewrite L. eexists. split; [reflexivity|]. cbn [flat_map snd]. apply rmap_app; assumption.
    - inv H. rewrite X. eexists. split; [reflexivity|]. reflexivity.
  Qed.
  Lemma items_sound fuel : forall it st r, h_items w ops pf fuel wl it st = Ok r ->
    exists l, ngi_drain ops fuel it = Ok l /\ rmap (fun '(g, is) => let* is' := rmap (fun i => w_row w pf i wl) is in Ok (g, is')) l = Ok r.
  Proof.
    induction fuel as [|fuel IH]; intros it st r H; [discriminate|]. cbn [h_items ngi_drain] in *. apply rbind_Ok_inv in H as ([[[g l]|] it'] & X & H).
    - apply rbind_Ok_inv in H as (a & A & H). apply rbind_Ok_inv in H as (st1 & _ & H). apply rbind_Ok_inv in H as (b & B & H). inv H. apply IH in B as (l' & L & B).
      rewrite X. cbn [rbind]. rewrite L. eexists. split; [reflexivity|]. cbn [rmap]. rewrite A. cbn [rbind]. rewrite B. reflexivity.
    - inv H. rewrite X. eexists. split; [reflexivity|]. reflexivity.
  Qed.

  (** With room for twice [T] elements. *)
  Definition room (T : N) (st : option (N * N)) : Prop := match st with None => True | Some (len, cap) => len <= cap end.
  Definition used (st : option (N * N)) : N := match st with None => 0 | Some (len, _) => len end.
  Lemma push_room T lower hint st : rows_fit w T -> hint = Ok lower -> room T st -> used st + 1 + lower <= T ->
    exists st', h_push w (mw_bits w / 8) hint st = Ok st' /\ room T st' /\ used st' = used st + 1.
  Proof.
    unfold rows_fit. intros RF -> R U. unfold h_push.
    assert (forall c, c <= N.max 4 (2 * T) -> h_alloc w (mw_bits w / 8) c = Ok c) as AL.
    { intros c L. unfold h_alloc. replace (c * (mw_bits w / 8) <=? mw_limit w) with true; [reflexivity|]. symmetry. apply N.leb_le.
      eapply N.le_trans; [apply N.mul_le_mono_r; exact L|exact RF]. }
    destruct st as [[len cap]|]; cbn [used room] in *.
    - destruct (N.eqb_spec len cap) as [->|NE].
      + cbn [rbind]. rewrite AL by (unfold h_more; lia). cbn [rbind]. eexists. split; [reflexivity|]. cbn [used room]. lia.
      + eexists. split; [reflexivity|]. cbn [used room]. lia.
    - cbn [rbind]. rewrite AL by (unfold h_more; lia). cbn [rbind]. eexists. split; [reflexivity|]. cbn [used room]. lia.
  Qed.
  Lemma chunk_complete T g : rows_fit w T -> calm pf g -> forall l st r, room T st -> used st + lenN l <= T -> rmap (fun i => w_row w pf i wl) l = Ok r ->
    exists st', h_chunk w pf wl g l st = Ok (r, st') /\ room T st' /\ used st' = used st + lenN l.
  Proof.
    intros RF C. destruct (calm_hint pf g C) as [n Hn]. induction l as [|i l IH]; intros st r R U H; cbn [h_chunk rmap] in *.
    - inv H. exists st. split; [reflexivity|]. split; [exact R|]. change (lenN (@nil N)) with 0. lia.
    - apply rbind_Ok_inv in H as (x & X & H). apply rbind_Ok_inv in H as (y & Y & H). inv H. rewrite X, Hn. cbn [rbind]. rewrite lenN_cons in U.
      destruct (push_room T (lenN l) (Ok (lenN l)) st RF eq_refl R) as (st1 & -> & R1 & U1); [lia|]. cbn [rbind].
      destruct (IH st1 y R1) as (st2 & -> & R2 & U2); [lia|exact Y|]. cbn [rbind fst snd]. exists st2. split; [reflexivity|]. split; [exact R2|]. rewrite lenN_cons. lia.
  Qed.
  Lemma indices_complete T fuel : rows_fit w T -> forall it st l r, calm pf (ni_ngrams it) -> room T st -> ngi_drain ops fuel it = Ok l -> rmap (fun i => w_row w pf i wl) (flat_map snd l) = Ok r ->
    used st + lenN r <= T -> h_indices w ops pf fuel wl it st = Ok r.
  Proof.
    intros RF. induction fuel as [|fuel IH]; intros it st l r C R H K U; [discriminate|]. cbn [h_indices ngi_drain] in *. apply rbind_Ok_inv in H as ([[[g a]|] it'] & X & H).
    - apply rbind_Ok_inv in H as (b & B & H). inv H. cbn [flat_map snd] in K. apply rmap_app_inv in K as (x & y & -> & K1 & K2). rewrite X. cbn [rbind].
      rewrite lenN_app in U. assert (lenN a = lenN x) as LA by (apply rmap_Ok_inv in K1; clear - K1; induction K1; [reflexivity|]; rewrite !lenN_cons; lia).
      pose proof (calm_next ops pf _ _ _ X C) as C'. destruct (chunk_complete T (ni_ngrams it') RF C' a st x R) as (st1 & -> & R1 & U1); [lia|exact K1|]. cbn [rbind fst snd].
      rewrite (IH it' st1 b y C' R1 B K2) by lia. reflexivity.
    - inv H. inv K. rewrite X. reflexivity.
  Qed.

  (** An overflow. *)
  Lemma first_offs s mn mx ix it x it' : ngi_new ops s mn mx ix = Ok it -> ngi_next ops it = Ok (Some x, it') -> ng_offs (ni_ngrams it') = ng_offs (ni_ngrams it).
  Proof.
    intros H. pose proof (new_shape ops _ _ _ _ _ H) as (E1 & E2 & E3 & E4 & R1 & R2). unfold ngi_next. destruct (ni_string it); intros X.
    - apply rbind_Ok_inv in X as (i & _ & X). inv X. reflexivity.
    - apply rbind_Ok_inv in X as ([[y|] g'] & N & X); [|discriminate]. apply rbind_Ok_inv in X as (i & _ & X). inv X. cbn [ni_ngrams].
      assert (forall h, ngrams_emit h = Ok (Some y, g') -> ng_offs g' = ng_offs h) as E.
      { intros h K. unfold ngrams_emit in K. apply rbind_Ok_inv in K as (t & _ & K). inv K. reflexivity. }
      unfold ngrams_next in N. destruct (N.ltb_spec (ng_len (ni_ngrams it)) (ng_min (ni_ngrams it))) as [L|L]; [|apply E, N].
      assert (lenN (tl (ng_offs (ni_ngrams it))) <= lenN (ng_offs (ni_ngrams it))) as T by (unfold lenN; destruct (ng_offs (ni_ngrams it)); cbn [tl length]; lia).
      destruct (N.ltb_spec (lenN (tl (ng_offs (ni_ngrams it)))) (ng_min (ni_ngrams it))) as [K|K]; [discriminate|]. lia.
  Qed.
End Hinted.

(** ** Lookups *)
Section Lookups.
  Context (w : machine) {I : Type} (ops : indexer_ops I) (pf : profile) (v : subword_vocab I) (s : str).

  (** What is returned is what is returned without hints. *)
  Lemma hinted_sound : (forall r, h_sub_subword_indices w ops pf v s = Ok r -> w_sub_subword_indices w ops pf v s = Ok r) /\
    (forall r, h_sub_ngram_indices w ops pf v s = Ok r -> w_sub_ngram_indices w ops pf v s = Ok r) /\
    (forall r, h_sub_idx w ops pf v s = Ok r -> w_sub_idx w ops pf v s = Ok r).
  Proof.
    assert (forall r, h_sub_subword_indices w ops pf v s = Ok r -> w_sub_subword_indices w ops pf v s = Ok r) as A.
    { intros r H. unfold h_sub_subword_indices, w_sub_subword_indices, str_subword_indices, subword_indices_with_ngrams in *. apply rbind_Ok_inv in H as (it & X & H). apply rbind_Ok_inv in H as (l & L & H).
      apply indices_sound in L as (l' & D & R). rewrite X. cbn [rbind]. rewrite D. cbn [rbind]. rewrite R. exact H. }
    split; [exact A|]. split.
    - intros r H. unfold h_sub_ngram_indices, w_sub_ngram_indices, subword_indices_with_ngrams in *. apply rbind_Ok_inv in H as (it & X & H). apply rbind_Ok_inv in H as (l & L & H).
      apply items_sound in L as (l' & D & R). rewrite X. cbn [rbind]. rewrite D. cbn [rbind]. rewrite R. exact H.
    - intros r H. unfold h_sub_idx, w_sub_idx in *. destruct (hm_get _ _); [exact H|]. apply rbind_Ok_inv in H as (x & X & H). rewrite (A x X). exact H.
  Qed.

  (** What is returned without hints is returned with them. *)
  Lemma hinted_indices r : hint_fits w pf (sv_min v) (sv_max v) (bracket v s) -> w_sub_subword_indices w ops pf v s = Ok r ->
    (forall l, r = Some l -> rows_fit w (lenN l)) -> h_sub_subword_indices w ops pf v s = Ok r.
  Proof.
    intros HF H RF. unfold h_sub_subword_indices, w_sub_subword_indices, str_subword_indices, subword_indices_with_ngrams in *.
    apply rbind_Ok_inv in H as (is & D & H). apply rbind_Ok_inv in D as (l & D & E). inv E. apply rbind_Ok_inv in D as (it & X & D). apply rbind_Ok_inv in H as (l' & R & H).
    rewrite X. cbn [rbind]. pose proof (calm_new w ops pf _ _ _ _ _ X HF) as C.
    assert (h_indices w ops pf (S (ngrams_fuel (bracket v s))) (sub_words_len v) it None = Ok l') as ->; [|exact H].
    destruct l' as [|x l'].
    - assert (forall fuel it st l, ngi_drain ops fuel it = Ok l -> flat_map snd l = [] -> h_indices w ops pf fuel (sub_words_len v) it st = Ok []) as Z.
      { clear. induction fuel as [|fuel IH]; intros it st l H F; [discriminate|]. cbn [h_indices ngi_drain] in *. apply rbind_Ok_inv in H as ([[[g a]|] it'] & X & H); [|rewrite X; reflexivity].
        apply rbind_Ok_inv in H as (b & B & H). inv H. cbn [flat_map snd] in F. apply app_eq_nil in F as [-> F]. rewrite X. cbn [rbind h_chunk snd fst]. rewrite (IH it' st b B F). reflexivity. }
      eapply Z; [exact D|]. apply rmap_Ok_inv in R. inv R. reflexivity.
    - inv H. eapply indices_complete; [apply RF; reflexivity|exact C|exact Logic.I|exact D|exact R|]. apply N.le_refl.
  Qed.
  Lemma hinted_idx r : hint_fits w pf (sv_min v) (sv_max v) (bracket v s) -> w_sub_idx w ops pf v s = Ok r ->
    (forall l, r = Some (Subwords l) -> rows_fit w (lenN l)) -> h_sub_idx w ops pf v s = Ok r.
  Proof.
    intros HF H RF. unfold h_sub_idx, w_sub_idx in *. destruct (hm_get _ _); [exact H|]. apply rbind_Ok_inv in H as (x & X & H). inv H.
    rewrite (hinted_indices x HF X); [reflexivity|]. intros l ->. apply RF. reflexivity.
  Qed.

  (** Otherwise lookups of words with n-grams panic in debug builds. *)
  Lemma hinted_overflow l : dense ops (sv_ix v) -> ~ hint_fits w pf (sv_min v) (sv_max v) (bracket v s) -> w_sub_subword_indices w ops pf v s = Ok (Some l) ->
    h_sub_subword_indices w ops pf v s = Panic PArithOverflow.
  Proof.
    intros DE HF H. assert (pf = Debug) as -> by (destruct pf; [reflexivity|exfalso; apply HF; left; reflexivity]).
    unfold h_sub_subword_indices, w_sub_subword_indices, str_subword_indices, subword_indices_with_ngrams in *.
    apply rbind_Ok_inv in H as (is & D & H). apply rbind_Ok_inv in D as (l0 & D & E). inv E. apply rbind_Ok_inv in D as (it & X & D). apply rbind_Ok_inv in H as (l' & R & H).
    rewrite X. cbn [rbind h_indices ngi_drain] in *. apply rbind_Ok_inv in D as ([[[g a]|] it'] & Y & D).
    - apply rbind_Ok_inv in D as (b & _ & D). inv D. rewrite Y. cbn [rbind]. cbn [flat_map snd] in R. apply rmap_app_inv in R as (x & y & -> & R & _).
      assert (a <> []) as NE.
      { assert (ni_ix it = sv_ix v) as EI by (unfold ngi_new in X; apply rbind_Ok_inv in X as (q & _ & X); inv X; reflexivity).
        unfold ngi_next in Y. destruct (ni_string it).
        - apply rbind_Ok_inv in Y as (i & Q & Y). inv Y. rewrite EI in Q. eapply DE, Q.
        - apply rbind_Ok_inv in Y as ([[q|] g'] & _ & Y); [|discriminate]. apply rbind_Ok_inv in Y as (i & Q & Y). inv Y. rewrite EI in Q. eapply DE, Q. }
      pose proof (new_shape ops _ _ _ _ _ X) as (E1 & E2 & E3 & _). pose proof (first_offs ops _ _ _ _ _ _ _ X Y) as E4. apply ngi_shape in Y as (E5 & E6 & _).
      destruct a as [|i a]; [destruct NE; reflexivity|]. cbn [rmap] in R. apply rbind_Ok_inv in R as (q & Q & _). cbn [h_chunk]. rewrite Q. cbn [rbind h_push].
      rewrite hint_large; [reflexivity|]. rewrite E5, E6, E4, E1, E2, E3. intros K. apply HF. right. exact K.
    - inv D. cbn in R. inv R. discriminate.
  Qed.
End Lookups.

(** ** How many n-grams there are *)
Lemma chars_encode cs : forallb scalarb cs = true -> chars (utf8_encode cs) = lenN cs.
Proof. intros V. unfold chars. rewrite utf8_decode_encode by exact V. reflexivity. Qed.
Lemma positions_square len mn mx ps : range_ok mn mx -> ngram_positions len mn mx ps -> lenN ps <= len * len.
Proof.
  intros [R1 R2] P. assert (range_ok mn (N.max mn (N.min mx len))) as R by (split; lia).
  assert (ngram_positions len mn (N.max mn (N.min mx len)) ps) as P'.
  { destruct P as [S P]. split; [exact S|]. intros i n. rewrite P. lia. }
  destruct (positions_count _ _ _ _ R P') as [L _]. eapply N.le_trans; [exact L|].
  destruct (N.eq_dec len 0) as [->|NZ]; [lia|]. apply N.mul_le_mono_r. lia.
Qed.
Lemma queried_count {I} (ops : indexer_ops I) s mn mx qs : range_ok mn mx -> queried ops s mn mx qs ->
  lenN qs <= (mx - mn + 1) * chars s + 1 /\ lenN qs <= chars s * chars s + 1.
Proof.
  intros R (items & (cs & ps & V & -> & P & EI) & ->). rewrite chars_encode by exact V. rewrite lenN_app, EI, lenN_map.
  destruct (positions_count _ _ _ _ R P) as [L _]. pose proof (positions_square _ _ _ _ R P) as L2.
  set (p := (mx - mn + 1) * lenN cs) in *. set (q := lenN cs * lenN cs) in *. clearbody p q.
  destruct (ix_scope ops); [change (lenN (@nil swcl)) with 0|change (lenN [swcl_new (utf8_encode cs)]) with 1]; lia.
Qed.

(** *** The iterator of n-grams and indices *)
Lemma drain_range {I} (ops : indexer_ops I) s mn mx ix it : ngi_new ops s mn mx ix = Ok it -> utf8_valid s = true /\ range_ok mn mx.
Proof.
  intros H. pose proof (new_shape ops _ _ _ _ _ H) as (_ & _ & _ & _ & R). split; [|exact R].
  unfold ngi_new, ngrams_new in H. apply rbind_Ok_inv in H as (g & X & _). apply rbind_Ok_inv in X as (u & _ & X). apply rbind_Ok_inv in X as (u' & _ & X).
  unfold utf8_valid, utf8_decode. destruct (char_indices s); [reflexivity|discriminate].
Qed.
Lemma ngi_items {I} (ops : indexer_ops I) fuel : forall g ix l, ngi_drain ops fuel (mkNgi None g ix) = Ok l -> exists items, remaining g items /\ lenN items = lenN l.
Proof.
  induction fuel as [|fuel IH]; intros g ix l H; [discriminate|]. cbn [ngi_drain ngi_next ni_string ni_ngrams ni_ix] in H. apply rbind_Ok_inv in H as ([x it'] & X & H).
  apply rbind_Ok_inv in X as ([[y|] g'] & N & X).
  - apply rbind_Ok_inv in X as (i & _ & X). inv X. apply rbind_Ok_inv in H as (l' & L & H). inv H. apply IH in L as (items & R & E).
    exists (y :: items). split; [econstructor; eassumption|]. rewrite !lenN_cons, E. reflexivity.
  - inv X. inv H. exists []. split; [econstructor; exact N|reflexivity].
Qed.
Lemma items_count {I} (ops : indexer_ops I) s mn mx ix l : subword_indices_with_ngrams ops s mn mx ix = Ok l ->
  lenN l <= (mx - mn + 1) * chars s + 1 /\ lenN l <= chars s * chars s + 1.
Proof.
  intros H. unfold subword_indices_with_ngrams in H. apply rbind_Ok_inv in H as (it & X & H). destruct (drain_range ops _ _ _ _ _ X) as [V R].
  destruct (ngrams_exact s mn mx V R) as (items & C & NG). unfold ngrams_collect in C. apply rbind_Ok_inv in C as (g & G & C). apply drain_remaining in C as [RM _].
  assert (queried ops s mn mx ((match ix_scope ops with Substrings => [] | StringAndSubstrings => [swcl_new s] end) ++ items)) as Q by (exists items; auto).
  apply queried_count in Q; [|exact R]. rewrite lenN_app in Q. unfold ngi_new in X. rewrite G in X. cbn [rbind] in X. inv X.
  enough (lenN l = lenN (match ix_scope ops with Substrings => [] | StringAndSubstrings => [swcl_new s] end) + lenN items) as -> by exact Q.
  destruct (ix_scope ops).
  - apply ngi_items in H as (its & RM' & E). rewrite (remaining_fun _ _ _ RM RM'). change (lenN (@nil swcl)) with 0. lia.
  - cbn [ngi_drain ngi_next ni_string ni_ngrams ni_ix] in H. apply rbind_Ok_inv in H as ([x it'] & X & H). apply rbind_Ok_inv in X as (i & _ & X). inv X.
    apply rbind_Ok_inv in H as (l' & L & H). inv H. apply ngi_items in L as (its & RM' & E). rewrite (remaining_fun _ _ _ RM RM'), lenN_cons. change (lenN [swcl_new s]) with 1. lia.
Qed.

(** ** The n-grams of a word with their indices *)
Section NGramItems.
  Context (w : machine) {I : Type} (ops : indexer_ops I) (pf : profile).
  Lemma items_room wl fuel : forall it len cap l r, ngi_drain ops fuel it = Ok l ->
    rmap (fun '(g, is) => let* is' := rmap (fun i => w_row w pf i wl) is in Ok (g, is')) l = Ok r -> len + lenN l <= cap ->
    h_items w ops pf fuel wl it (Some (len, cap)) = Ok r.
  Proof.
    induction fuel as [|fuel IH]; intros it len cap l r H K L; [discriminate|]. cbn [h_items ngi_drain] in *. apply rbind_Ok_inv in H as ([[[g a]|] it'] & X & H).
    - apply rbind_Ok_inv in H as (b & B & H). inv H. rewrite X. cbn [rbind rmap] in *. apply rbind_Ok_inv in K as (y & Y & K). apply rbind_Ok_inv in Y as (a' & A & Y). inv Y.
      apply rbind_Ok_inv in K as (z & Z & K). inv K. rewrite A. cbn [rbind h_push]. rewrite lenN_cons in L. replace (len =? cap) with false by lia. cbn [rbind].
      rewrite (IH it' (len + 1) cap b z B Z) by lia. reflexivity.
    - inv H. inv K. rewrite X. reflexivity.
  Qed.
  Context (v : subword_vocab I) (s : str).
  (** The request is for one more than the hint, at least for four. *)
  Lemma hinted_ngrams r : mw_limit w < w_size w -> 1 <= mw_string w ->
    sv_max v - sv_min v + 1 < w_size w -> (sv_max v - sv_min v + 1) * chars (bracket v s) < w_size w ->
    w_sub_ngram_indices w ops pf v s = Ok r ->
    h_sub_ngram_indices w ops pf v s =
      match r with
      | None => Ok None
      | Some _ => if N.max 4 ((sv_max v - sv_min v + 1) * chars (bracket v s) + 1) * (3 * mw_string w) <=? mw_limit w then Ok r else Panic PCapacity
      end.
  Proof.
    intros LS SS F1 F2 H. unfold h_sub_ngram_indices, w_sub_ngram_indices in *. apply rbind_Ok_inv in H as (l & D & H). pose proof (items_count ops _ _ _ _ _ D) as [CN _].
    unfold subword_indices_with_ngrams in D. apply rbind_Ok_inv in D as (it & X & D). apply rbind_Ok_inv in H as (l' & R & H). rewrite X. cbn [rbind].
    pose proof (new_shape ops _ _ _ _ _ X) as (E1 & E2 & E3 & _). cbn [h_items ngi_drain] in *. apply rbind_Ok_inv in D as ([[[g a]|] it'] & Y & D).
    - apply rbind_Ok_inv in D as (b & B & D). inv D. pose proof (first_offs ops _ _ _ _ _ _ _ X Y) as E4. pose proof (ngi_shape ops _ _ _ Y) as (E5 & E6 & _). rewrite Y. cbn [rbind rmap] in *.
      apply rbind_Ok_inv in R as (y & Q & R). apply rbind_Ok_inv in Q as (a' & A & Q). inv Q. apply rbind_Ok_inv in R as (z & Z & R). inv R. rewrite A. cbn [rbind h_push]. inv H.
      rewrite (hint_small w pf (ni_ngrams it')); [|rewrite E5, E6, E1, E2; exact F1|rewrite E5, E6, E4, E1, E2, E3; exact F2]. rewrite E5, E6, E4, E1, E2, E3.
      set (p := (sv_max v - sv_min v + 1) * chars (bracket v s)) in *. clearbody p. cbn [rbind]. unfold h_alloc, h_more.
      replace (N.max 4 (N.min (p + 1) (w_size w - 1)) * (3 * mw_string w) <=? mw_limit w) with (N.max 4 (p + 1) * (3 * mw_string w) <=? mw_limit w).
      + destruct (N.leb_spec (N.max 4 (p + 1) * (3 * mw_string w)) (mw_limit w)) as [LE|GT]; [|reflexivity]. cbn [rbind].
        rewrite (items_room (sub_words_len v) _ it' 1 _ b z B Z); [reflexivity|]. rewrite lenN_cons in CN.
        assert (N.max 4 (p + 1) * 1 <= N.max 4 (p + 1) * (3 * mw_string w)) as M by (apply N.mul_le_mono_l; lia). lia.
      + destruct (N.le_gt_cases (p + 1) (w_size w - 1)) as [LE|GT]; [rewrite (N.min_l _ _ LE); reflexivity|]. rewrite (N.min_r (p + 1)) by lia.
        assert (N.max 4 (w_size w - 1) * 3 <= N.max 4 (w_size w - 1) * (3 * mw_string w)) as M1 by (apply N.mul_le_mono_l; lia).
        assert (N.max 4 (p + 1) * 3 <= N.max 4 (p + 1) * (3 * mw_string w)) as M2 by (apply N.mul_le_mono_l; lia).
        transitivity false; [|symmetry]; apply N.leb_gt; lia.
    - inv D. cbn [rmap] in R. inv R. inv H. rewrite Y. reflexivity.
  Qed.
  Lemma hinted_ngrams_overflow l : ~ hint_fits w pf (sv_min v) (sv_max v) (bracket v s) -> w_sub_ngram_indices w ops pf v s = Ok (Some l) ->
    h_sub_ngram_indices w ops pf v s = Panic PArithOverflow.
  Proof.
    intros HF H. assert (pf = Debug) as -> by (destruct pf; [reflexivity|exfalso; apply HF; left; reflexivity]).
    unfold h_sub_ngram_indices, w_sub_ngram_indices, subword_indices_with_ngrams in *.
    apply rbind_Ok_inv in H as (l0 & D & H). apply rbind_Ok_inv in D as (it & X & D). apply rbind_Ok_inv in H as (l' & R & H).
    rewrite X. cbn [rbind h_items ngi_drain] in *. apply rbind_Ok_inv in D as ([[[g a]|] it'] & Y & D).
    - apply rbind_Ok_inv in D as (b & _ & D). inv D. rewrite Y. cbn [rbind rmap] in *. apply rbind_Ok_inv in R as (y & Q & _). apply rbind_Ok_inv in Q as (a' & A & _). rewrite A. cbn [rbind h_push].
      pose proof (new_shape ops _ _ _ _ _ X) as (E1 & E2 & E3 & _). pose proof (first_offs ops _ _ _ _ _ _ _ X Y) as E4. apply ngi_shape in Y as (E5 & E6 & _).
      rewrite hint_large; [reflexivity|]. rewrite E5, E6, E4, E1, E2, E3. intros K. apply HF. right. exact K.
    - inv D. cbn in R. inv R. discriminate.
  Qed.
End NGramItems.

(** ** Indexers *)
Lemma made_dense : (forall exp ix, exp <> 64 -> hash_indexer_new exp = Ok ix -> dense hash_ops ix) /\
  (forall n ix, n <> 0 -> ft_indexer_new n = Ok ix -> dense ft_ops ix) /\ (forall nb nh seed ix, floret_indexer_new nb nh seed = Ok ix -> dense floret_ops ix).
Proof.
  split; [|split].
  - intros exp ix NZ H g l E. destruct (hash_index_bound exp ix Debug g H NZ) as (i & E' & _). rewrite E' in E. inv E. discriminate.
  - intros n ix NZ H g l E. destruct (ft_index_bound n ix Debug g H NZ) as (i & E' & _). rewrite E' in E. inv E. discriminate.
  - intros nb nh seed ix H g l E. destruct (floret_index_exact nb nh seed ix g H) as (l' & E' & L & _). rewrite E' in E. inv E. intros ->.
    unfold floret_indexer_new, rassert in H. destruct ((0 <? lenN (@nil N)) && (lenN (@nil N) <=? 4)) eqn:B; [discriminate B|discriminate H].
Qed.
Lemma made_four I (ops : indexer_ops I) ix g l : ix_made I ops ix -> ix_index ops ix g = Ok l -> lenN l <= 4.
Proof.
  intros M E. destruct M as [exp ix NZ H|n ix NZ H|nb nh seed ix H|ix H].
  - destruct (hash_index_bound exp ix Debug g H NZ) as (i & E' & _). rewrite E' in E. inv E. discriminate.
  - destruct (ft_index_bound n ix Debug g H NZ) as (i & E' & _). rewrite E' in E. inv E. discriminate.
  - destruct (floret_index_exact nb nh seed ix g H) as (l' & E' & L & _). rewrite E' in E. inv E.
    unfold floret_indexer_new, rassert in H. destruct ((0 <? lenN l) && (lenN l <=? 4)) eqn:B; [lia|discriminate H].
  - cbn [ix_index explicit_ops] in E. unfold explicit_index in E. destruct (hm_get _ _); inv E; discriminate.
Qed.
(** A word of [n] characters between its markers has at most [4 (n n + 1)] indices. *)
Definition four {I} (ops : indexer_ops I) (ix : I) : Prop := forall g l, ix_index ops ix g = Ok l -> lenN l <= 4.
Lemma ft_four ix : four ft_ops ix.
Proof. intros g l E. cbn [ix_index ft_ops] in E. unfold ft_index in E. destruct (_ =? 0); inv E; discriminate. Qed.
Lemma drain_four {I} (ops : indexer_ops I) fuel : forall it l, four ops (ni_ix it) -> ngi_drain ops fuel it = Ok l -> Forall (fun p => lenN (snd p) <= 4) l.
Proof.
  induction fuel as [|fuel IH]; intros it l S H; [discriminate|]. cbn [ngi_drain] in H. apply rbind_Ok_inv in H as ([x it'] & X & H).
  unfold ngi_next in X. destruct (ni_string it) as [t|].
  - apply rbind_Ok_inv in X as (idx & X & E). inv E. apply rbind_Ok_inv in H as (l' & Y & H). inv H. constructor; [exact (S _ _ X)|]. eapply IH; [|exact Y]. exact S.
  - apply rbind_Ok_inv in X as ([[g|] g'] & X & E).
    + apply rbind_Ok_inv in E as (idx & Z & E). inv E. apply rbind_Ok_inv in H as (l' & Y & H). inv H. constructor; [exact (S _ _ Z)|]. eapply IH; [|exact Y]. exact S.
    + inv E. inv H. constructor.
Qed.
Lemma indices_count {I} (ops : indexer_ops I) ix s mn mx l : four ops ix -> str_subword_indices ops s mn mx ix = Ok l -> lenN l <= 4 * (chars s * chars s + 1).
Proof.
  intros M H. unfold str_subword_indices in H. apply rbind_Ok_inv in H as (l0 & D & H). inv H. pose proof (items_count ops _ _ _ _ _ D) as [_ L].
  assert (Forall (fun p => lenN (snd p) <= 4) l0) as F.
  { unfold subword_indices_with_ngrams in D. apply rbind_Ok_inv in D as (it & X & D). eapply drain_four; [|exact D].
    unfold ngi_new in X. apply rbind_Ok_inv in X as (g & _ & X). inv X. exact M. }
  enough (lenN (flat_map snd l0) <= 4 * lenN l0) by lia. clear - F. induction F as [|p l P F IH]; [apply N.le_refl|]. cbn [flat_map]. rewrite lenN_app, lenN_cons. lia.
Qed.

(** ** Lookups in vocabularies that fit *)

(** The conditions for one word. *)
Definition word_fits (w : machine) (pf : profile) (mn mx : N) (s : str) : Prop :=
  hint_fits w pf mn mx s /\ 8 * (chars s * chars s + 1) * (mw_bits w / 8) <= mw_limit w.

Section Same.
  Context (w : machine) {I : Type} (ops : indexer_ops I) (pf : profile) (v : subword_vocab I) (s : str).
  Lemma row_small i n b : i < b -> n + b < w_size w -> w_row w pf i n = Ok (i + n).
  Proof. intros L K. unfold w_row, w_add. rewrite N.mod_small by lia. replace (i + n <? w_size w) with true by lia. reflexivity. Qed.
  Lemma hinted_same : ix_made I ops (sv_ix v) -> fit_vocab w ops pf v -> word_fits w pf (sv_min v) (sv_max v) (bracket v s) ->
    h_sub_subword_indices w ops pf v s = w_sub_subword_indices w ops pf v s /\ h_sub_idx w ops pf v s = w_sub_idx w ops pf v s.
  Proof.
    intros M (b & B & L & SF) (HF & RF).
    enough (h_sub_subword_indices w ops pf v s = w_sub_subword_indices w ops pf v s) as E.
    { split; [exact E|]. unfold h_sub_idx, w_sub_idx. rewrite E. reflexivity. }
    destruct (ngi_new ops (bracket v s) (sv_min v) (sv_max v) (sv_ix v)) as [it|e|p] eqn:X;
      [|unfold h_sub_subword_indices, w_sub_subword_indices, str_subword_indices, subword_indices_with_ngrams; rewrite X; reflexivity..].
    destruct (drain_range ops _ _ _ _ _ X) as [V R]. destruct (ix_made_total _ _ _ M) as (b' & _ & T).
    assert (forall g, exists l, ix_index ops (sv_ix v) g = Ok l) as T' by (intros g; destruct (T g) as (l & E & _); eauto).
    destruct (str_indices ops (sv_ix v) T' _ _ _ V R) as (qs & is & Q & A & E1 & E2).
    assert (Forall (fun i => i < b) (concat is)) as FI.
    { clear - A SF. induction A as [|q l qs is E A IH]; cbn [concat]; [constructor|]. apply Forall_app. split; [eapply SF; exact E|exact IH]. }
    assert (exists l', rmap (fun i => w_row w pf i (sub_words_len v)) (concat is) = Ok l' /\ lenN l' = lenN (concat is)) as (l' & RM & LL).
    { rewrite (rmap_pure _ (fun i => i + sub_words_len v)); [eexists; split; [reflexivity|apply lenN_map]|].
      intros i Hi. rewrite Forall_forall in FI. eapply row_small; [apply FI, Hi|exact L]. }
    assert (w_sub_subword_indices w ops pf v s = Ok (match l' with [] => None | _ => Some l' end)) as E.
    { unfold w_sub_subword_indices. rewrite E2. cbn [rbind]. rewrite RM. cbn [rbind]. destruct l'; reflexivity. }
    rewrite E. apply hinted_indices; [exact HF|exact E|]. intros l EL. assert (l' = l) as -> by (destruct l'; [discriminate|inv EL; reflexivity]).
    apply (indices_count ops) in E2; [|intros g x; apply made_four; exact M]. rewrite <- LL in E2. unfold rows_fit.
    eapply N.le_trans; [|exact RF]. apply N.mul_le_mono_r. set (q := chars (bracket v s) * chars (bracket v s)) in *. clearbody q. lia.
  Qed.
End Same.

Lemma rmap_lenN {A B} (f : A -> res B) l r : rmap f l = Ok r -> lenN r = lenN l.
Proof. intros H. apply rmap_Ok_inv in H. induction H; [reflexivity|]. rewrite !lenN_cons. lia. Qed.
(** Also for indexers that do not answer everything. *)
Lemma hinted_answer w {I} (ops : indexer_ops I) pf v s r : four ops (sv_ix v) -> word_fits w pf (sv_min v) (sv_max v) (bracket v s) ->
  w_sub_subword_indices w ops pf v s = Ok r -> h_sub_subword_indices w ops pf v s = Ok r.
Proof.
  intros M (HF & RF) H. apply hinted_indices; [exact HF|exact H|]. intros l ->. unfold w_sub_subword_indices in H. apply rbind_Ok_inv in H as (is & E2 & H).
  apply rbind_Ok_inv in H as (l' & RM & H). assert (l' = l) as -> by (destruct l'; [discriminate|inv H; reflexivity]).
  apply rmap_lenN in RM. apply (indices_count ops) in E2; [|exact M]. rewrite <- RM in E2. unfold rows_fit.
  eapply N.le_trans; [|exact RF]. apply N.mul_le_mono_r. set (q := chars (bracket v s) * chars (bracket v s)) in *. clearbody q. lia.
Qed.

(** The words that any vocabulary can look up. *)
Definition lookup_fits (w : machine) (pf : profile) (v : vocab_wrap) (s : str) : Prop :=
  match vocab_range v with
  | None => True
  | Some (mn, mx, bow, eow) => word_fits w pf mn mx (bow ++ s ++ eow)
  end.
Lemma hinted_lookup w pf v s : w_size w <= two64 -> vocab_made pf v -> vocab_fits w pf v -> lookup_fits w pf v s ->
  v_idx (h_wrap_ops w) pf v s = v_idx wrap_ops pf v s.
Proof.
  intros W M F L. rewrite <- (width_lookup w pf v s W M F).
  destruct M as [ws v H|ws mn mx ix bow eow v MI H|ws mn mx ix bow eow v MI H|ws mn mx ix bow eow v MI H|ws mn mx ix bow eow v MI H];
    cbn [v_idx h_wrap_ops w_wrap_ops h_sub_ops w_sub_ops]; [reflexivity|..];
    (apply hinted_same; [apply sub_new_Ok in H as (_ & -> & _); exact MI|eapply built_fits; [exact MI|exact H|exact F]|exact L]).
Qed.
(** On 64-bit machines. *)
Lemma word_fits_64 pf mn mx s : mx < 4294967296 -> chars s < 268435456 -> word_fits m64 pf mn mx s.
Proof.
  intros A B. split; [right; rewrite w_size_64; unfold two64|].
  - split; [lia|]. eapply N.le_lt_trans; [apply N.mul_le_mono; [|apply N.lt_le_incl; exact B]|]; [apply (N.le_trans _ 4294967297); [lia|apply N.le_refl]|reflexivity].
  - change (mw_bits m64 / 8) with 8. change (mw_limit m64) with 9223372036854775807.
    assert (chars s * chars s <= 268435456 * 268435456) by (apply N.mul_le_mono; lia). lia.
Qed.
Lemma hinted_64 pf v s : vocab_made pf v -> vocab_fits m64 pf v ->
  (forall mn mx bow eow, vocab_range v = Some (mn, mx, bow, eow) -> mx < 4294967296 /\ chars (bow ++ s ++ eow) < 268435456) ->
  v_idx (h_wrap_ops m64) pf v s = v_idx wrap_ops pf v s.
Proof.
  intros M F L. apply hinted_lookup; [rewrite w_size_64; apply N.le_refl|exact M|exact F|].
  unfold lookup_fits. destruct (vocab_range v) as [[[[mn mx] bow] eow]|] eqn:E; [|exact Logic.I]. destruct (L _ _ _ _ eq_refl) as [A B]. apply word_fits_64; assumption.
Qed.
(** On 32-bit machines. *)
Lemma hinted_i686 pf v s : vocab_made pf v -> vocab_fits i686 pf v ->
  (forall mn mx bow eow, vocab_range v = Some (mn, mx, bow, eow) ->
     chars (bow ++ s ++ eow) < 8192 /\ (pf = Release \/ 1 <= mn /\ mx < 4294967296 /\ (mx - mn + 1) * chars (bow ++ s ++ eow) < 4294967296)) ->
  v_idx (h_wrap_ops i686) pf v s = v_idx wrap_ops pf v s.
Proof.
  intros M F L. apply hinted_lookup; [discriminate|exact M|exact F|].
  unfold lookup_fits. destruct (vocab_range v) as [[[[mn mx] bow] eow]|] eqn:E; [|exact Logic.I]. destruct (L _ _ _ _ eq_refl) as [A B].
  split.
  - destruct B as [R|(R & X & B)]; [left; exact R|right]. change (w_size i686) with 4294967296. split; [lia|exact B].
  - change (mw_bits i686 / 8) with 4. change (mw_limit i686) with 2147483647.
    assert (chars (bow ++ s ++ eow) * chars (bow ++ s ++ eow) <= 8191 * 8191) by (apply N.mul_le_mono; lia). lia.
Qed.

(** ** Embeddings *)
Lemma rfold_ext_in {A B} (f g : B -> A -> res B) l : (forall b a, In a l -> f b a = g b a) -> forall b, rfold f l b = rfold g l b.
Proof.
  induction l as [|a l IH]; intros H b; cbn [rfold]; [reflexivity|]. rewrite H by (left; reflexivity). destruct (g b a); cbn [rbind]; [|reflexivity|reflexivity].
  apply IH. intros b' a' Ha. apply H. right. exact Ha.
Qed.
Section Embeddings.
  Context (w : machine) (W : w_size w <= two64) {Md S F : Type} (o : fops F) (SO : storage_ops F S) (pf : profile) (e : embeddings Md vocab_wrap S F).
  Context (M : vocab_made pf (em_vocab e)) (FV : vocab_fits w pf (em_vocab e)).
  Lemma hinted_embedding s : lookup_fits w pf (em_vocab e) s ->
    emb_embedding o (h_wrap_ops w) SO pf e s = emb_embedding o wrap_ops SO pf e s /\
    emb_with_norm o (h_wrap_ops w) SO pf e s = emb_with_norm o wrap_ops SO pf e s /\
    forall t, emb_embedding_into o (h_wrap_ops w) SO pf e s t = emb_embedding_into o wrap_ops SO pf e s t.
  Proof.
    intros L. split; [|split].
    - unfold emb_embedding. rewrite (hinted_lookup w pf _ s W M FV L). reflexivity.
    - unfold emb_with_norm. rewrite (hinted_lookup w pf _ s W M FV L). reflexivity.
    - intros t. unfold emb_embedding_into. rewrite (hinted_lookup w pf _ s W M FV L). reflexivity.
  Qed.
  Lemma hinted_batch order words out : (forall s is, In (s, is) (order (word_indices words)) -> lookup_fits w pf (em_vocab e) s) ->
    emb_batch_into o (h_wrap_ops w) SO pf order e words out = emb_batch_into o wrap_ops SO pf order e words out.
  Proof.
    intros L. unfold emb_batch_into. do 2 (destruct (rassert _ _); [cbn [rbind]|reflexivity|reflexivity]). apply rfold_ext_in. intros st [s is] Hs.
    unfold batch_step. destruct st as [rows found]. destruct (index is 0) as [i| |]; [|reflexivity|reflexivity]. cbn [rbind].
    destruct (index rows i) as [t| |]; [|reflexivity|reflexivity]. cbn [rbind]. destruct (hinted_embedding s (L s is Hs)) as (_ & _ & ->). reflexivity.
  Qed.
  Context (view : S -> res (array2 F)).
  Lemma hinted_queries limit bs : limit * mw_string w <= mw_limit w -> limit * 24 <= isize_max ->
    (forall s, lookup_fits w pf (em_vocab e) s -> w_word_similarity w o (h_wrap_ops w) SO view pf e s limit bs = word_similarity o wrap_ops SO view pf e s limit bs) /\
    (forall w1 w2 w3 r, lookup_fits w pf (em_vocab e) w1 -> lookup_fits w pf (em_vocab e) w2 -> lookup_fits w pf (em_vocab e) w3 ->
       w_analogy_masked w o (h_wrap_ops w) SO view pf e (w1, w2, w3) r limit bs = analogy_masked o wrap_ops SO view pf e (w1, w2, w3) r limit bs).
  Proof.
    intros L K. assert (forall q skip, w_similarity w o (h_wrap_ops w) view e q skip limit bs = similarity_ o wrap_ops view e q skip limit bs) as X.
    { intros q skip. unfold w_similarity, similarity_. apply N.leb_le in L, K. rewrite L, K. reflexivity. }
    split.
    - intros s Ls. unfold w_word_similarity, word_similarity. destruct (hinted_embedding s Ls) as (-> & _). destruct (emb_embedding _ _ _ _ _ _) as [[x|]| |]; try reflexivity. cbn [rbind]. rewrite X. reflexivity.
    - intros w1 w2 w3 [[r1 r2] r3] L1 L2 L3. unfold w_analogy_masked, analogy_masked, lookup_words3. destruct (hinted_embedding w1 L1) as (-> & _). destruct (hinted_embedding w2 L2) as (-> & _). destruct (hinted_embedding w3 L3) as (-> & _).
      match goal with |- rbind ?a _ = _ => destruct a as [[[[v1 v2] v3]|]| |]; try reflexivity end. cbn [rbind]. rewrite X. reflexivity.
  Qed.
End Embeddings.

(** ** fastText files *)
Section FastText.
  Context (w : machine) (pf : profile) (T : toml_ops) (ct : ft_config -> option (toml_table T)) (lossy : bool).
  Lemma h_subwords_sound {F} (o : fops F) v l : forall (a b : array2 F), rfold (h_subwords_step w o pf v) l a = Ok b -> rfold (w_subwords_step w o pf v) l a = Ok b.
  Proof.
    induction l as [|[i s] l IH]; intros a b H; cbn [rfold] in *; [exact H|]. apply rbind_Ok_inv in H as (c & X & H). unfold h_subwords_step in X. apply rbind_Ok_inv in X as (r & R & X).
    apply (proj1 (hinted_sound w ft_ops pf v s)) in R. assert (w_subwords_step w o pf v a (i, s) = Ok c) as -> by (unfold w_subwords_step; rewrite R; exact X). exact (IH c b H).
  Qed.
  Lemma h_subwords_complete {F} (o : fops F) v l : (forall i s, In (i, s) l -> word_fits w pf (sv_min v) (sv_max v) (bracket v s)) ->
    forall (a b : array2 F), rfold (w_subwords_step w o pf v) l a = Ok b -> rfold (h_subwords_step w o pf v) l a = Ok b.
  Proof.
    intros WF. induction l as [|[i s] l IH]; intros a b H; cbn [rfold] in *; [exact H|]. apply rbind_Ok_inv in H as (c & X & H). unfold w_subwords_step in X. apply rbind_Ok_inv in X as (r & R & X).
    apply hinted_answer in R; [|apply ft_four|eapply WF; left; reflexivity].
    assert (h_subwords_step w o pf v a (i, s) = Ok c) as -> by (unfold h_subwords_step; rewrite R; exact X). apply IH; [intros; eapply WF; right; eassumption|exact H].
  Qed.
  Lemma hinted_fasttext_sound s e s' : h_fasttext w pf T ct lossy s = (Ok e, s') -> w_fasttext w pf T ct lossy s = (Ok e, s').
  Proof.
    revert s e s'. change (sound (h_fasttext w pf T ct lossy) (w_fasttext w pf T ct lossy)).
    apply sound_bind; [apply sound_refl|intros ? _]. destruct (negb _); [apply sound_refl|]. apply sound_bind; [apply sound_refl|intros ? _]. destruct (_ <? _); [apply sound_refl|].
    apply sound_bind; [apply sound_refl|intros c _]. apply sound_bind; [apply sound_refl|intros v _]. apply sound_bind; [apply sound_refl|intros q _]. destruct (_ =? 1); [apply sound_refl|].
    apply sound_bind; [apply sound_refl|intros mat _]. apply sound_bind; [|intros ? _; apply sound_refl].
    intros s1 b s2 H. apply lift_inv in H as [H <-]. unfold lift. f_equal. unfold h_add_subwords in H. apply h_subwords_sound in H. exact H.
  Qed.
  Lemma hinted_fasttext s e s' : w_fasttext w pf T ct lossy s = (Ok e, s') ->
    (forall x, In x (sv_words (em_vocab e)) -> word_fits w pf (sv_min (em_vocab e)) (sv_max (em_vocab e)) (bracket (em_vocab e) x)) ->
    h_fasttext w pf T ct lossy s = (Ok e, s').
  Proof.
    intros H WF. unfold w_fasttext, h_fasttext in *. minv H as m X1. rewrite (bind_step _ _ _ _ _ X1). destruct (negb _); [discriminate|].
    minv H as ver X2. rewrite (bind_step _ _ _ _ _ X2). destruct (_ <? _); [discriminate|]. minv H as c X3. rewrite (bind_step _ _ _ _ _ X3). minv H as v X4. rewrite (bind_step _ _ _ _ _ X4).
    minv H as q X5. rewrite (bind_step _ _ _ _ _ X5). destruct (_ =? 1); [discriminate|]. minv H as a0 X6. rewrite (bind_step _ _ _ _ _ X6). minv H as a1 X7.
    assert (em_vocab e = v) as EV.
    { minv H as an Y. minv H as n Y2. destruct (negb _); [discriminate|]. destruct (ct c); [|discriminate]. apply lift_inv in H as [H _]. unfold emb_new, emb_new_with_maybe_norms in H.
      clear - H. repeat (apply rbind_Ok_inv in H as (? & _ & H)). inv H. reflexivity. }
    rewrite EV in WF. apply lift_inv in X7 as [X7 E]. assert (h_add_subwords w f32_ops pf v a0 = Ok a1) as X8.
    { apply h_subwords_complete; [|exact X7]. intros i x Hx. apply WF. rewrite <- (enumerate_snd (sv_words v)). apply (in_map snd) in Hx. exact Hx. }
    rewrite X8. etransitivity; [apply (bind_step _ _ _ _ _ (eq_refl (lift (Ok a1) s5)))|]. rewrite E. exact H.
  Qed.
End FastText.
(** On 64-bit machines. *)
Lemma hinted_fasttext_64 pf T ct lossy s e s' : read_fasttext pf T ct lossy s = (Ok e, s') -> sv_max (em_vocab e) < 4294967296 ->
  (forall x, In x (sv_words (em_vocab e)) -> chars (bracket (em_vocab e) x) < 268435456) ->
  h_fasttext m64 pf T ct lossy s = (Ok e, s').
Proof.
  intros H L C. apply hinted_fasttext; [rewrite width_64_fasttext; exact H|]. intros x Hx. apply word_fits_64; [exact L|apply C, Hx].
Qed.
