(** * Batch lookups, norms and iterators. *)
From Verif Require Import Base BaseFacts Utf8 F32 ChunkIO Subword Vocab Storage Embeddings FileSpec VocabSpec EmbSpec
  VocabFacts LookupFacts MatrixFacts EmbFacts.
From Coq Require Import Lia Permutation.
Local Open Scope N_scope.

Lemma zeros_fit_alloc {S} rows cols size (s : S) :
  alloc_zeros [rows; cols] size s
  = if zeros_fit rows cols size then (Ok tt, s) else (Panic PCapacity, s).
Proof.
  unfold alloc_zeros, zeros_fit, fold_left. rewrite !N.mul_1_l. reflexivity.
Qed.

Lemma zeros_fit_spec rows cols :
  zeros_fit rows cols 4 = true <->
  rows <= isize_max /\ cols <= isize_max /\ 4 * rows * cols <= isize_max.
Proof.
  unfold zeros_fit, nonzero. rewrite andb_true_iff, !N.leb_le.
  assert (1 <= isize_max) as I by (apply N.leb_le; reflexivity).
  destruct (N.eqb_spec rows 0) as [->|R], (N.eqb_spec cols 0) as [->|C]; split; intros H; repeat split; try lia; nia.
Qed.

(** ** Positions of a word *)
Definition positions (w : str) (words : list str) : list N :=
  map fst (filter (fun p => str_eqb w (snd p)) (enumerate words)).

Lemma positions_In w words i : In i (positions w words) <-> nthN words i = Some w.
Proof.
  unfold positions. rewrite in_map_iff. split.
  - intros ([j x] & <- & H). apply filter_In in H as [H E]. cbn [snd fst] in *. apply str_eqb_eq in E. subst x.
    apply enumerate_In. auto.
  - intros H. exists (i, w). split; [reflexivity|]. apply filter_In. split; [apply enumerate_In; auto|]. apply str_eqb_refl.
Qed.

Lemma enumerate_from_fst_NoDup {A} (l : list A) n :
  NoDup (map fst (enumerate_from n l)) /\ Forall (fun i => n <= i) (map fst (enumerate_from n l)).
Proof.
  revert n. induction l as [|a l IH]; intros n; cbn [enumerate_from map]; [split; constructor|].
  destruct (IH (n + 1)) as [ND G]. cbn [fst]. split.
  - constructor; [|auto]. intros H. rewrite Forall_forall in G. apply G in H. lia.
  - constructor; [lia|]. eapply Forall_impl; [|exact G]. cbn beta. intros; lia.
Qed.

Lemma NoDup_map_filter {A B} (f : A -> B) (p : A -> bool) l : NoDup (map f l) -> NoDup (map f (filter p l)).
Proof.
  induction l as [|a l IH]; intros H; [constructor|]. cbn [map filter] in *. inv H.
  destruct (p a); cbn [map]; [constructor; [|auto]|auto].
  intros C. apply H2. apply in_map_iff in C as (x & E & C). apply filter_In in C as [C _]. rewrite <- E. apply in_map. auto.
Qed.

Lemma positions_NoDup w words : NoDup (positions w words).
Proof. apply NoDup_map_filter, enumerate_from_fst_NoDup. Qed.

Lemma positions_snoc w words x :
  positions w (words ++ [x]) = positions w words ++ (if str_eqb w x then [lenN words] else []).
Proof.
  unfold positions. rewrite enumerate_snoc, filter_app, map_app. cbn [filter snd]. destruct (str_eqb w x); reflexivity.
Qed.

Lemma word_indices_get words w :
  hm_get (word_indices words) w = match positions w words with [] => None | l => Some l end.
Proof.
  unfold word_indices. induction words as [|x words IH] using rev_ind; [reflexivity|].
  rewrite enumerate_snoc, fold_left_app, positions_snoc. cbn [fold_left push_index].
  set (m := fold_left push_index (enumerate words) []) in *.
  destruct (str_eqb w x) eqn:E.
  - apply str_eqb_eq in E. subst x. rewrite IH. destruct (positions w words) as [|p ps]; rewrite hm_insert_get_same; reflexivity.
  - rewrite app_nil_r, <- IH. apply str_eqb_neq in E.
    destruct (hm_get m x); apply hm_insert_get_other; auto.
Qed.

Lemma word_indices_NoDup words : NoDup (map fst (word_indices words)).
Proof.
  unfold word_indices. induction words as [|x words IH] using rev_ind; [constructor|].
  rewrite enumerate_snoc, fold_left_app. cbn [fold_left push_index].
  destruct (hm_get _ x); apply hm_insert_keys_NoDup; auto.
Qed.

Lemma word_indices_In words w is : In (w, is) (word_indices words) <-> In w words /\ is = positions w words.
Proof.
  split.
  - intros H. apply hm_get_NoDup in H; [|apply word_indices_NoDup]. rewrite word_indices_get in H.
    destruct (positions w words) as [|p ps] eqn:E; [discriminate|]. inv H. split; [|reflexivity].
    assert (In p (positions w words)) as I by (rewrite E; left; reflexivity).
    apply positions_In, nthN_In in I. auto.
  - intros [I ->]. apply hm_get_In. rewrite word_indices_get. apply In_nthN in I as [i I]. apply positions_In in I.
    destruct (positions w words); [destruct I|reflexivity].
Qed.

(** ** Writing the same value at several positions *)
Definition write_all {A} (is : list N) (v : A) (l : list A) : list A :=
  fold_left (fun l i => set_nth (N.to_nat i) v l) is l.

Lemma nthN_set_nth {A} (l : list A) i j v :
  nthN (set_nth (N.to_nat i) v l) j = if j =? i then option_map (fun _ => v) (nthN l j) else nthN l j.
Proof.
  rewrite !nthN_spec. destruct (N.eqb_spec j i) as [->|NE].
  - destruct (nth_error l (N.to_nat i)) eqn:E; cbn [option_map].
    + apply set_nth_same. apply nth_error_Some. congruence.
    + apply nth_error_None in E. apply nth_error_None. rewrite set_nth_length. auto.
  - apply set_nth_other. lia.
Qed.

Lemma write_all_nth {A} is v (l : list A) j :
  nthN (write_all is v l) j = if existsb (N.eqb j) is then option_map (fun _ => v) (nthN l j) else nthN l j.
Proof.
  unfold write_all. revert l. induction is as [|i is IH]; intros l; [reflexivity|]. cbn [fold_left existsb].
  rewrite IH, nthN_set_nth. destruct (N.eqb_spec j i); cbn [orb]; [|reflexivity].
  destruct (nthN l j); cbn [option_map]; destruct (existsb _ is); reflexivity.
Qed.

Lemma write_all_len {A} is v (l : list A) : lenN (write_all is v l) = lenN l.
Proof.
  unfold write_all. revert l. induction is as [|i is IH]; intros l; [reflexivity|]. cbn [fold_left]. rewrite IH.
  unfold lenN. rewrite set_nth_length. reflexivity.
Qed.

Lemma set_row_Ok {A} (l : list A) i v : i < lenN l -> set_row l i v = Ok (set_nth (N.to_nat i) v l).
Proof. intros L. unfold set_row, index. destruct (nthN_lt l i L) as [a ->]. reflexivity. Qed.

Lemma copy_rows {F} first is : forall (out : list (list F)) found v,
  nthN out first = Some v -> ~ In first is -> Forall (fun i => i < lenN out) is -> lenN found = lenN out ->
  rfold (copy_row first) is (out, found) = Ok (write_all is v out, write_all is true found).
Proof.
  induction is as [|i is IH]; intros out found v Hv NI B L; [reflexivity|].
  inv B. cbn [rfold copy_row].
  assert (first =? i = false) as NE by (apply N.eqb_neq; intros ->; apply NI; left; reflexivity).
  rewrite NE. cbn [negb rassert rbind]. unfold index at 1. rewrite Hv. cbn [rbind].
  rewrite set_row_Ok by auto. cbn [rbind]. rewrite set_row_Ok by lia. cbn [rbind].
  rewrite (IH _ _ v).
  - reflexivity.
  - rewrite nthN_set_nth, NE. auto.
  - intros C. apply NI. right. auto.
  - eapply Forall_impl; [|exact H2]. cbn beta. unfold lenN. rewrite set_nth_length. auto.
  - unfold lenN in *. rewrite !set_nth_length. auto.
Qed.

Lemma zip_with_nthN {A B C} (f : A -> B -> C) a b i :
  nthN (zip_with f a b) i = match nthN a i, nthN b i with Some x, Some y => Some (f x y) | _, _ => None end.
Proof.
  rewrite !nthN_spec. generalize (N.to_nat i) as n. revert b. induction a as [|x a IH]; intros [|y b] [|n]; cbn [zip_with nth_error]; auto.
  destruct (nth_error a n); reflexivity.
Qed.

Lemma NoDup_app_l {A} (l1 l2 : list A) : NoDup (l1 ++ l2) -> NoDup l1.
Proof. induction l1; cbn [app]; intros H; [constructor|]. inv H. constructor; [|auto]. intros C. apply H2. apply in_or_app. auto. Qed.

Section Batch.
  Context {Md S F : Type} (o : fops F) (SO : storage_ops F S) (pf : profile).
  Notation emb := (embeddings Md vocab_wrap S F).
  Variables (e : embeddings Md vocab_wrap S F) (cols : N) (rows : list (list F)).
  Hypothesis made : emb_made SO pf e cols rows.
  Variables (words : list str) (out0 : list (list F)).
  Hypothesis agrees : forall w target, In w words -> lenN target = cols ->
    emb_embedding_into o wrap_ops SO pf e w target
    = let* r := emb_embedding o wrap_ops SO pf e w in
      Ok (match r with Some v => (v, true) | None => (target, false) end).
  Hypothesis len0 : lenN out0 = lenN words.
  Hypothesis wf0 : Forall (fun r => lenN r = cols) out0.
  Variable looked : str -> option (list F).
  Definition looks (w : str) : Prop := emb_embedding o wrap_ops SO pf e w = Ok (looked w).

  Definition resolve (w : str) (row : list F) : list F := match looked w with Some v => v | None => row end.
  Definition inv (P : list str) (st : list (list F) * list bool) : Prop :=
    st = (zip_with (fun w row => if str_mem w P then resolve w row else row) words out0,
          map (fun w => str_mem w P && is_some (looked w)) words).

  Lemma batch_step_inv P st w : inv P st -> ~ In w P -> In w words -> looks w ->
    exists st', batch_step o wrap_ops SO pf e st (w, positions w words) = Ok st' /\ inv (w :: P) st'.
  Proof.
    intros -> NI HI LK. unfold looks in LK.
    set (out := zip_with _ words out0). set (found := map _ words).
    assert (lenN out = lenN words) as LO by (subst out; unfold lenN in *; rewrite zip_with_length; lia).
    assert (lenN found = lenN words) as LF by (subst found; apply lenN_map).
    assert (str_mem w P = false) as NM.
    { destruct (str_mem w P) eqn:E; [|reflexivity]. apply str_mem_In in E. tauto. }
    pose proof (positions_NoDup w words) as ND.
    assert (forall i, In i (positions w words) <-> nthN words i = Some w) as PI by (intros; apply positions_In).
    destruct (positions w words) as [|first rest] eqn:EP.
    { exfalso. apply In_nthN in HI as [i HI]. apply PI in HI. destruct HI. }
    inv ND. assert (nthN words first = Some w) as WF by (apply PI; left; reflexivity).
    assert (first < lenN words) as LFI by (eapply nthN_Some_lt; eauto).
    destruct (nthN_lt out0 first) as [row0 R0]; [lia|].
    assert (nthN out first = Some row0) as RF.
    { subst out. rewrite zip_with_nthN, WF, R0. rewrite NM. reflexivity. }
    cbn [batch_step]. unfold index at 1. change (nthN (first :: rest) 0) with (Some first). cbn [rbind].
    unfold index at 1. rewrite RF. cbn [rbind].
    assert (lenN row0 = cols) as LR by (rewrite Forall_forall in wf0; apply wf0; eapply nthN_In; eauto).
    rewrite (agrees w row0 HI LR), LK. cbn [rbind].
    destruct (looked w) as [v|] eqn:EL.
    - rewrite set_row_Ok by lia. cbn [rbind]. rewrite set_row_Ok by lia. cbn [rbind tl].
      rewrite (copy_rows first rest _ _ v).
      + eexists. split; [reflexivity|]. unfold inv.
        change (write_all rest v (set_nth (N.to_nat first) v out)) with (write_all (first :: rest) v out).
        change (write_all rest true (set_nth (N.to_nat first) true found)) with (write_all (first :: rest) true found).
        f_equal; apply nthN_ext; intros j; rewrite write_all_nth.
        * subst out. rewrite !zip_with_nthN.
          destruct (existsb (N.eqb j) (first :: rest)) eqn:X.
          -- apply existsb_exists in X as (k & X1 & X2). apply N.eqb_eq in X2. subst k. apply PI in X1. rewrite X1.
             destruct (nthN out0 j); [|reflexivity]. cbn [option_map]. unfold str_mem at 1. cbn [existsb].
             rewrite str_eqb_refl. cbn [orb]. unfold resolve. rewrite EL. reflexivity.
          -- destruct (nthN words j) as [x|] eqn:WJ; [|reflexivity]. destruct (nthN out0 j); [|reflexivity].
             unfold str_mem at 2. cbn [existsb]. replace (str_eqb x w) with false; [reflexivity|].
             symmetry. apply str_eqb_neq. intros ->. apply PI in WJ.
             assert (existsb (N.eqb j) (first :: rest) = true); [|congruence].
             apply existsb_exists. exists j. split; [auto|apply N.eqb_refl].
        * subst found. rewrite !nthN_map.
          destruct (existsb (N.eqb j) (first :: rest)) eqn:X.
          -- apply existsb_exists in X as (k & X1 & X2). apply N.eqb_eq in X2. subst k. apply PI in X1. rewrite X1.
             cbn [option_map]. unfold str_mem. cbn [existsb]. rewrite str_eqb_refl, EL. reflexivity.
          -- destruct (nthN words j) as [x|] eqn:WJ; [|reflexivity]. cbn [option_map].
             unfold str_mem at 2. cbn [existsb]. replace (str_eqb x w) with false; [reflexivity|].
             symmetry. apply str_eqb_neq. intros ->. apply PI in WJ.
             assert (existsb (N.eqb j) (first :: rest) = true); [|congruence].
             apply existsb_exists. exists j. split; [auto|apply N.eqb_refl].
      + rewrite nthN_set_nth, N.eqb_refl, RF. reflexivity.
      + auto.
      + apply Forall_forall. intros i Hi. unfold lenN. rewrite set_nth_length. fold (lenN out). rewrite LO.
        eapply nthN_Some_lt. apply PI. right. exact Hi.
      + unfold lenN. rewrite !set_nth_length. unfold lenN in LO, LF. lia.
    - rewrite set_row_Ok by lia. cbn [rbind]. eexists. split; [reflexivity|]. unfold inv. f_equal.
      + apply nthN_ext. intros j. rewrite nthN_set_nth. subst out. rewrite !zip_with_nthN.
        destruct (N.eqb_spec j first) as [->|NE].
        * rewrite WF, R0. cbn [option_map]. unfold str_mem. cbn [existsb]. rewrite str_eqb_refl. cbn [orb].
          unfold resolve. rewrite EL. reflexivity.
        * destruct (nthN words j) as [x|] eqn:WJ; [|reflexivity]. destruct (nthN out0 j); [|reflexivity].
          unfold str_mem at 2. cbn [existsb]. destruct (str_eqb x w) eqn:EX; [|reflexivity].
          apply str_eqb_eq in EX. subst x. fold (str_mem w P). rewrite NM. cbn [orb]. unfold resolve. rewrite EL. reflexivity.
      + subst found. apply map_ext. intros x. unfold str_mem at 2. cbn [existsb].
        destruct (str_eqb x w) eqn:EX; [|reflexivity]. apply str_eqb_eq in EX. subst x. rewrite EL, !andb_false_r. reflexivity.
  Qed.

  Lemma batch_fold ps : NoDup (map fst ps) -> (forall w is, In (w, is) ps -> In w words /\ is = positions w words /\ looks w) ->
    forall P st, inv P st -> (forall w, In w (map fst ps) -> ~ In w P) ->
    exists st', rfold (batch_step o wrap_ops SO pf e) ps st = Ok st' /\ inv (rev (map fst ps) ++ P) st'.
  Proof.
    induction ps as [|[w is] ps IH]; intros ND HP P st I D; [exists st; split; [reflexivity|exact I]|].
    cbn [map fst] in *. inv ND. destruct (HP w is) as (HI & -> & LK); [left; reflexivity|].
    destruct (batch_step_inv P st w I) as (st1 & E1 & I1); [apply D; left; reflexivity|auto|auto|].
    cbn [rfold]. rewrite E1. cbn [rbind].
    destruct (IH H2 (fun w' is' H => HP w' is' (or_intror H)) (w :: P) st1 I1) as (st2 & E2 & I2).
    - intros w' Hw' [<-|C]; [auto|]. apply (D w'); [right; auto|auto].
    - exists st2. split; [auto|]. cbn [rev]. rewrite <- app_assoc. exact I2.
  Qed.

  (** A lookup that panics. *)
  Lemma batch_step_panic P st w q : inv P st -> ~ In w P -> In w words ->
    emb_embedding o wrap_ops SO pf e w = Panic q ->
    batch_step o wrap_ops SO pf e st (w, positions w words) = Panic q.
  Proof.
    intros -> NI HI LK.
    assert (str_mem w P = false) as NM.
    { destruct (str_mem w P) eqn:E; [|reflexivity]. apply str_mem_In in E. tauto. }
    assert (forall i, In i (positions w words) <-> nthN words i = Some w) as PI by (intros; apply positions_In).
    destruct (positions w words) as [|first rest] eqn:EP.
    { exfalso. apply In_nthN in HI as [i HI]. apply PI in HI. destruct HI. }
    assert (nthN words first = Some w) as WF by (apply PI; left; reflexivity).
    destruct (nthN_lt out0 first) as [row0 R0]; [apply nthN_Some_lt in WF; lia|].
    cbn [batch_step]. unfold index at 1. change (nthN (first :: rest) 0) with (Some first). cbn [rbind].
    unfold index at 1. rewrite zip_with_nthN, WF, R0, NM. cbn [rbind].
    rewrite (agrees w row0 HI), LK; [reflexivity|]. rewrite Forall_forall in wf0. apply wf0. eapply nthN_In; eauto.
  Qed.

  Lemma batch_fold_panic ps1 w is ps2 q : NoDup (map fst (ps1 ++ (w, is) :: ps2)) ->
    (forall w' is', In (w', is') (ps1 ++ (w, is) :: ps2) -> In w' words /\ is' = positions w' words) ->
    (forall w is, In (w, is) ps1 -> looks w) -> emb_embedding o wrap_ops SO pf e w = Panic q ->
    forall st, inv [] st -> rfold (batch_step o wrap_ops SO pf e) (ps1 ++ (w, is) :: ps2) st = Panic q.
  Proof.
    intros ND HP LK EP st IS. rewrite map_app in ND. cbn [map fst] in ND.
    destruct (batch_fold ps1) with (P := @nil str) (st := st) as (st' & E & I').
    - eapply NoDup_app_l; eauto.
    - intros w' is' H. destruct (HP w' is') as [A B]; [apply in_or_app; auto|]. eauto.
    - auto.
    - intros ? _ [].
    - rewrite app_nil_r in I'.
      rewrite rfold_app, E. cbn [rbind rfold].
      destruct (HP w is) as [HI ->]; [apply in_or_app; right; left; reflexivity|].
      rewrite (batch_step_panic _ _ w q I'); [reflexivity| |auto|auto].
      rewrite <- in_rev. intros C. apply NoDup_remove_2 in ND. apply ND. apply in_or_app. auto.
  Qed.

  Lemma inv_start : inv [] (out0, repeat false (length words)).
  Proof.
    unfold inv. f_equal; apply nthN_ext; intros j.
    - rewrite zip_with_nthN. destruct (nthN words j) as [w|] eqn:W, (nthN out0 j) eqn:R; try reflexivity.
      apply nthN_None in W. apply nthN_Some_lt in R. lia.
    - rewrite nthN_map. destruct (nthN words j) as [w|] eqn:W.
      + cbn. rewrite nthN_spec. apply nth_error_repeat. apply nthN_Some_lt in W. unfold lenN in W. lia.
      + apply nthN_None. rewrite lenN_repeat. apply nthN_None in W. exact W.
  Qed.

  Lemma batch_into_exact order : any_order order -> (forall w, In w words -> looks w) ->
    emb_batch_into o wrap_ops SO pf order e words (mkA2 cols out0)
    = Ok (zip_with resolve words out0, map (fun w => is_some (looked w)) words).
  Proof.
    intros O LK. unfold emb_batch_into, a2_nrows. cbn [a2_rows a2_cols].
    rewrite len0, N.eqb_refl, (emb_dims_cols SO pf e cols rows made), N.eqb_refl. cbn [rassert rbind].
    set (ps := order (word_indices words)). pose proof (O (word_indices words)) as P. fold ps in P.
    destruct (batch_fold ps) with (P := @nil str) (st := (out0, repeat false (length words))) as (st & E & I).
    - eapply Permutation_NoDup; [apply Permutation_map; exact P|apply word_indices_NoDup].
    - intros w is H. assert (In w words /\ is = positions w words) as [A B]; [|auto].
      apply word_indices_In. eapply Permutation_in; [apply Permutation_sym; exact P|exact H].
    - apply inv_start.
    - intros w _ [].
    - rewrite E. f_equal. rewrite I, app_nil_r.
      assert (forall w, In w words -> str_mem w (rev (map fst ps)) = true) as ALL.
      { intros w HI. apply str_mem_In. rewrite <- in_rev.
        assert (In (w, positions w words) ps) as IP.
        { eapply Permutation_in; [exact P|]. apply word_indices_In. auto. }
        apply (in_map fst) in IP. exact IP. }
      f_equal.
      + apply nthN_ext. intros j. rewrite !zip_with_nthN. destruct (nthN words j) as [w|] eqn:W; [|reflexivity].
        rewrite ALL by (eapply nthN_In; eauto). reflexivity.
      + apply map_ext_in. intros w HI. rewrite ALL by auto. reflexivity.
  Qed.
End Batch.

Section BatchThms.
  Context {Md S F : Type} (o : fops F) (SO : storage_ops F S) (pf : profile).
  Notation emb := (embeddings Md vocab_wrap S F).

  (** Every lookup in a batch has a result. *)
  Lemma looked_exists (e : embeddings Md vocab_wrap S F) cols rows words : emb_made SO pf e cols rows -> vocab_usable (em_vocab e) ->
    Forall (fun w => utf8_valid w = true) words ->
    exists looked, forall w, In w words -> emb_embedding o wrap_ops SO pf e w = Ok (looked w).
  Proof.
    intros M U V.
    exists (fun w => match emb_embedding o wrap_ops SO pf e w with Ok r => r | _ => None end). intros w HI.
    rewrite Forall_forall in V. specialize (V w HI).
    destruct (lookup_cases o SO pf e cols rows M U w V) as [(i & r & _ & _ & _ & _ & ->)|[(is & rs & v & n & _ & _ & _ & _ & _ & -> & _)|(_ & -> & _)]]; reflexivity.
  Qed.

  Lemma usable_agrees (e : embeddings Md vocab_wrap S F) cols rows words : emb_made SO pf e cols rows ->
    vocab_usable (em_vocab e) -> Forall (fun w => utf8_valid w = true) words ->
    forall w target, In w words -> lenN target = cols ->
    emb_embedding_into o wrap_ops SO pf e w target
    = let* r := emb_embedding o wrap_ops SO pf e w in
      Ok (match r with Some v => (v, true) | None => (target, false) end).
  Proof.
    intros M U V w target HI L. rewrite Forall_forall in V.
    apply (into_agrees o SO pf e cols rows M U w target L). auto.
  Qed.

  Lemma batch_into_lookups order (e : embeddings Md vocab_wrap S F) cols rows words out0 : any_order order ->
    emb_made SO pf e cols rows -> vocab_usable (em_vocab e) -> Forall (fun w => utf8_valid w = true) words ->
    lenN out0 = lenN words -> Forall (fun r => lenN r = cols) out0 ->
    exists out found, emb_batch_into o wrap_ops SO pf order e words (mkA2 cols out0) = Ok (out, found) /\
    lenN out = lenN words /\ lenN found = lenN words /\
    forall i w, nthN words i = Some w ->
      (exists v, emb_embedding o wrap_ops SO pf e w = Ok (Some v) /\ nthN out i = Some v /\ nthN found i = Some true) \/
      (emb_embedding o wrap_ops SO pf e w = Ok None /\ nthN out i = nthN out0 i /\ nthN found i = Some false).
  Proof.
    intros O M U V L W. destruct (looked_exists e cols rows words M U V) as [looked LK].
    do 2 eexists. split; [apply (batch_into_exact o SO pf e cols rows M words out0 (usable_agrees e cols rows words M U V) L W looked order O LK)|].
    split; [unfold lenN in *; rewrite zip_with_length; lia|]. split; [apply lenN_map|].
    intros i w H. rewrite (LK w) by (eapply nthN_In; eauto).
    rewrite zip_with_nthN, nthN_map, H. cbn [option_map]. destruct (nthN_lt out0 i) as [row R].
    { apply nthN_Some_lt in H. lia. }
    rewrite R. unfold resolve. destruct (looked w) as [v|]; [left; exists v|right]; auto.
  Qed.

  Lemma batch_lookups order (e : embeddings Md vocab_wrap S F) cols rows words : any_order order ->
    emb_made SO pf e cols rows -> vocab_usable (em_vocab e) -> Forall (fun w => utf8_valid w = true) words ->
    lenN words <= isize_max -> cols <= isize_max -> 4 * lenN words * cols <= isize_max ->
    exists out found, emb_batch o wrap_ops SO pf order e words = Ok (out, found) /\
    lenN out = lenN words /\ lenN found = lenN words /\
    forall i w, nthN words i = Some w ->
      (exists v, emb_embedding o wrap_ops SO pf e w = Ok (Some v) /\ nthN out i = Some v /\ nthN found i = Some true) \/
      (emb_embedding o wrap_ops SO pf e w = Ok None /\ nthN out i = Some (repeat (fzero o) (N.to_nat cols)) /\ nthN found i = Some false).
  Proof.
    intros O M U V Z1 Z2 Z3. unfold emb_batch. rewrite (emb_dims_cols SO pf e cols rows M).
    rewrite (proj2 (zeros_fit_spec _ _)) by auto. cbn [rassert rbind].
    destruct (batch_into_lookups order e cols rows words (map (fun _ => vzeros o cols) words) O M U V) as (out & found & E & L1 & L2 & H).
    - apply lenN_map.
    - apply Forall_forall. intros r Hr. apply in_map_iff in Hr as (w & <- & _). unfold vzeros. rewrite lenN_repeat. lia.
    - exists out, found. split; [auto|]. split; [auto|]. split; [auto|]. intros i w Hw.
      destruct (H i w Hw) as [H1|(H1 & H2 & H3)]; [left; auto|right]. split; [auto|]. split; [|auto].
      rewrite H2, nthN_map, Hw. reflexivity.
  Qed.

  (** Two iteration orders. *)
  Lemma batch_order order order' (e : embeddings Md vocab_wrap S F) cols rows words out0 : any_order order -> any_order order' ->
    emb_made SO pf e cols rows -> vocab_usable (em_vocab e) -> Forall (fun w => utf8_valid w = true) words ->
    lenN out0 = lenN words -> Forall (fun r => lenN r = cols) out0 ->
    emb_batch_into o wrap_ops SO pf order e words (mkA2 cols out0)
    = emb_batch_into o wrap_ops SO pf order' e words (mkA2 cols out0).
  Proof.
    intros O O' M U V L W. destruct (looked_exists e cols rows words M U V) as [looked LK].
    rewrite !(batch_into_exact o SO pf e cols rows M words out0 (usable_agrees e cols rows words M U V) L W looked) by auto. reflexivity.
  Qed.

  Lemma batch_wrong order (e : embeddings Md vocab_wrap S F) cols rows words output : emb_made SO pf e cols rows ->
    (a2_nrows output <> lenN words \/ a2_cols output <> cols) ->
    emb_batch_into o wrap_ops SO pf order e words output = Panic PAssert.
  Proof.
    intros M H. unfold emb_batch_into. rewrite (emb_dims_cols SO pf e cols rows M).
    destruct (N.eqb_spec (a2_nrows output) (lenN words)); [|reflexivity]. cbn [rassert rbind].
    destruct (N.eqb_spec (a2_cols output) cols); [|reflexivity]. tauto.
  Qed.

  (** ** Norms and iterators *)

  Lemma with_norm_known (e : embeddings Md vocab_wrap S F) cols rows w i : emb_made SO pf e cols rows ->
    (forall ns, em_norms e = Some ns -> lenN ns = v_words_len wrap_ops (em_vocab e)) ->
    nthN (v_words wrap_ops (em_vocab e)) i = Some w ->
    exists r n, nthN rows i = Some r /\ norm_of o e i n /\
    emb_embedding o wrap_ops SO pf e w = Ok (Some r) /\
    emb_with_norm o wrap_ops SO pf e w = Ok (Some (r, n)).
  Proof.
    intros M LN H. destruct (known_word o SO pf e cols rows M w i H) as (r & R & E).
    destruct M as (MV & MS & _). destruct (words_bijection pf (em_vocab e) w i MV) as (B & L & _).
    apply nthN_Some_lt in H as Hi. apply B in H.
    assert (exists n, norm_of o e i n /\ norm_at o e i = Ok n) as (n & N1 & N2).
    { unfold norm_of, norm_at, index. destruct (em_norms e) as [ns|]; [|eauto].
      destruct (nthN_lt ns i) as [n Hn]; [rewrite (LN ns) by reflexivity; lia|]. exists n. rewrite Hn. auto. }
    exists r, n. split; [auto|]. split; [auto|]. split; [auto|].
    unfold emb_with_norm. rewrite H. cbn [rbind]. rewrite (sm_row _ _ _ _ MS i r R). cbn [rbind]. rewrite N2. reflexivity.
  Qed.

  Lemma iter_exact (e : embeddings Md vocab_wrap S F) cols rows : emb_made SO pf e cols rows ->
    exists l, emb_iter wrap_ops SO e = Ok l /\ map fst l = v_words wrap_ops (em_vocab e) /\
    forall i w v, nthN l i = Some (w, v) ->
      nthN rows i = Some v /\ emb_embedding o wrap_ops SO pf e w = Ok (Some v).
  Proof.
    intros M. set (ws := v_words wrap_ops (em_vocab e)).
    exists (map (fun p => (snd p, nth (N.to_nat (fst p)) rows [])) (enumerate ws)).
    assert (forall i w, In (i, w) (enumerate ws) ->
      nthN rows i = Some (nth (N.to_nat i) rows []) /\ nthN ws i = Some w) as IN.
    { intros i w H. apply enumerate_In in H. split; [|auto]. destruct (known_word o SO pf e cols rows M w i H) as (r & R & _).
      rewrite nthN_spec in *. rewrite R. f_equal. symmetry. apply nth_error_nth. auto. }
    split; [|split].
    - unfold emb_iter. fold ws. apply rmap_pure. intros [i w] H. apply IN in H as [H _].
      destruct M as (_ & MS & _). rewrite (sm_row _ _ _ _ MS i _ H). reflexivity.
    - rewrite map_map. cbn [fst]. apply enumerate_snd.
    - intros i w v H. rewrite nthN_map in H. destruct (nthN (enumerate ws) i) as [[j x]|] eqn:E; [|discriminate]. inv H.
      cbn [snd fst] in *. assert (j = i /\ nthN ws i = Some w) as [-> W].
      { apply nthN_In in E as E'. apply enumerate_In in E'. 
        assert (map fst (enumerate ws) = rangeN (lenN ws)) as RG.
        { clear. unfold enumerate. assert (forall n (l : list str), map fst (enumerate_from n l) = map (fun k => n + N.of_nat k) (seq 0 (length l))) as G.
          { intros n l. revert n. induction l as [|a l IH]; intros n; [reflexivity|]. cbn [enumerate_from map fst length seq].
            f_equal; [lia|]. rewrite IH, <- seq_shift, map_map. apply map_ext. intros; lia. }
          rewrite G. unfold rangeN, lenN. rewrite Nat2N.id. apply map_ext. intros; lia. }
        assert (nthN (map fst (enumerate ws)) i = Some j) as NJ by (rewrite nthN_map, E; reflexivity).
        rewrite RG in NJ. apply nthN_Some_lt in NJ as LJ. rewrite rangeN_lenN in LJ. rewrite rangeN_nth in NJ by auto. inv NJ.
        auto. }
      destruct (known_word o SO pf e cols rows M w i W) as (r & R & EE).
      assert (nth (N.to_nat i) rows [] = r) as ->.
      { rewrite nthN_spec in R. apply nth_error_nth. auto. }
      auto.
  Qed.

  Lemma iter_with_norms_exact (e : embeddings Md vocab_wrap S F) cols rows : emb_made SO pf e cols rows ->
    (forall ns, em_norms e = Some ns -> lenN ns = v_words_len wrap_ops (em_vocab e)) ->
    exists l, emb_iter_with_norms o wrap_ops SO e = Ok l /\ map fst l = v_words wrap_ops (em_vocab e) /\
    forall i w v n, nthN l i = Some (w, (v, n)) ->
      nthN rows i = Some v /\ norm_of o e i n /\ emb_with_norm o wrap_ops SO pf e w = Ok (Some (v, n)).
  Proof.
    intros M LN. destruct (iter_exact e cols rows M) as (l & E & Wd & H).
    unfold emb_iter in E. apply rmap_Ok_inv in E.
    assert (forall (is : list (N * str)) l, (forall i w, In (i, w) is -> nthN (v_words wrap_ops (em_vocab e)) i = Some w) ->
      Forall2 (fun a b => (let '(i, w) := a in let* v := st_embedding SO (em_storage e) i in Ok (w, v)) = Ok b) is l ->
      exists l', rmap (fun '(i, w) => let* v := st_embedding SO (em_storage e) i in let* n := norm_at o e i in Ok (w, (v, n))) is = Ok l' /\
      map (fun p => (fst p, fst (snd p))) l' = l /\
      Forall2 (fun a b => norm_at o e (fst a) = Ok (snd (snd b))) is l') as G.
    { intros is l0 W F2. revert W. induction F2 as [|[i w] b is l0 Hb F2 IH]; intros W; [exists []; repeat split; constructor|].
      destruct IH as (l' & E1 & E2 & E3); [intros; apply W; right; auto|].
      apply rbind_Ok_inv in Hb as (v & Ev & Hb). inv Hb.
      destruct (with_norm_known e cols rows w i M LN) as (r & n & _ & _ & _ & EN); [apply W; left; reflexivity|].
      destruct M as (MV & _). destruct (words_bijection pf (em_vocab e) w i MV) as (B & _). unfold emb_with_norm in EN.
      rewrite (proj2 B) in EN by (apply W; left; reflexivity). cbn [rbind] in EN. rewrite Ev in EN. cbn [rbind] in EN.
      apply rbind_Ok_inv in EN as (n' & EN & _).
      exists ((w, (v, n')) :: l'). cbn [rmap]. rewrite Ev. cbn [rbind]. rewrite EN. cbn [rbind]. rewrite E1. cbn [rbind].
      split; [reflexivity|]. cbn [map fst snd]. split; [f_equal; auto|]. constructor; auto. }
    destruct (G _ l (fun i w H => proj1 (enumerate_In _ i w) H) E) as (l' & E1 & E2 & E3).
    exists l'. split; [exact E1|]. split; [rewrite <- Wd, <- E2, map_map; reflexivity|].
    intros i w v n Hn. assert (nthN l i = Some (w, v)) as Hl by (rewrite <- E2, nthN_map, Hn; reflexivity).
    destruct (H i w v Hl) as [R EV].
    assert (nthN (v_words wrap_ops (em_vocab e)) i = Some w) as HW.
    { rewrite <- Wd, nthN_map, Hl. reflexivity. }
    destruct (with_norm_known e cols rows w i M LN HW) as (r & n' & R' & N1 & _ & EN).
    assert (r = v) by congruence. subst r.
    assert (n' = n) as ->; [|auto].
    unfold emb_with_norm in EN. destruct M as (MV & MS & _). destruct (words_bijection pf (em_vocab e) w i MV) as (B & _).
    rewrite (proj2 B HW) in EN. cbn [rbind] in EN. rewrite (sm_row _ _ _ _ MS i v R) in EN. cbn [rbind] in EN.
    apply rbind_Ok_inv in EN as (n2 & EN & EN2). inv EN2.
    assert (exists a, nthN (enumerate (v_words wrap_ops (em_vocab e))) i = Some a /\ norm_at o e (fst a) = Ok n) as (a & A1 & A2).
    { clear -E3 Hn. revert i Hn. induction E3 as [|a b is l' Hb F2 IH]; intros i Hn; rewrite nthN_spec in Hn.
      - destruct (N.to_nat i); discriminate.
      - destruct (N.to_nat i) as [|k] eqn:K.
        + cbn in Hn. inv Hn. exists a. rewrite nthN_spec, K. auto.
        + cbn [nth_error] in Hn. destruct (IH (N.of_nat k)) as (a' & A1 & A2); [rewrite nthN_spec, Nat2N.id; auto|].
          exists a'. rewrite nthN_spec, K. rewrite nthN_spec, Nat2N.id in A1. auto. }
    destruct a as [j x]. cbn [fst] in A2. apply nthN_In in A1 as A1'. apply enumerate_In in A1'.
    assert (x = w).
    { assert (nthN (map snd (enumerate (v_words wrap_ops (em_vocab e)))) i = Some x) as Q by (rewrite nthN_map, A1; reflexivity).
      rewrite enumerate_snd, HW in Q. congruence. }
    subst x. destruct (words_bijection pf (em_vocab e) w i MV) as (_ & _ & ND).
    assert (j = i) as -> by (eapply NoDup_nthN; eauto). congruence.
  Qed.
End BatchThms.
