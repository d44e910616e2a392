(** * Similarity queries (C35-C39). *)
From Coq Require Import Sorting.Permutation Sorting.Sorted.
From Verif Require Import Base BaseFacts Utf8 F32 F32Facts Subword Vocab VocabFacts Storage Embeddings Similarity FileSpec VocabSpec EmbSpec SimSpec LookupFacts EmbFacts BatchFacts.
Local Open Scope N_scope.

Lemma NoDup_app_l {A} (a b : list A) : NoDup (a ++ b) -> NoDup a.
Proof.
  induction a as [|x a IH]; intros H; [constructor|]. inv H. constructor; [|auto].
  intros Hx. match goal with H : ~ In x _ |- _ => apply H end. apply in_app_iff. auto.
Qed.

(** ** Order *)
Section Order.
  Context {F : Type} (o : fops F) (OR : ordered o).
  Notation lt := (better o).
  Definition num (x : wsr F) : Prop := number o (wr_sim x).

  Lemma wsr_lt_better a b : num a -> num b -> (wsr_lt o a b = true <-> lt a b).
  Proof.
    intros Na Nb. unfold wsr_lt, wsr_cmp, sim_cmp, better.
    destruct (or_total _ OR _ _ Na Nb) as (c & E1 & E2). rewrite E1, E2.
    destruct c; cbn [CompOpp]; destruct (str_compare (wr_word a) (wr_word b)); split; intros H; try discriminate; auto;
      destruct H as [H|[H1 H2]]; try discriminate; auto.
  Qed.
  Lemma better_total a b : num a -> num b -> wr_word a <> wr_word b -> lt a b \/ lt b a.
  Proof.
    intros Na Nb ND. unfold better. destruct (or_total _ OR _ _ Na Nb) as (c & E1 & E2). rewrite E1, E2.
    destruct c; cbn [CompOpp]; auto. rewrite (str_compare_antisym (wr_word a) (wr_word b)).
    destruct (str_compare (wr_word a) (wr_word b)) eqn:E; cbn [CompOpp]; auto.
    apply str_compare_eq in E. contradiction.
  Qed.
  Lemma better_asym a b : num a -> num b -> lt a b -> ~ lt b a.
  Proof.
    intros Na Nb. unfold better. destruct (or_total _ OR _ _ Na Nb) as (c & E1 & E2). rewrite E1, E2.
    rewrite (str_compare_antisym (wr_word a) (wr_word b)).
    destruct c; cbn [CompOpp]; destruct (str_compare (wr_word a) (wr_word b)); cbn [CompOpp];
      intros [H|[H1 H2]] [H'|[H1' H2']]; discriminate.
  Qed.
  Lemma better_trans a b c : num a -> num b -> num c -> lt a b -> lt b c -> lt a c.
  Proof.
    intros Na Nb Nc. unfold better.
    destruct (or_total _ OR _ _ Na Nb) as (c1 & A1 & A2). destruct (or_total _ OR _ _ Nb Nc) as (c2 & B1 & B2).
    destruct (or_total _ OR _ _ Na Nc) as (c3 & C1 & C2). rewrite A1, B1, C1.
    intros [H|[H1 H2]] [K|[K1 K2]].
    - inv H. inv K. left. cbn [CompOpp] in A2, B2. rewrite (or_trans _ OR _ _ _ B2 A2) in C2.
      destruct c3; try discriminate. reflexivity.
    - inv H. inv K1. left. cbn [CompOpp] in A2, B2. rewrite (or_eq _ OR _ _ _ B2) in C2. rewrite A2 in C2.
      destruct c3; try discriminate. reflexivity.
    - inv H1. inv K. left. rewrite (or_eq _ OR _ _ _ A1) in C1. rewrite <- C1. exact B1.
    - inv H1. inv K1. right. rewrite (or_eq _ OR _ _ _ A1) in C1. rewrite B1 in C1. split; [auto|].
      eapply str_compare_trans; eassumption.
  Qed.

  (** ** The heap *)
  Lemma heap_insert_perm x h : Permutation (x :: h) (heap_insert o x h).
  Proof.
    induction h as [|y h IH]; cbn [heap_insert]; [reflexivity|].
    destruct (wsr_lt o x y); [reflexivity|]. rewrite perm_swap. constructor. exact IH.
  Qed.
  Lemma heap_insert_sorted x h : num x -> Forall num h -> ~ In (wr_word x) (map wr_word h) ->
    StronglySorted lt h -> StronglySorted lt (heap_insert o x h).
  Proof.
    intros Nx. induction h as [|y h IH]; intros Nh NI S; cbn [heap_insert]; [repeat constructor|].
    inv Nh. inv S. cbn [map In] in NI.
    assert (wr_word x <> wr_word y) as ND by (intros E; apply NI; left; congruence).
    assert (~ In (wr_word x) (map wr_word h)) as NI' by tauto.
    destruct (wsr_lt o x y) eqn:E.
    - apply wsr_lt_better in E; auto. constructor; [constructor; auto|]. constructor; [exact E|].
      match goal with H : Forall num h, H' : Forall (lt y) h |- _ => rename H into Nh; rename H' into Ly end.
      rewrite Forall_forall in *. intros z Hz. eapply better_trans; [| |auto|exact E|]; auto.
    - constructor; [auto|]. apply Forall_forall. intros z Hz.
      apply (Permutation_in z (Permutation_sym (heap_insert_perm x h))) in Hz. destruct Hz as [<-|Hz].
      + destruct (better_total x y) as [K|K]; auto. apply wsr_lt_better in K; auto. congruence.
      + match goal with H : Forall (lt y) h |- _ => rewrite Forall_forall in H; auto end.
  Qed.

  Lemma heap_max_last (h : list (wsr F)) m : heap_max h = Some m -> h = removelast h ++ [m].
  Proof.
    unfold heap_max. intros H. destruct h as [|a h] using rev_ind; [discriminate|].
    rewrite removelast_last. f_equal. rewrite lenN_app in H.
    replace (lenN h + lenN [a] - 1) with (lenN h) in H by (unfold lenN; cbn; lia).
    rewrite nthN_app2 in H by lia. rewrite N.sub_diag in H. change (nthN [a] 0) with (Some a) in H. congruence.
  Qed.
  Lemma heap_max_None (h : list (wsr F)) : heap_max h = None -> h = [].
  Proof.
    unfold heap_max. intros H. apply nthN_None in H. destruct h; [reflexivity|]. rewrite lenN_cons in H. lia.
  Qed.
  Lemma sorted_last h m : StronglySorted lt (h ++ [m]) -> StronglySorted lt h /\ Forall (fun x => lt x m) h.
  Proof.
    induction h as [|a h IH]; intros S; [split; constructor|]. inv S.
    match goal with H : StronglySorted lt (h ++ [m]) |- _ => apply IH in H as [S1 S2] end.
    match goal with H : Forall (lt a) (h ++ [m]) |- _ => apply Forall_app in H as [F1 F2] end. inv F2.
    split; constructor; auto.
  Qed.

  (** ** The loop *)
  Definition sim_add (limit : N) (h : list (wsr F)) (x : wsr F) : res (list (wsr F)) :=
    match fcmp o (wr_sim x) (wr_sim x) with
    | None => Panic PNaN
    | Some _ =>
        if lenN h <? limit then Ok (heap_insert o x h)
        else match heap_max h with
             | None => Panic PAssert
             | Some m => if wsr_lt o x m then Ok (heap_replace_max o x h) else Ok h
             end
    end.

  Definition best (limit : N) (done h : list (wsr F)) : Prop :=
    StronglySorted lt h /\ lenN h = N.min limit (lenN done) /\
    exists rest, Permutation done (h ++ rest) /\ forall a b, In a h -> In b rest -> lt a b.

  Lemma sim_add_best limit done h x : 1 <= limit -> Forall num (done ++ [x]) ->
    NoDup (map wr_word (done ++ [x])) -> best limit done h ->
    exists h', sim_add limit h x = Ok h' /\ best limit (done ++ [x]) h'.
  Proof.
    intros L NU ND (S & LH & rest & P & B). apply Forall_app in NU as [NU NX]. inv NX.
    match goal with H : num x |- _ => rename H into NX end.
    rewrite map_app in ND. cbn [map] in ND.
    assert (~ In (wr_word x) (map wr_word done)) as NI.
    { apply NoDup_remove_2 in ND. rewrite app_nil_r in ND. exact ND. }
    assert (Forall num (h ++ rest)) as NH by (eapply Permutation_Forall; eassumption).
    apply Forall_app in NH as [NH NR].
    assert (forall y, In y h \/ In y rest -> wr_word x <> wr_word y) as NI2.
    { intros y Hy E. apply NI. rewrite E. apply in_map. apply (Permutation_in y (Permutation_sym P)). apply in_app_iff. exact Hy. }
    assert (~ In (wr_word x) (map wr_word h)) as NIh.
    { intros Hi. apply in_map_iff in Hi as (y & E & Hy). apply (NI2 y); auto. }
    unfold sim_add. destruct (fcmp o (wr_sim x) (wr_sim x)) eqn:EN; [|exfalso; apply NX; exact EN].
    destruct (N.ltb_spec (lenN h) limit) as [Lt|Ge].
    - eexists. split; [reflexivity|].
      assert (rest = []) as ->.
      { apply Permutation_length in P. rewrite app_length in P. unfold lenN in *. destruct rest; [reflexivity|]. cbn [length] in P. lia. }
      rewrite app_nil_r in P. split; [apply heap_insert_sorted; auto|]. split.
      + pose proof (Permutation_length (heap_insert_perm x h)) as PL. cbn [length] in PL. unfold lenN in *. rewrite app_length. cbn [length]. lia.
      + exists []. split; [|intros a b _ []]. rewrite app_nil_r, <- heap_insert_perm. rewrite <- P.
        symmetry. apply Permutation_cons_append.
    - destruct (heap_max h) as [m|] eqn:EM.
      2:{ apply heap_max_None in EM. subst h. change (lenN (@nil (wsr F))) with 0 in Ge. lia. }
      apply heap_max_last in EM. set (h0 := removelast h) in *.
      assert (num m) as Nm by (rewrite EM in NH; apply Forall_app in NH as [_ NH]; apply Forall_inv in NH; exact NH).
      assert (Forall num h0) as N0 by (rewrite EM in NH; apply Forall_app in NH as [NH _]; auto).
      rewrite EM in S. destruct (sorted_last h0 m S) as [S0 S1]. rewrite Forall_forall in S1.
      assert (In m h) as Hm by (rewrite EM; apply in_app_iff; right; left; reflexivity).
      assert (forall y, In y h0 -> In y h) as H0 by (intros y Hy; rewrite EM; apply in_app_iff; auto).
      assert (lenN h = limit) as LL by lia.
      destruct (wsr_lt o x m) eqn:EX.
      + apply wsr_lt_better in EX; auto. eexists. split; [reflexivity|]. unfold heap_replace_max. fold h0.
        pose proof (heap_insert_perm x h0) as HP.
        split; [apply heap_insert_sorted; auto; intros Hi; apply NIh; apply in_map_iff in Hi as (y & E & Hy); rewrite <- E; apply in_map; auto|].
        split.
        * apply Permutation_length in HP. cbn [length] in HP. rewrite EM in LL. rewrite lenN_app in LL. unfold lenN in *. rewrite app_length in *. cbn [length] in *. lia.
        * exists (m :: rest). split.
          -- rewrite <- (Permutation_cons_append done x), <- HP, P. cbn [app]. constructor. rewrite EM at 1.
             rewrite <- app_assoc. reflexivity.
          -- intros a b Ha [<-|Hb].
             ++ apply (Permutation_in a (Permutation_sym HP)) in Ha as [<-|Ha]; [exact EX|]. apply S1. exact Ha.
             ++ apply (Permutation_in a (Permutation_sym HP)) in Ha as [<-|Ha]; [|apply B; auto].
                rewrite Forall_forall in NR. eapply better_trans; [exact NX|exact Nm|auto|exact EX|]. apply B; auto.
      + eexists. split; [reflexivity|]. rewrite <- EM in S. split; [exact S|]. split; [unfold lenN in *; rewrite ?app_length; cbn [length]; lia|].
        exists (x :: rest). split.
        * rewrite <- (Permutation_cons_append done x), P. rewrite <- Permutation_middle. reflexivity.
        * intros a b Ha [<-|Hb]; [|apply B; auto].
          assert (lt m x) as MX.
          { destruct (better_total m x) as [K|K]; auto; [intros E; apply (NI2 m); auto|]. apply wsr_lt_better in K; auto. congruence. }
          rewrite EM in Ha. apply in_app_iff in Ha as [Ha|[<-|[]]]; [|exact MX].
          rewrite Forall_forall in N0. apply (better_trans a m x); auto.
  Qed.

  Lemma sim_fold_best limit xs : forall done h, 1 <= limit -> Forall num (done ++ xs) ->
    NoDup (map wr_word (done ++ xs)) -> best limit done h ->
    exists h', rfold (sim_add limit) xs h = Ok h' /\ best limit (done ++ xs) h'.
  Proof.
    induction xs as [|x xs IH]; intros done h L NU ND B.
    - exists h. rewrite app_nil_r. auto.
    - replace (done ++ x :: xs) with ((done ++ [x]) ++ xs) in * by (rewrite <- app_assoc; reflexivity).
      destruct (sim_add_best limit done h x L) as (h1 & E1 & B1); auto.
      + apply Forall_app in NU. tauto.
      + rewrite map_app in ND. apply NoDup_app_l in ND. exact ND.
      + destruct (IH _ h1 L NU ND B1) as (h2 & E2 & B2). exists h2. cbn [rfold]. rewrite E1. cbn [rbind]. auto.
  Qed.

  (** The loop stops early exactly for NaN and for a limit of zero. *)
  Lemma sim_fold_Ok limit xs : forall h h', rfold (sim_add limit) xs h = Ok h' ->
    Forall num xs /\ (limit = 0 -> h = [] -> xs = []).
  Proof.
    induction xs as [|x xs IH]; intros h h' H; [split; [constructor|auto]|].
    cbn [rfold] in H. apply rbind_Ok_inv in H as (h1 & E & H). unfold sim_add in E.
    destruct (fcmp o (wr_sim x) (wr_sim x)) eqn:EN; [|discriminate]. apply IH in H as [H1 H2]. split.
    - constructor; [|auto]. unfold num, number. congruence.
    - intros -> ->. destruct (lenN (@nil (wsr F)) <? 0) eqn:E0; [discriminate|]. cbn in E. discriminate.
  Qed.
End Order.

(** ** Batches *)
Lemma enumerate_from_shift {A} (l : list A) : forall n k,
  map (fun '(i, s) => (n + i, s)) (enumerate_from k l) = enumerate_from (n + k) l.
Proof.
  induction l as [|a l IH]; intros n k; [reflexivity|]. cbn [enumerate_from map]. rewrite IH. f_equal. f_equal. lia.
Qed.

Section Queries.
  Context {F : Type} (o : fops F).
  Definition row_sim (q r : list F) : F := fmul o (vdot o r q) (fone o).

  Lemma sim_batches words skip limit b cols q : b <> 0 -> lenN q = cols -> forall n rows k h,
    (length rows <= n)%nat ->
    rfold (sim_batch o words skip limit b cols q) (enumerate_from k (chunks_of_fuel n (N.to_nat b) rows)) h
    = rfold (sim_step o words skip limit) (enumerate_from (k * b) (map (row_sim q) rows)) h.
  Proof.
    intros Hb Hq. induction n as [|n IH]; intros rows k h L.
    - destruct rows; [|cbn in L; lia]. reflexivity.
    - destruct rows as [|r rows]; [reflexivity|]. cbn [chunks_of_fuel]. cbn [enumerate_from rfold]. set (rs := r :: rows) in *. unfold sim_batch at 1. unfold mat_vec. rewrite Hq, N.eqb_refl. cbn [rbind].
      fold (row_sim q). unfold enumerate. rewrite enumerate_from_shift. replace (k * b + 0) with (k * b) by lia.
      replace (map (row_sim q) rs) with (map (row_sim q) (firstn (N.to_nat b) rs) ++ map (row_sim q) (skipn (N.to_nat b) rs))
        by (rewrite <- map_app, firstn_skipn; reflexivity).
      rewrite enumerate_from_app, rfold_app.
      match goal with |- rbind ?X _ = rbind ?Y _ => change X with Y; destruct Y as [h'| |]; cbn [rbind]; try reflexivity end.
      rewrite IH.
      + destruct (le_lt_dec (length rs) (N.to_nat b)) as [Le|Gt].
        * rewrite skipn_all2 by exact Le. reflexivity.
        * f_equal. f_equal. rewrite lenN_map. unfold lenN. rewrite firstn_length_le by lia. lia.
      + rewrite skipn_length. assert (N.to_nat b <> 0)%nat by lia. unfold rs in *. cbn [length] in *. lia.
  Qed.

  Lemma sim_batches_wrong words skip limit b cols q rows h : b <> 0 -> lenN q <> cols -> rows <> [] ->
    rfold (sim_batch o words skip limit b cols q) (enumerate (chunks_of (N.to_nat b) rows)) h = Panic PAssert.
  Proof.
    intros Hb Hq Hr. destruct rows as [|r rows]; [congruence|]. unfold chunks_of, enumerate. cbn [length chunks_of_fuel enumerate_from rfold].
    unfold sim_batch at 1, mat_vec. destruct (N.eqb_spec cols (lenN q)); [congruence|]. reflexivity.
  Qed.

  Definition cand_list (words : list str) (rows : list (list F)) (skip : list str) (q : list F) : list (wsr F) :=
    filter (fun x => negb (str_mem (wr_word x) skip)) (zip_with (fun w r => mkWsr (row_sim q r) w) words rows).

  Lemma sim_steps skip limit q : forall rows ws pre h, length ws = length rows ->
    rfold (sim_step o (pre ++ ws) skip limit) (enumerate_from (lenN pre) (map (row_sim q) rows)) h
    = rfold (sim_add o limit) (cand_list ws rows skip q) h.
  Proof.
    induction rows as [|r rows IH]; intros [|w ws] pre h L; try discriminate; [reflexivity|].
    cbn [map enumerate_from rfold]. unfold sim_step at 1. unfold index. rewrite nthN_app2 by lia. rewrite N.sub_diag.
    change (nthN (w :: ws) 0) with (Some w). cbn [rbind].
    specialize (IH ws (pre ++ [w])). rewrite <- app_assoc in IH. cbn [app] in IH. rewrite lenN_app in IH.
    change (lenN [w]) with 1 in IH.
    unfold cand_list. cbn [zip_with filter wr_word]. destruct (str_mem w skip); cbn [negb].
    - apply IH. cbn in L. lia.
    - cbn [rfold]. unfold sim_add at 1. cbn [wr_sim]. fold (row_sim q r).
      match goal with |- rbind ?X _ = rbind ?X _ => destruct X as [h'| |]; cbn [rbind]; try reflexivity end.
      apply IH. cbn in L. lia.
  Qed.

  Lemma cand_list_In words rows skip q x : In x (cand_list words rows skip q) <->
    exists i r, nthN words i = Some (wr_word x) /\ nthN rows i = Some r /\ ~ In (wr_word x) skip /\ wr_sim x = row_sim q r.
  Proof.
    unfold cand_list. rewrite filter_In. destruct (str_mem (wr_word x) skip) eqn:EM.
    - apply str_mem_In in EM. split; [intros [_ H]; discriminate|]. intros (i & r & _ & _ & H & _). contradiction.
    - assert (~ In (wr_word x) skip) as NI by (intros H; apply str_mem_In in H; congruence). split.
      + intros [H _]. apply In_nthN in H as [i H]. exists i. rewrite zip_with_nthN in H.
        destruct (nthN words i) as [w|]; [|discriminate]. destruct (nthN rows i) as [r|]; [|discriminate].
        inv H. exists r. auto.
      + intros (i & r & H1 & H2 & _ & H3). split; [|reflexivity]. apply (nthN_In _ i). rewrite zip_with_nthN, H1, H2.
        destruct x as [s w]. cbn in *. congruence.
  Qed.

  Lemma cand_list_words words : forall rows skip q, NoDup words -> NoDup (map wr_word (cand_list words rows skip q)).
  Proof.
    intros rows skip q. revert rows. induction words as [|w words IH]; intros [|r rows] ND; try constructor.
    inv ND. unfold cand_list in *. cbn [zip_with filter wr_word]. destruct (str_mem w skip); cbn [negb]; [auto|].
    cbn [map wr_word]. constructor; [|auto]. intros H. apply in_map_iff in H as (x & E & H). apply filter_In in H as [H _].
    apply In_nthN in H as [i H]. rewrite zip_with_nthN in H. destruct (nthN words i) as [w'|] eqn:E1; [|discriminate].
    destruct (nthN rows i); [|discriminate]. inv H. cbn [wr_word] in *. apply nthN_In in E1. contradiction.
  Qed.
End Queries.

Section Similar.
  Context {Md S F : Type} (o : fops F) (SO : storage_ops F S) (view : S -> res (array2 F)) (pf : profile).
  Variables (e : embeddings Md vocab_wrap S F) (a : array2 F).
  Hypothesis made : emb_made SO pf e (a2_cols a) (a2_rows a).
  Hypothesis viewed : view (em_storage e) = Ok a.
  Notation words := (v_words wrap_ops (em_vocab e)).

  (** A query in one formula. *)
  Lemma similarity_eq q skip limit batch :
    similarity_ o wrap_ops view e q skip limit batch =
    (if isize_max <? limit * 24 then Panic PCapacity
     else if (match batch with Some b => b | None => lenN words end) =? 0 then Panic PAssert
     else if lenN words =? 0 then Ok []
     else if lenN q =? a2_cols a then rfold (sim_add o limit) (cand_list o words (a2_rows a) skip q) []
     else Panic PAssert).
  Proof.
    destruct (words_bijection pf (em_vocab e) [] 0 (proj1 made)) as (_ & WL & ND).
    pose proof (words_fit SO pf e _ _ made) as WF. unfold similarity_. rewrite WL in *.
    destruct (N.ltb_spec isize_max (limit * 24)) as [L|L].
    { destruct (N.leb_spec (limit * 24) isize_max); [lia|]. reflexivity. }
    destruct (N.leb_spec (limit * 24) isize_max); [|lia]. cbn [rassert rbind]. rewrite viewed. cbn [rbind].
    unfold a2_nrows. destruct (N.leb_spec (lenN words) (lenN (a2_rows a))); [|lia]. cbn [rassert rbind].
    unfold axis_chunks. set (b := match batch with Some b => b | None => lenN words end).
    destruct (N.eqb_spec b 0) as [Hb|Hb]; [reflexivity|]. cbn [rbind].
    set (rows := takeN (lenN words) (a2_rows a)).
    assert (length words = length rows) as LW.
    { unfold rows, takeN. rewrite firstn_length. unfold lenN in *. lia. }
    destruct (N.eqb_spec (lenN words) 0) as [W0|W0].
    - unfold rows. rewrite W0. reflexivity.
    - destruct (N.eqb_spec (lenN q) (a2_cols a)) as [Hq|Hq].
      + unfold chunks_of, enumerate. rewrite sim_batches by auto. change (0 * b) with (lenN (@nil str)).
        change words with ([] ++ words) at 1. rewrite sim_steps by exact LW. f_equal. unfold cand_list. f_equal.
        unfold rows, takeN. unfold lenN. rewrite Nat2N.id. clear. generalize (a2_rows a). induction words as [|w l IH]; intros [|r rs]; cbn; try reflexivity.
        f_equal. apply IH.
      + apply sim_batches_wrong; auto. intros E. apply W0. unfold lenN. rewrite LW, E. reflexivity.
  Qed.
End Similar.

(** ** Uniqueness: the result is determined by the candidates *)
Lemma better_irrefl {F} (o : fops F) : ordered o -> forall x : wsr F, number o (wr_sim x) -> ~ better o x x.
Proof. intros OR x Nx H. eapply (better_asym o OR x x); eauto. Qed.

Lemma sorted_unique {F} (o : fops F) : ordered o -> forall l l' : list (wsr F),
  Forall (fun x => number o (wr_sim x)) l -> StronglySorted (better o) l -> StronglySorted (better o) l' ->
  (forall x, In x l <-> In x l') -> l = l'.
Proof.
  intros OR. induction l as [|x l IH]; intros [|y l'] NU S S' E; auto.
  - exfalso. apply (E y). left. reflexivity.
  - exfalso. apply (E x). left. reflexivity.
  - assert (Forall (fun x => number o (wr_sim x)) (y :: l')) as NU'.
    { rewrite Forall_forall in *. intros z Hz. apply NU, E, Hz. }
    inv NU. inv NU'. inv S. inv S'. rewrite !Forall_forall in *.
    assert (x = y) as ->.
    { destruct (proj1 (E x)) as [H|H]; [left; reflexivity|congruence|].
      destruct (proj2 (E y)) as [K|K]; [left; reflexivity|congruence|].
      exfalso. apply (better_asym o OR x y); auto. }
    f_equal. apply IH; auto; [apply Forall_forall; auto|]. intros z. split; intros Hz.
    + destruct (proj1 (E z)) as [<-|K]; [right; auto| |exact K]. exfalso. apply (better_irrefl o OR y); auto.
    + destruct (proj2 (E z)) as [<-|K]; [right; auto| |exact K]. exfalso. apply (better_irrefl o OR y); auto.
Qed.

Section Exact.
  Context {F : Type} (o : fops F) (OR : ordered o) (ON : one_neutral o).

  Lemma cand_list_exact words rows skip q : Forall (num o) (cand_list o words rows skip q) ->
    forall x, In x (cand_list o words rows skip q) <-> candidate o words rows skip q x.
  Proof.
    intros NU x. rewrite Forall_forall in NU. split.
    - intros H. pose proof (NU x H) as Nx. apply cand_list_In in H as (i & r & H1 & H2 & H3 & H4). exists i, r.
      repeat split; auto. unfold num in Nx. rewrite H4 in *. unfold row_sim in *. apply ON. apply ON. exact Nx.
    - intros (i & r & H1 & H2 & H3 & H4).
      assert (In (mkWsr (row_sim o q r) (wr_word x)) (cand_list o words rows skip q)) as H by (apply cand_list_In; exists i, r; auto).
      pose proof (NU _ H) as Nx. unfold num in Nx. cbn [wr_sim] in Nx. unfold row_sim in *.
      rewrite (proj1 (ON _)) in H by (apply ON, Nx). rewrite <- H4 in H. destruct x. exact H.
  Qed.
  Lemma cand_list_num words rows skip q : (forall x, candidate o words rows skip q x -> number o (wr_sim x)) ->
    Forall (num o) (cand_list o words rows skip q).
  Proof.
    intros H. apply Forall_forall. intros x Hx. apply cand_list_In in Hx as (i & r & H1 & H2 & H3 & H4).
    assert (number o (vdot o r q)) as NU.
    { apply (H (mkWsr (vdot o r q) (wr_word x))). exists i, r. auto. }
    unfold num. rewrite H4. unfold row_sim. rewrite (proj1 (ON _) NU). exact NU.
  Qed.

  Lemma best_top_k words rows skip q limit h : NoDup words -> Forall (num o) (cand_list o words rows skip q) ->
    best o limit (cand_list o words rows skip q) h -> top_k o (candidate o words rows skip q) limit h.
  Proof.
    intros ND NU (S & L & rest & P & B). pose proof (cand_list_exact words rows skip q NU) as CE.
    constructor.
    - intros x Hx. apply CE. apply (Permutation_in x (Permutation_sym P)). apply in_app_iff. auto.
    - exact S.
    - intros cs NDc Ec. rewrite L. f_equal. unfold lenN. f_equal. apply Permutation_length. apply NoDup_Permutation; auto.
      + apply (NoDup_map_inv wr_word). apply cand_list_words. exact ND.
      + intros x. rewrite CE, Ec. reflexivity.
    - intros x Hx NI r Hr. apply CE in Hx. apply (Permutation_in x P) in Hx. apply in_app_iff in Hx as [Hx|Hx]; [contradiction|auto].
  Qed.

  Section Query.
    Context {Md S : Type} (SO : storage_ops F S) (view : S -> res (array2 F)) (pf : profile).
    Variables (e : embeddings Md vocab_wrap S F) (a : array2 F).
    Hypothesis made : emb_made SO pf e (a2_cols a) (a2_rows a).
    Hypothesis viewed : view (em_storage e) = Ok a.
    Notation words := (v_words wrap_ops (em_vocab e)).

    Lemma words_ND : NoDup words.
    Proof. destruct (words_bijection pf (em_vocab e) [] 0 (proj1 made)) as (_ & _ & ND). exact ND. Qed.

    Lemma similarity_exact q skip limit batch rs : similarity_ o wrap_ops view e q skip limit batch = Ok rs ->
      top_k o (candidate o (v_words wrap_ops (em_vocab e)) (a2_rows a) skip q) limit rs.
    Proof.
      rewrite (similarity_eq o SO view pf e a made viewed). intros H.
      destruct (isize_max <? limit * 24); [discriminate|]. destruct (_ =? 0); [discriminate|].
      destruct (N.eqb_spec (lenN words) 0) as [W0|W0].
      - inv H. assert (forall x, ~ candidate o words (a2_rows a) skip q x) as NC.
        { intros x (i & r & H & _). apply nthN_Some_lt in H. lia. }
        constructor; [intros x []|constructor| |intros x Hx; exfalso; eapply NC; eauto].
        intros [|c cs] _ E; [unfold lenN; cbn; lia|]. exfalso. apply (NC c), E. left. reflexivity.
      - destruct (lenN q =? a2_cols a); [|discriminate].
        destruct (sim_fold_Ok o limit _ _ _ H) as [NU L0]. destruct (N.eq_dec limit 0) as [->|L].
        + specialize (L0 eq_refl eq_refl). rewrite L0 in H. inv H. apply best_top_k; [apply words_ND|exact NU|].
          rewrite L0. split; [constructor|]. split; [reflexivity|]. exists []. split; [reflexivity|]. intros ? ? [].
        + destruct (sim_fold_best o OR limit (cand_list o words (a2_rows a) skip q) [] []) as (h & E & B).
          * lia.
          * exact NU.
          * apply cand_list_words. apply words_ND.
          * split; [constructor|]. split; [unfold lenN; cbn; lia|]. exists []. split; [reflexivity|]. intros ? ? [].
          * rewrite H in E. inv E. apply best_top_k; [apply words_ND|exact NU|exact B].
    Qed.

    Lemma similarity_ok_iff q skip limit batch :
      (exists rs, similarity_ o wrap_ops view e q skip limit batch = Ok rs) <->
      query_ok o (v_words wrap_ops (em_vocab e)) (a2_cols a) (a2_rows a) skip q limit batch.
    Proof.
      rewrite (similarity_eq o SO view pf e a made viewed). split.
      - intros (rs & H). destruct (N.ltb_spec isize_max (limit * 24)) as [L|L]; [discriminate|].
        destruct (N.eqb_spec (match batch with Some b => b | None => lenN words end) 0) as [B|B]; [discriminate|].
        assert (match batch with Some b => b <> 0 | None => words <> [] end) as B'.
        { destruct batch; [exact B|]. intros E. apply B. rewrite E. reflexivity. }
        destruct (N.eqb_spec (lenN words) 0) as [W0|W0].
        + assert (words = []) as E by (destruct words; [reflexivity|rewrite lenN_cons in W0; lia]).
          constructor; auto; [intros x (i & r & K & _)|intros _ x (i & r & K & _)]; apply nthN_Some_lt in K; lia.
        + destruct (N.eqb_spec (lenN q) (a2_cols a)) as [Q|Q]; [|discriminate].
          destruct (sim_fold_Ok o limit _ _ _ H) as [NU L0]. pose proof (cand_list_exact _ _ _ _ NU) as CE.
          constructor; auto.
          * intros x Hx. apply CE in Hx. rewrite Forall_forall in NU. apply NU. exact Hx.
          * intros LZ x Hx. apply CE in Hx. rewrite L0 in Hx by auto. destruct Hx.
      - intros [Q1 Q2 Q3 Q4 Q5]. destruct (N.ltb_spec isize_max (limit * 24)) as [L|L]; [lia|].
        destruct (N.eqb_spec (match batch with Some b => b | None => lenN words end) 0) as [B|B].
        { exfalso. destruct batch; [auto|]. apply Q2. destruct words; [reflexivity|]. rewrite lenN_cons in B. lia. }
        destruct (N.eqb_spec (lenN words) 0) as [W0|W0]; [eauto|].
        destruct Q3 as [Q3|Q3]; [rewrite Q3 in W0; exfalso; apply W0; reflexivity|]. rewrite Q3, N.eqb_refl.
        pose proof (cand_list_num _ _ _ _ Q4) as NU. destruct (N.eq_dec limit 0) as [->|LL].
        + destruct (cand_list o words (a2_rows a) skip q) as [|x l] eqn:EC; [cbn; eauto|].
          exfalso. apply (Q5 eq_refl x). rewrite <- EC in NU. apply (cand_list_exact _ _ _ _ NU). rewrite EC. left. reflexivity.
        + destruct (sim_fold_best o OR limit (cand_list o words (a2_rows a) skip q) [] []) as (h & E & B').
          * lia.
          * exact NU.
          * apply cand_list_words. apply words_ND.
          * split; [constructor|]. split; [unfold lenN; cbn; lia|]. exists []. split; [reflexivity|]. intros ? ? [].
          * eauto.
    Qed.

    (** Skipped words are never returned; every other word is, if the limit
        leaves room. *)
    Lemma similarity_words q skip limit batch rs : similarity_ o wrap_ops view e q skip limit batch = Ok rs ->
      (forall w, In w skip -> ~ In w (map wr_word rs)) /\
      (forall w, In w (v_words wrap_ops (em_vocab e)) -> ~ In w skip ->
       lenN (v_words wrap_ops (em_vocab e)) <= limit -> In w (map wr_word rs)).
    Proof.
      intros H. pose proof (similarity_exact _ _ _ _ _ H) as T.
      destruct (proj1 (similarity_ok_iff q skip limit batch) (ex_intro _ rs H)) as [_ _ _ NU _]. split.
      - intros w SK K. apply in_map_iff in K as (x & <- & Hx). apply (tk_cand _ _ _ _ T) in Hx as (i & r & _ & _ & K & _). auto.
      - intros w W NS LL. pose proof (cand_list_num _ _ _ _ NU) as NUl. pose proof (cand_list_exact _ _ _ _ NUl) as CE.
        set (cs := cand_list o words (a2_rows a) skip q) in *.
        assert (NoDup (map wr_word cs)) as NDw by (apply cand_list_words, words_ND).
        assert (NoDup cs) as NDc by (apply (NoDup_map_inv wr_word), NDw).
        pose proof (tk_count _ _ _ _ T cs NDc CE) as L.
        assert (length (map wr_word cs) <= length words)%nat as Lc.
        { apply NoDup_incl_length; [exact NDw|]. intros y Hy. apply in_map_iff in Hy as (x & <- & Hx). apply CE in Hx as (i & r & Hx & _).
          eapply nthN_In; eauto. }
        rewrite map_length in Lc.
        assert (NoDup rs) as NDr.
        { assert (Forall (fun x => number o (wr_sim x)) rs) as NUr by (apply Forall_forall; intros x Hx; apply NU, T, Hx).
          pose proof (tk_sorted _ _ _ _ T) as SS. revert NUr. clear - SS OR. induction SS as [|y l SS IH Fy]; intros NUl; [constructor|]. inv NUl.
          constructor; [|auto]. intros Hy. rewrite Forall_forall in Fy. apply (better_irrefl o OR y); auto. }
        assert (incl cs rs) as I.
        { apply NoDup_length_incl; auto; [unfold lenN in *; lia|]. intros x Hx. apply CE, T, Hx. }
        apply In_nthN in W as (i & W).
        assert (exists r, nthN (a2_rows a) i = Some r) as (r & R).
        { apply nthN_lt. apply nthN_Some_lt in W. pose proof (words_fit SO pf e _ _ made) as WF. destruct (words_bijection pf (em_vocab e) [] 0 (proj1 made)) as (_ & WL & _). lia. }
        apply in_map_iff. exists (mkWsr (vdot o r q) w). split; [reflexivity|]. apply I, CE. exists i, r. auto.
    Qed.

    (** Queries that have no result panic. *)
    Lemma similarity_panics q skip limit batch :
      (exists rs, similarity_ o wrap_ops view e q skip limit batch = Ok rs) \/
      (exists p, similarity_ o wrap_ops view e q skip limit batch = Panic p).
    Proof.
      rewrite (similarity_eq o SO view pf e a made viewed).
      destruct (isize_max <? limit * 24); [eauto|]. destruct (_ =? 0); [eauto|]. destruct (_ =? 0); [eauto|].
      destruct (lenN q =? a2_cols a); [|eauto]. generalize (@nil (wsr F)).
      induction (cand_list o words (a2_rows a) skip q) as [|x l IH]; intros h; [cbn; eauto|]. cbn [rfold].
      unfold sim_add at 1 3. destruct (fcmp o (wr_sim x) (wr_sim x)); cbn [rbind]; [|eauto].
      destruct (lenN h <? limit); cbn [rbind]; [apply IH|]. destruct (heap_max h) as [m|]; cbn [rbind]; [|eauto].
      destruct (wsr_lt o x m); cbn [rbind]; apply IH.
    Qed.

    (** The size of batches does not matter. *)
    Lemma batch_size_irrelevant q skip limit b b' : b <> 0 -> b' <> 0 ->
      similarity_ o wrap_ops view e q skip limit (Some b) = similarity_ o wrap_ops view e q skip limit (Some b') /\
      (v_words wrap_ops (em_vocab e) <> [] ->
       similarity_ o wrap_ops view e q skip limit (Some b) = similarity_ o wrap_ops view e q skip limit None).
    Proof.
      intros H H'. rewrite !(similarity_eq o SO view pf e a made viewed).
      destruct (N.eqb_spec b 0); [contradiction|]. destruct (N.eqb_spec b' 0); [contradiction|]. split; [reflexivity|].
      intros W. destruct (N.eqb_spec (lenN words) 0) as [E|E]; [|reflexivity].
      exfalso. apply W. destruct words; [reflexivity|]. rewrite lenN_cons in E. lia.
    Qed.

    (** *** The public queries *)
    Hypothesis usable : vocab_usable (em_vocab e).

    Lemma lookup_width w : utf8_valid w = true ->
      exists r, emb_embedding o wrap_ops SO pf e w = Ok r /\ forall v, r = Some v -> lenN v = a2_cols a.
    Proof.
      intros V. destruct (lookup_cases o SO pf e (a2_cols a) (a2_rows a) made usable w V) as
        [(i & r & _ & _ & _ & L & E)|[(is & rs & v & n & _ & _ & _ & _ & L & E & _)|(_ & E & _)]]; rewrite E;
        (eexists; split; [reflexivity|]); intros v' H; inv H; auto.
    Qed.

    Lemma word_similarity_exact w limit batch : utf8_valid w = true ->
      (emb_embedding o wrap_ops SO pf e w = Ok None /\ word_similarity o wrap_ops SO view pf e w limit batch = Ok None) \/
      exists v, emb_embedding o wrap_ops SO pf e w = Ok (Some v) /\ lenN v = a2_cols a /\
        ((exists r, word_similarity o wrap_ops SO view pf e w limit batch = Ok r) <->
         query_ok o (v_words wrap_ops (em_vocab e)) (a2_cols a) (a2_rows a) [w] v limit batch) /\
        forall r, word_similarity o wrap_ops SO view pf e w limit batch = Ok r ->
        exists rs, r = Some rs /\
          top_k o (candidate o (v_words wrap_ops (em_vocab e)) (a2_rows a) [w] v) limit rs.
    Proof.
      intros V. destruct (lookup_width w V) as (r & E & L). unfold word_similarity. rewrite E. cbn [rbind].
      destruct r as [v|]; [|left; auto]. right. exists v. split; [reflexivity|]. split; [auto|].
      rewrite <- similarity_ok_iff. split.
      - split; [intros (r & H); apply rbind_Ok_inv in H as (rs & H & _); eauto|]. intros (rs & ->). cbn [rbind]. eauto.
      - intros r H. apply rbind_Ok_inv in H as (rs & H & K). inv K. exists rs. split; [reflexivity|].
        eapply similarity_exact; eauto.
    Qed.

    Lemma embedding_similarity_masked_exact q limit skip batch :
      exists v n, scaled_by_length o q v n /\ lenN v = lenN q /\
        ((exists r, embedding_similarity_masked o wrap_ops view e q limit skip batch = Ok r) <->
         query_ok o (v_words wrap_ops (em_vocab e)) (a2_cols a) (a2_rows a) skip v limit batch) /\
        forall r, embedding_similarity_masked o wrap_ops view e q limit skip batch = Ok r ->
        exists rs, r = Some rs /\
          top_k o (candidate o (v_words wrap_ops (em_vocab e)) (a2_rows a) skip v) limit rs.
    Proof.
      exists (fst (l2_normalize o q)), (snd (l2_normalize o q)). split; [apply l2_normalize_scaled|].
      split; [apply l2_normalize_len|]. unfold embedding_similarity_masked. rewrite <- similarity_ok_iff. split.
      - split; [intros (r & H); apply rbind_Ok_inv in H as (rs & H & _); eauto|]. intros (rs & ->). cbn [rbind]. eauto.
      - intros r H. apply rbind_Ok_inv in H as (rs & H & K). inv K. exists rs. split; [reflexivity|].
        eapply similarity_exact; eauto.
    Qed.

    Lemma embedding_similarity_unmasked q limit batch :
      embedding_similarity o wrap_ops view e q limit batch = embedding_similarity_masked o wrap_ops view e q limit [] batch.
    Proof. reflexivity. Qed.

    Lemma analogy_all q limit batch :
      analogy o wrap_ops SO view pf e q limit batch = analogy_masked o wrap_ops SO view pf e q (true, true, true) limit batch.
    Proof. reflexivity. Qed.

    Lemma analogy_vector_eq va vb vc : lenN va = a2_cols a -> lenN vb = a2_cols a -> lenN vc = a2_cols a ->
      vadd o (vsub o vb va) vc = analogy_vector o (a2_cols a) va vb vc.
    Proof.
      generalize (a2_cols a). intros cols La Lb Lc. unfold analogy_vector.
      assert (length (vadd o (vsub o vb va) vc) = N.to_nat cols) as L.
      { unfold vadd, vsub. rewrite !zip_with_length. unfold lenN in *. lia. }
      rewrite (map_nth_seq (vadd o (vsub o vb va) vc) (fzero o)), L. apply map_ext_in. intros j Hj. apply in_seq in Hj.
      unfold vadd, vsub. unfold lenN in *.
      rewrite (zip_with_nth _ _ _ j (fzero o) (fzero o) (fzero o)) by (rewrite ?zip_with_length; lia).
      rewrite (zip_with_nth _ _ _ j (fzero o) (fzero o) (fzero o)) by lia. reflexivity.
    Qed.

    Lemma analogy_exact wa wb wc ra rb rc limit batch :
      utf8_valid wa = true -> utf8_valid wb = true -> utf8_valid wc = true ->
      exists va vb vc, emb_embedding o wrap_ops SO pf e wa = Ok va /\ emb_embedding o wrap_ops SO pf e wb = Ok vb /\
      emb_embedding o wrap_ops SO pf e wc = Ok vc /\
      ((va = None \/ vb = None \/ vc = None) ->
       analogy_masked o wrap_ops SO view pf e (wa, wb, wc) (ra, rb, rc) limit batch
       = Ok (inr (match va with Some _ => true | None => false end, match vb with Some _ => true | None => false end,
                  match vc with Some _ => true | None => false end))) /\
      forall xa xb xc, va = Some xa -> vb = Some xb -> vc = Some xc ->
      exists v n skip, scaled_by_length o (analogy_vector o (a2_cols a) xa xb xc) v n /\ lenN v = a2_cols a /\
        (forall w, In w skip <-> (ra = true /\ w = wa) \/ (rb = true /\ w = wb) \/ (rc = true /\ w = wc)) /\
        ((exists r, analogy_masked o wrap_ops SO view pf e (wa, wb, wc) (ra, rb, rc) limit batch = Ok r) <->
         query_ok o (v_words wrap_ops (em_vocab e)) (a2_cols a) (a2_rows a) skip v limit batch) /\
        forall r, analogy_masked o wrap_ops SO view pf e (wa, wb, wc) (ra, rb, rc) limit batch = Ok r ->
        exists rs, r = inl rs /\
          top_k o (candidate o (v_words wrap_ops (em_vocab e)) (a2_rows a) skip v) limit rs.
    Proof.
      intros Va Vb Vc. destruct (lookup_width wa Va) as (va & Ea & La). destruct (lookup_width wb Vb) as (vb & Eb & Lb).
      destruct (lookup_width wc Vc) as (vc & Ec & Lc). exists va, vb, vc. split; [auto|]. split; [auto|]. split; [auto|].
      unfold analogy_masked, lookup_words3. rewrite Ea, Eb, Ec. cbn [rbind]. split.
      - intros H. destruct va, vb, vc; try reflexivity. destruct H as [H|[H|H]]; discriminate.
      - intros xa xb xc -> -> ->. specialize (La xa eq_refl). specialize (Lb xb eq_refl). specialize (Lc xc eq_refl).
        cbn [rbind]. rewrite (analogy_vector_eq xa xb xc La Lb Lc). set (u := analogy_vector o (a2_cols a) xa xb xc).
        exists (fst (l2_normalize o u)), (snd (l2_normalize o u)), (map fst (filter snd [(wa, ra); (wb, rb); (wc, rc)])).
        split; [apply l2_normalize_scaled|].
        split; [rewrite l2_normalize_len; unfold u, analogy_vector, lenN; rewrite map_length, seq_length; lia|].
        split; [intros w; destruct ra, rb, rc; cbn; intuition congruence|].
        rewrite <- similarity_ok_iff. split.
        + split; [intros (r & H); apply rbind_Ok_inv in H as (rs & H & _); eauto|]. intros (rs & ->). cbn [rbind]. eauto.
        + intros r H. apply rbind_Ok_inv in H as (rs & H & K). inv K. exists rs. split; [reflexivity|].
          eapply similarity_exact; eauto.
    Qed.

    (** Excluded words, for the public queries. *)
    Lemma word_similarity_words w limit batch rs : word_similarity o wrap_ops SO view pf e w limit batch = Ok (Some rs) ->
      ~ In w (map wr_word rs) /\
      forall w', In w' (v_words wrap_ops (em_vocab e)) -> w' <> w ->
      lenN (v_words wrap_ops (em_vocab e)) <= limit -> In w' (map wr_word rs).
    Proof.
      unfold word_similarity. intros H. apply rbind_Ok_inv in H as ([v|] & _ & H); [|discriminate].
      apply rbind_Ok_inv in H as (r & E & H). inv H. apply similarity_words in E as [E1 E2]. split; [apply E1; left; reflexivity|].
      intros w' W N. apply E2; auto. intros [K|[]]; auto.
    Qed.
    Lemma embedding_similarity_masked_words q limit skip batch rs :
      embedding_similarity_masked o wrap_ops view e q limit skip batch = Ok (Some rs) ->
      (forall w, In w skip -> ~ In w (map wr_word rs)) /\
      (forall w, In w (v_words wrap_ops (em_vocab e)) -> ~ In w skip ->
       lenN (v_words wrap_ops (em_vocab e)) <= limit -> In w (map wr_word rs)).
    Proof.
      unfold embedding_similarity_masked. intros H. apply rbind_Ok_inv in H as (r & E & H). inv H. apply similarity_words in E. exact E.
    Qed.

    (** Batch sizes in the public queries. *)
    Lemma batch_size_queries limit b b' : b <> 0 -> b' <> 0 ->
      (forall w, word_similarity o wrap_ops SO view pf e w limit (Some b) = word_similarity o wrap_ops SO view pf e w limit (Some b')) /\
      (forall q skip, embedding_similarity_masked o wrap_ops view e q limit skip (Some b)
                    = embedding_similarity_masked o wrap_ops view e q limit skip (Some b')) /\
      (forall q remove, analogy_masked o wrap_ops SO view pf e q remove limit (Some b)
                      = analogy_masked o wrap_ops SO view pf e q remove limit (Some b')).
    Proof.
      intros H H'. assert (forall q skip, similarity_ o wrap_ops view e q skip limit (Some b) = similarity_ o wrap_ops view e q skip limit (Some b')) as E.
      { intros q skip. apply batch_size_irrelevant; auto. }
      split; [|split].
      - intros w. unfold word_similarity. destruct (emb_embedding o wrap_ops SO pf e w) as [[v|]| |]; cbn [rbind]; try reflexivity.
        rewrite E. reflexivity.
      - intros q skip. unfold embedding_similarity_masked. rewrite E. reflexivity.
      - intros [[wa wb] wc] [[ra rb] rc]. unfold analogy_masked. destruct (lookup_words3 _ _ _ _ _ _) as [[[[x y] z]|p]| |]; cbn [rbind]; try reflexivity.
        rewrite E. reflexivity.
    Qed.
    Lemma batch_default_queries limit b : b <> 0 -> v_words wrap_ops (em_vocab e) <> [] ->
      (forall w, word_similarity o wrap_ops SO view pf e w limit None = word_similarity o wrap_ops SO view pf e w limit (Some b)) /\
      (forall q skip, embedding_similarity_masked o wrap_ops view e q limit skip None
                    = embedding_similarity_masked o wrap_ops view e q limit skip (Some b)) /\
      (forall q remove, analogy_masked o wrap_ops SO view pf e q remove limit None
                      = analogy_masked o wrap_ops SO view pf e q remove limit (Some b)).
    Proof.
      intros H W. assert (forall q skip, similarity_ o wrap_ops view e q skip limit None = similarity_ o wrap_ops view e q skip limit (Some b)) as E.
      { intros q skip. symmetry. apply (batch_size_irrelevant q skip limit b b); auto. }
      split; [|split].
      - intros w. unfold word_similarity. destruct (emb_embedding o wrap_ops SO pf e w) as [[v|]| |]; cbn [rbind]; try reflexivity.
        rewrite E. reflexivity.
      - intros q skip. unfold embedding_similarity_masked. rewrite E. reflexivity.
      - intros [[wa wb] wc] [[ra rb] rc]. unfold analogy_masked. destruct (lookup_words3 _ _ _ _ _ _) as [[[[x y] z]|p]| |]; cbn [rbind]; try reflexivity.
        rewrite E. reflexivity.
    Qed.
  End Query.

  (** A result is determined by the candidates. *)
  Lemma top_k_unique (eqd : forall x y : F, sumbool (x = y) (x <> y)) cand limit cs rs rs' : NoDup cs -> (forall x, In x cs <-> cand x) ->
    (forall x, cand x -> number o (wr_sim x)) ->
    top_k o cand limit rs -> top_k o cand limit rs' -> rs = rs'.
  Proof.
    intros ND E NU T T'.
    assert (forall x y : wsr F, {x = y} + {x <> y}) as wd by (decide equality; apply str_eq_dec).
    apply (sorted_unique o OR); try apply T; try apply T'.
    - apply Forall_forall. intros x Hx. apply NU, (tk_cand _ _ _ _ T), Hx.
    - assert (forall rs rs', top_k o cand limit rs -> top_k o cand limit rs' -> forall x, In x rs -> In x rs') as K.
      { clear rs rs' T T'. intros rs rs' T T' x Hx.
        pose proof (tk_count _ _ _ _ T cs ND E) as L. pose proof (tk_count _ _ _ _ T' cs ND E) as L'.
        assert (forall rs, top_k o cand limit rs -> NoDup rs) as NDs.
        { intros l [C S _ _]. assert (Forall (fun x => number o (wr_sim x)) l) as NUl by (apply Forall_forall; auto). clear C.
          induction S as [|y l S IH Fy]; [constructor|]. inv NUl. constructor; [|auto]. intros Hy. rewrite Forall_forall in Fy.
          apply (better_irrefl o OR y); auto. }
        destruct (in_dec wd x rs') as [I|NI]; [exact I|exfalso].
        (* every element of rs' is better than x, hence in rs: too many *)
        assert (incl rs' rs) as INC.
        { intros y Hy. destruct (in_dec wd y rs) as [I|NI']; [exact I|exfalso].
          pose proof (tk_omitted _ _ _ _ T' x (tk_cand _ _ _ _ T x Hx) NI y Hy) as B1.
          pose proof (tk_omitted _ _ _ _ T y (tk_cand _ _ _ _ T' y Hy) NI' x Hx) as B2.
          apply (better_asym o OR x y); auto; apply NU; [apply T|apply T']; auto. }
        assert (incl rs rs') as INC'.
        { apply NoDup_length_incl; auto. unfold lenN in *. lia. }
        apply NI, INC', Hx. }
      intros x. split; eauto.
  Qed.
End Exact.

Lemma f32_one_neutral : one_neutral f32_ops.
Proof.
  intros x. rewrite !f32_number. split; [apply f32_mul_one|]. intros H.
  destruct (f32_is_nan x) eqn:E; [|reflexivity]. exfalso. revert H. unfold f32_is_nan in *.
  cbn [fmul fone f32_ops]. unfold f32_mul, f32_op2. destruct (f32_to_sf x); try discriminate.
Qed.
