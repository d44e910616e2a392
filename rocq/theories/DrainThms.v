(** * Writing in parts and through [BufWriter] (stated in P_Device.v). *)
From Verif Require Import Base BaseFacts Utf8 Stream StreamFacts F32 ChunkIO Subword Vocab Storage Embeddings FileSpec TextIO FastText IoSink SinkThms.
From Coq Require Import Lia ZifyBool ZifyNat ZifyN.
Local Open Scope N_scope.

Definition within (k : sink) : Prop := match k_cap k with None => True | Some c => lenN (k_out k) <= c end.

Lemma lenN_pos {A} (l : list A) : l <> [] -> 0 < lenN l.
Proof. destruct l; [congruence|]. rewrite lenN_cons. lia. Qed.
Lemma takeN_nil0 {A} (l : list A) : takeN 0 l = [].
Proof. reflexivity. Qed.
Lemma push_nil k : push [] k = k.
Proof. destruct k. unfold push. cbn. rewrite app_nil_r. reflexivity. Qed.
Lemma push_push a b k : push b (push a k) = push (a ++ b) k.
Proof. unfold push. cbn. rewrite app_assoc. reflexivity. Qed.

(** ** [write_all] on a device *)
Lemma all_loop_sound k bs r k' : all_loop k bs r k' -> within k -> within k' /\ write_bytes bs k = (r, k').
Proof.
  induction 1 as [k|k bs n k1 r k2 NE W L IH|k bs k1 NE W|k bs k1 r k2 NE W L IH]; intros I.
  - split; [exact I|]. unfold write_bytes. rewrite push_nil. unfold within in I. destruct (k_cap k) as [c|]; [|reflexivity]. rewrite lenN_nil. replace (_ <=? c) with true by lia. reflexivity.
  - inversion W as [n' N0 NB R| |]; subst. assert (within (push (takeN n bs) k)) as I1.
    { unfold within, room, push in *. cbn [k_cap k_out]. destruct (k_cap k); [|exact I]. rewrite lenN_app, lenN_takeN. lia. }
    destruct (IH I1) as [I2 E]. split; [exact I2|]. rewrite <- E. unfold write_bytes. cbn [push k_cap k_out]. unfold room in R. destruct (k_cap k) as [c|] eqn:K; cbn [k_cap].
    + rewrite lenN_app, lenN_dropN, lenN_takeN. replace (N.min n (lenN bs)) with n by lia. rewrite !push_push.
      replace (lenN (k_out k) + n + (lenN bs - n) <=? c) with (lenN (k_out k) + lenN bs <=? c) by lia.
      destruct (N.leb_spec (lenN (k_out k) + lenN bs) c) as [Q|Q]; [rewrite takeN_dropN; reflexivity|].
      do 2 f_equal. rewrite <- (takeN_dropN n bs) at 1. rewrite takeN_app_ge by (rewrite lenN_takeN; lia). rewrite lenN_takeN. do 2 f_equal. lia.
    + rewrite push_push, takeN_dropN. reflexivity.
  - inversion W as [|N1 R E1 E2|]; subst k1. split; [exact I|]. pose proof (lenN_pos bs NE). unfold write_bytes, room, within in *. destruct (k_cap k) as [c|]; [|tauto].
    replace (_ <=? c) with false by lia. replace (c - lenN (k_out k)) with 0 by lia. rewrite takeN_nil0, push_nil. reflexivity.
  - inversion W; subst k1. apply IH, I.
Qed.
Lemma room_dec k n : {room k n} + {~ room k n}.
Proof. unfold room. destruct (k_cap k) as [c|]; [|left; exact I]. destruct (lenN (k_out k) + n <=? c) eqn:E; [left|right]; lia. Qed.
Lemma all_loop_ends n : forall k bs, length bs = n -> exists r k', all_loop k bs r k'.
Proof.
  induction n as [|n IH]; intros k bs L.
  - destruct bs; [|discriminate]. do 2 eexists. apply al_done.
  - assert (bs <> []) as NE by (destruct bs; discriminate). destruct (room_dec k 1) as [R|R].
    + destruct (IH (push (takeN 1 bs) k) (dropN 1 bs)) as (r & k' & A).
      { change (dropN 1 bs) with (skipn 1 bs). rewrite skipn_length. lia. }
      do 2 eexists. eapply al_more; [exact NE| |exact A]. apply dw_some; [lia|pose proof (lenN_pos bs NE); lia|exact R].
    + do 2 eexists. eapply al_refused; [exact NE|]. apply dw_refused; assumption.
Qed.
Lemma dev_result {A} (p : wprog A) : forall k x k', within k -> wruns dev_drain p k x k' -> within k' /\ wdenote p k = (x, k').
Proof.
  induction p as [A r|bs|bs| |A B p IH f IHf]; intros k x k' I R; cbn [wruns wdenote dev_drain dn_all dn_position] in *.
  - destruct R as [-> ->]. auto.
  - apply all_loop_sound; assumption.
  - destruct R as (y & R & ->). destruct (all_loop_sound _ _ _ _ R I) as [I1 E]. unfold as_read. rewrite E. auto.
  - destruct R as [-> ->]. auto.
  - unfold bind. destruct R as [(a & k1 & R1 & R2)|[(e & R1 & ->)|(w & R1 & ->)]]; destruct (IH _ _ _ I R1) as [I1 E]; rewrite E; auto.
Qed.
Lemma dev_ends {A} (p : wprog A) : forall k, exists x k', wruns dev_drain p k x k'.
Proof.
  induction p as [A r|bs|bs| |A B p IH f IHf]; intros k; cbn [wruns dev_drain dn_all dn_position]; eauto.
  - eapply all_loop_ends. reflexivity.
  - destruct (all_loop_ends _ k bs eq_refl) as (r & k' & R). eauto 6.
  - destruct (IH k) as ([a|e|w] & k1 & R); [|eauto 8..]. destruct (IHf a k1) as (x & k2 & R2). exists x, k2. left. eauto.
Qed.

(** ** [BufWriter] *)
Definition bw_ok (b : bufwriter) : Prop := lenN (bw_buf b) <= bw_cap b /\ within (bw_dev b).
(** What has been written to it. *)
Definition bw_content (b : bufwriter) : list byte := k_out (bw_dev b) ++ bw_buf b.
Definition bw_like (b b' : bufwriter) : Prop :=
  bw_cap b' = bw_cap b /\ k_base (bw_dev b') = k_base (bw_dev b) /\ k_cap (bw_dev b') = k_cap (bw_dev b).
(** The device is full, and there are bytes beyond. *)
Definition spilled (b : bufwriter) (bytes : list byte) : Prop :=
  exists c, k_cap (bw_dev b) = Some c /\ c < lenN bytes /\ k_out (bw_dev b) = takeN c bytes.

Lemma like_refl b : bw_like b b. Proof. repeat split. Qed.
Lemma like_trans a b c : bw_like a b -> bw_like b c -> bw_like a c.
Proof. unfold bw_like. intuition congruence. Qed.

Lemma flush_sound b r b' : bw_flush b r b' -> bw_ok b ->
  bw_ok b' /\ bw_like b b' /\ bw_content b' = bw_content b /\ (exists more, k_out (bw_dev b') = k_out (bw_dev b) ++ more) /\
  ((r = Ok tt /\ bw_buf b' = []) \/ (r = Err EWrite /\ bw_buf b' <> [] /\ ~ room (bw_dev b') 1)).
Proof.
  induction 1 as [b E|b n k r b2 NE W L IH|b k NE W|b k r b2 NE W L IH]; intros [IB ID].
  - split; [split; assumption|]. split; [apply like_refl|]. split; [reflexivity|]. split; [exists []; rewrite app_nil_r; reflexivity|]. auto.
  - inversion W as [n' N0 NB R| |]; subst. destruct IH as (I2 & LK & C & (more & M) & O).
    { split; unfold bw_set; cbn [bw_buf bw_cap bw_dev]; [rewrite lenN_dropN; lia|]. unfold within, room, push in *. cbn [k_cap k_out]. destruct (k_cap (bw_dev b)); [|exact I]. rewrite lenN_app, lenN_takeN. lia. }
    split; [exact I2|]. split; [exact LK|]. split.
    + rewrite C. unfold bw_content, bw_set, push. cbn [bw_dev bw_buf k_out]. rewrite <- app_assoc, takeN_dropN. reflexivity.
    + split; [|exact O]. cbn [bw_set bw_dev push k_out] in M. rewrite <- app_assoc in M. eexists. exact M.
  - inversion W as [|N1 R|]; subst. destruct b as [cap buf dev]. unfold bw_set. cbn [bw_cap bw_buf bw_dev] in *. split; [split; assumption|]. split; [apply like_refl|]. split; [reflexivity|].
    split; [exists []; rewrite app_nil_r; reflexivity|]. auto.
  - inversion W; subst. destruct b as [cap buf dev]. apply IH. split; assumption.
Qed.

Lemma full_takes k c rest : within k -> ~ room k 1 -> k_cap k = Some c -> takeN c (k_out k ++ rest) = k_out k.
Proof. intros W R K. unfold within, room in *. rewrite K in *. replace c with (lenN (k_out k)) by lia. apply takeN_app. Qed.
Lemma full_cap k : ~ room k 1 -> exists c, k_cap k = Some c.
Proof. unfold room. destruct (k_cap k) as [c|]; [eauto|tauto]. Qed.

Lemma flush_failed_spills b b' rest : bw_ok b' -> bw_content b' = bw_content b -> bw_buf b' <> [] -> ~ room (bw_dev b') 1 -> spilled b' (bw_content b ++ rest).
Proof.
  intros I C NE R. destruct (full_cap _ R) as [c K]. exists c. split; [exact K|]. rewrite <- C. unfold bw_content. rewrite <- app_assoc. split.
  - pose proof (lenN_pos _ NE). destruct I as [_ W]. unfold within, room in *. rewrite K in *. rewrite !lenN_app. lia.
  - symmetry. apply full_takes; [apply I|exact R|exact K].
Qed.
Lemma cold_sound b bs r b' : bw_cold b bs r b' -> bw_ok b -> bw_buf b = [] \/ lenN bs = bw_spare b ->
  bw_ok b' /\ bw_like b b' /\ ((r = Ok tt /\ bw_content b' = bw_content b ++ bs) \/ (r = Err EWrite /\ spilled b' (bw_content b ++ bs))).
Proof.
  intros H [IB ID] E. inversion H as [b0 bs0 r0 k L AL|b0 bs0 L]; subst.
  - assert (bw_buf b = []) as NB.
    { destruct E as [E|E]; [exact E|]. unfold bw_spare in E. assert (lenN (bw_buf b) = 0) as Z by lia. destruct (bw_buf b); [reflexivity|]. rewrite lenN_cons in Z. lia. }
    destruct (all_loop_sound _ _ _ _ AL ID) as [I2 W]. unfold bw_ok, bw_content, bw_like, bw_set. cbn [bw_buf bw_dev bw_cap]. rewrite NB, lenN_nil, !app_nil_r.
    unfold write_bytes, push in W. destruct (k_cap (bw_dev b)) as [c|] eqn:K; [destruct (N.leb_spec (lenN (k_out (bw_dev b)) + lenN bs) c) as [Q|Q]|].
    + apply pair_equal_spec in W as [<- <-]. cbn [k_base k_cap k_out]. split; [split; [lia|exact I2]|]. split; [repeat split; auto|]. left. split; reflexivity.
    + apply pair_equal_spec in W as [<- <-]. cbn [k_base k_cap k_out]. split; [split; [lia|exact I2]|]. split; [repeat split; auto|]. right. split; [reflexivity|]. exists c. cbn [bw_dev k_cap k_out].
      split; [reflexivity|]. rewrite lenN_app. split; [lia|]. unfold within in ID. rewrite K in ID. rewrite takeN_app_ge by lia. reflexivity.
    + apply pair_equal_spec in W as [<- <-]. cbn [k_base k_cap k_out]. split; [split; [lia|exact I2]|]. split; [repeat split; auto|]. left. split; reflexivity.
  - unfold bw_ok, bw_content, bw_like, bw_hold, bw_set. cbn [bw_buf bw_dev bw_cap]. rewrite lenN_app, app_assoc. unfold bw_spare in E.
    assert (lenN (bw_buf b) + lenN bs <= bw_cap b) by (destruct E as [->|E]; [rewrite lenN_nil|]; lia). repeat split; auto.
Qed.
Lemma bw_all_sound b bs r b' : bw_all b bs r b' -> bw_ok b ->
  bw_ok b' /\ bw_like b b' /\ ((r = Ok tt /\ bw_content b' = bw_content b ++ bs) \/ (r = Err EWrite /\ spilled b' (bw_content b ++ bs))).
Proof.
  intros H O. inversion H as [b0 bs0 L|b0 bs0 r0 b2 L CO|b0 bs0 b1 r0 b2 L F CO|b0 bs0 e b1 L F]; subst.
  - destruct O as [IB ID]. unfold bw_ok, bw_content, bw_like, bw_hold, bw_set. cbn [bw_buf bw_dev bw_cap]. unfold bw_spare in L. rewrite lenN_app, app_assoc. repeat split; auto. lia.
  - apply cold_sound; auto.
  - destruct (flush_sound _ _ _ F O) as (O1 & K1 & C1 & _ & [[_ E]|[X _]]); [|discriminate]. rewrite <- C1.
    destruct (cold_sound _ _ _ _ CO O1 (or_introl E)) as (O2 & K2 & R). split; [exact O2|]. split; [exact (like_trans _ _ _ K1 K2)|exact R].
  - destruct (flush_sound _ _ _ F O) as (O1 & K1 & C1 & _ & [[X _]|(X & NE & R)]); [discriminate|]. injection X as ->. split; [exact O1|]. split; [exact K1|].
    right. split; [reflexivity|]. apply flush_failed_spills; assumption.
Qed.

Lemma wdenote_appends {A} (p : wprog A) : appends_with io_error (wdenote p).
Proof.
  induction p as [A r|bs|bs| |A B p IH f IHf]; cbn [wdenote]; [apply appends_lift|eapply appends_weaken; [|apply appends_write_bytes]; intros ? <-; left; reflexivity|apply appends_as_read|apply appends_wposition|apply appends_bind; assumption].
Qed.
Lemma spilled_more b bytes more : spilled b bytes -> spilled b (bytes ++ more).
Proof. intros (c & K & L & E). exists c. split; [exact K|]. rewrite lenN_app. split; [lia|]. rewrite takeN_app_le by lia. exact E. Qed.

Lemma bw_sound {A} (p : wprog A) : forall b x b', bw_ok b -> wruns buf_drain p b x b' ->
  bw_ok b' /\ bw_like b b' /\
  let '(r, k) := wdenote p (mkSink (k_base (bw_dev b)) (bw_content b) None) in
  (x = r /\ bw_content b' = k_out k) \/ (io_failed x /\ spilled b' (k_out k)).
Proof.
  induction p as [A r|bs|bs| |A B p IH f IHf]; intros b x b' O R; cbn [wruns wdenote buf_drain dn_all dn_position] in *.
  - destruct R as [-> ->]. split; [exact O|]. split; [apply like_refl|]. left. split; reflexivity.
  - destruct (bw_all_sound _ _ _ _ R O) as (O1 & K1 & [X|[X S]]); (split; [exact O1|]; split; [exact K1|]); [left; exact X|right; split; [left; exact X|exact S]].
  - destruct R as (y & R & ->). destruct (bw_all_sound _ _ _ _ R O) as (O1 & K1 & [[-> X]|[-> S]]); (split; [exact O1|]; split; [exact K1|]); [left; auto|right; split; [right; reflexivity|exact S]].
  - destruct R as [[F ->]|(e & F & XE)]; destruct (flush_sound _ _ _ F O) as (O1 & K1 & C1 & _ & X); (split; [exact O1|]; split; [exact K1|]); cbn [wposition k_out].
    + left. split; [|exact C1]. destruct X as [[_ E]|[X _]]; [|discriminate]. f_equal. unfold k_pos. cbn [k_base k_out]. rewrite <- C1. unfold bw_content. rewrite E, app_nil_r. f_equal. apply K1.
    + right. destruct X as [[X _]|(X & NE & R)]; [discriminate|]. split; [exact XE|]. rewrite <- (app_nil_r (bw_content b)). apply flush_failed_spills; assumption.
  - unfold bind. destruct R as [(a & b1 & R1 & R2)|[(e & R1 & ->)|(w & R1 & ->)]].
    + destruct (IH _ _ _ O R1) as (O1 & K1 & X). destruct (wdenote_appends p (k_base (bw_dev b)) (bw_content b)) as (r & more & es & (E & _) & _). rewrite E in *. cbn [k_out] in *.
      destruct X as [[<- C1]|[[X|X] _]]; [|discriminate..]. destruct (IHf a _ _ _ O1 R2) as (O2 & K2 & X2). split; [exact O2|]. split; [exact (like_trans _ _ _ K1 K2)|].
      rewrite C1 in X2. replace (k_base (bw_dev b1)) with (k_base (bw_dev b)) in X2 by (symmetry; apply K1). exact X2.
    + destruct (IH _ _ _ O R1) as (O1 & K1 & X). split; [exact O1|]. split; [exact K1|]. destruct (wdenote_appends p (k_base (bw_dev b)) (bw_content b)) as (r & more & es & (E & _) & _). rewrite E in *. cbn [k_out] in *.
      destruct X as [[<- C1]|[X S]]; [left; split; [reflexivity|exact C1]|]. assert (io_failed (@Err B e)) as X' by (destruct X as [X|X]; injection X as ->; [left|right]; reflexivity). destruct r as [a|e'|w]; [|right; split; [exact X'|exact S]..].
      destruct (wdenote_appends (f a) (k_base (bw_dev b)) (bw_content b ++ more)) as (r2 & more2 & es2 & (E2 & _) & _). rewrite E2. cbn [k_out]. right. split; [exact X'|]. apply spilled_more, S.
    + destruct (IH _ _ _ O R1) as (O1 & K1 & X). split; [exact O1|]. split; [exact K1|]. destruct (wdenote_appends p (k_base (bw_dev b)) (bw_content b)) as (r & more & es & (E & _) & _). rewrite E in *. cbn [k_out] in *.
      destruct X as [[<- C1]|[[X|X] S]]; [|discriminate..]. left. split; [reflexivity|exact C1].
Qed.

(** A device that takes all it can, as a function. *)
Definition greedy (k : sink) (bs : list byte) : N := match k_cap k with None => lenN bs | Some c => N.min (c - lenN (k_out k)) (lenN bs) end.
Definition all_fun (k : sink) (bs : list byte) : res unit * sink :=
  let n := greedy k bs in (if n =? lenN bs then Ok tt else Err EWrite, push (takeN n bs) k).
Definition flush_fun (b : bufwriter) : res unit * bufwriter :=
  let n := greedy (bw_dev b) (bw_buf b) in
  (if n =? lenN (bw_buf b) then Ok tt else Err EWrite, bw_set b (dropN n (bw_buf b)) (push (takeN n (bw_buf b)) (bw_dev b))).
Definition cold_fun (b : bufwriter) (bs : list byte) : res unit * bufwriter :=
  if bw_cap b <=? lenN bs then let '(r, k) := all_fun (bw_dev b) bs in (r, bw_set b (bw_buf b) k) else (Ok tt, bw_hold b bs).
Definition bw_all_fun (b : bufwriter) (bs : list byte) : res unit * bufwriter :=
  if lenN bs <? bw_spare b then (Ok tt, bw_hold b bs) else
  if lenN bs =? bw_spare b then cold_fun b bs else
  match flush_fun b with (Ok _, b1) => cold_fun b1 bs | (Err e, b1) => (Err e, b1) | (Panic w, b1) => (Panic w, b1) end.
Fixpoint bw_exec {A} (p : wprog A) : bufwriter -> res A * bufwriter :=
  match p with
  | WPure r => fun b => (r, b)
  | WAll bs => fun b => bw_all_fun b bs
  | WAllR bs => fun b => as_read (fun b => bw_all_fun b bs) b
  | WPosition => fun b => match flush_fun b with (Ok _, b1) => (Ok (k_pos (bw_dev b1)), b1) | (Err _, b1) => (Err EWrite, b1) | (Panic w, b1) => (Panic w, b1) end
  | WBind p f => fun b => match bw_exec p b with (Ok a, b1) => bw_exec (f a) b1 | (Err e, b1) => (Err e, b1) | (Panic w, b1) => (Panic w, b1) end
  end.

Lemma greedy_room k bs : within k -> room k (greedy k bs).
Proof. unfold room, greedy, within. destruct (k_cap k); lia. Qed.
Lemma greedy_le k bs : greedy k bs <= lenN bs.
Proof. unfold greedy. destruct (k_cap k); lia. Qed.
Lemma greedy_full k bs : within k -> greedy k bs < lenN bs -> ~ room (push (takeN (greedy k bs) bs) k) 1.
Proof. unfold room, greedy, within, push. cbn [k_cap k_out]. destruct (k_cap k) as [c|]; [|lia]. rewrite lenN_app, lenN_takeN. lia. Qed.
Lemma drop_some {A} n (l : list A) : n < lenN l -> dropN n l <> [].
Proof. intros H E. apply (f_equal lenN) in E. rewrite lenN_dropN, lenN_nil in E. lia. Qed.
Lemma drop_none {A} n (l : list A) : lenN l <= n -> dropN n l = [].
Proof. intros H. unfold dropN. apply skipn_all2. unfold lenN in H. lia. Qed.

Lemma all_fun_runs k bs : within k -> all_loop k bs (fst (all_fun k bs)) (snd (all_fun k bs)).
Proof.
  intros W. unfold all_fun. cbn [fst snd]. pose proof (greedy_le k bs) as L. pose proof (greedy_full k bs W) as F. pose proof (greedy_room k bs W) as R. set (n := greedy k bs) in *.
  destruct (N.eqb_spec n (lenN bs)) as [E|E].
  - destruct bs as [|x bs]; [rewrite takeN_nil0 || idtac; replace (takeN n []) with (@nil byte) by (rewrite E; reflexivity); rewrite push_nil; apply al_done|].
    eapply al_more; [discriminate|apply (dw_some k (x :: bs) n); [rewrite E, lenN_cons; lia|lia|exact R]|]. rewrite drop_none by lia. apply al_done.
  - assert (bs <> []) as NE by (intros ->; rewrite lenN_nil in *; lia). destruct (N.eq_dec n 0) as [Z|Z].
    + specialize (F ltac:(lia)). rewrite Z, takeN_nil0, push_nil in *. eapply al_refused; [exact NE|]. apply dw_refused; assumption.
    + eapply al_more; [exact NE|apply (dw_some k bs n); [lia|lia|exact R]|]. assert (dropN n bs <> []) by (apply drop_some; lia).
      eapply al_refused; [assumption|]. apply dw_refused; [assumption|]. apply F. lia.
Qed.
Lemma flush_fun_runs b : within (bw_dev b) -> bw_flush b (fst (flush_fun b)) (snd (flush_fun b)).
Proof.
  destruct b as [B buf k]. unfold flush_fun, bw_set. cbn [bw_cap bw_buf bw_dev fst snd]. intros W.
  pose proof (greedy_le k buf) as L. pose proof (greedy_full k buf W) as F. pose proof (greedy_room k buf W) as R. set (n := greedy k buf) in *.
  destruct (N.eqb_spec n (lenN buf)) as [E|E].
  - destruct buf as [|x bs]; [replace (takeN n []) with (@nil byte) by (rewrite E; reflexivity); replace (dropN n []) with (@nil byte) by (rewrite E; reflexivity); rewrite push_nil; apply fl_done; reflexivity|].
    eapply fl_more; [discriminate|apply (dw_some k (x :: bs) n); [rewrite E, lenN_cons; lia|lia|exact R]|]. unfold bw_set. cbn [bw_cap bw_buf bw_dev]. rewrite drop_none by lia. apply fl_done. reflexivity.
  - assert (buf <> []) as NE by (intros ->; rewrite lenN_nil in *; lia). destruct (N.eq_dec n 0) as [Z|Z].
    + specialize (F ltac:(lia)). rewrite Z, takeN_nil0, push_nil, dropN_0 in *. apply (fl_refused (mkBw B buf k)); [exact NE|]. apply dw_refused; assumption.
    + eapply fl_more; [exact NE|apply (dw_some k buf n); [lia|lia|exact R]|]. assert (dropN n buf <> []) by (apply drop_some; lia). unfold bw_set. cbn [bw_cap bw_buf bw_dev].
      apply (fl_refused (mkBw B (dropN n buf) (push (takeN n buf) k))); [assumption|]. apply dw_refused; [assumption|]. apply F. lia.
Qed.
Lemma cold_fun_runs b bs : within (bw_dev b) -> bw_cold b bs (fst (cold_fun b bs)) (snd (cold_fun b bs)).
Proof.
  intros W. unfold cold_fun. destruct (N.leb_spec (bw_cap b) (lenN bs)) as [L|L].
  - pose proof (all_fun_runs _ bs W) as R. destruct (all_fun (bw_dev b) bs) as [r k]. apply bc_bypass; assumption.
  - apply bc_hold. exact L.
Qed.
Lemma bw_all_fun_runs b bs : bw_ok b -> bw_all b bs (fst (bw_all_fun b bs)) (snd (bw_all_fun b bs)).
Proof.
  intros O. unfold bw_all_fun. destruct (N.ltb_spec (lenN bs) (bw_spare b)) as [L|L]; [apply ba_hold, L|]. destruct (N.eqb_spec (lenN bs) (bw_spare b)) as [E|E].
  - apply ba_fits; [exact E|]. apply cold_fun_runs, O.
  - pose proof (flush_fun_runs b (proj2 O)) as F. destruct (flush_fun b) as [[[]|e|w] b1]; cbn [fst snd] in *.
    + eapply ba_flush; [lia|exact F|]. apply cold_fun_runs. apply (flush_sound _ _ _ F O).
    + eapply ba_failed; [lia|exact F].
    + destruct (flush_sound _ _ _ F O) as (_ & _ & _ & _ & [[X _]|[X _]]); discriminate.
Qed.
Lemma bw_exec_runs {A} (p : wprog A) : forall b, bw_ok b -> wruns buf_drain p b (fst (bw_exec p b)) (snd (bw_exec p b)).
Proof.
  induction p as [A r|bs|bs| |A B p IH f IHf]; intros b O; cbn [wruns bw_exec buf_drain dn_all dn_position].
  - split; reflexivity.
  - apply bw_all_fun_runs, O.
  - pose proof (bw_all_fun_runs b bs O) as R. unfold as_read. destruct (bw_all_fun b bs) as [y b1]. cbn [fst snd] in *. eauto.
  - unfold bw_position. pose proof (flush_fun_runs b (proj2 O)) as F. destruct (flush_fun b) as [[[]|e|w] b1]; cbn [fst snd] in *; [left; auto|right; eauto 6|].
    destruct (flush_sound _ _ _ F O) as (_ & _ & _ & _ & [[X _]|[X _]]); discriminate.
  - specialize (IH b O). destruct (bw_exec p b) as [[a|e|w] b1]; cbn [fst snd] in *; [|right; left; eauto|right; right; eauto].
    left. exists a, b1. split; [exact IH|]. apply IHf. apply (bw_sound _ _ _ _ O IH).
Qed.

(** ** C111 *)
Definition wperforms {A} (p : wprog A) (m : writer A) : Prop := forall k, wdenote p k = m k.
(** What a device with a limit keeps. *)
Definition kept (cap : option N) (bytes : list byte) : list byte := match cap with None => bytes | Some c => takeN c bytes end.

Lemma device_written {A} (m : writer A) p : wperforms p m -> forall base cap,
  let k := mkSink base [] cap in
  (exists x k', wruns dev_drain p k x k') /\ forall x k', wruns dev_drain p k x k' -> m k = (x, k').
Proof.
  intros P base cap k. split; [apply dev_ends|]. intros x k' R. rewrite <- P. apply (dev_result p k x k'); [|exact R].
  unfold within, k. cbn [k_cap k_out]. destruct cap; [rewrite lenN_nil; lia|exact I].
Qed.

Lemma bufwriter_written {A} (m : writer A) p : wperforms p m ->
  forall B base cap r bytes, m (mkSink base [] None) = (r, mkSink base bytes None) ->
  let b0 := mkBw B [] (mkSink base [] cap) in
  (exists x b, wruns buf_drain p b0 x b) /\
  forall x b, wruns buf_drain p b0 x b ->
    (x = r \/ (io_failed x /\ exists c, cap = Some c /\ c < lenN bytes)) /\
    (exists k, bw_drop b k) /\ (forall k, bw_drop b k -> k = mkSink base (kept cap bytes) cap) /\
    (forall a b', x = Ok a -> bw_flush b (Ok tt) b' -> bw_dev b' = mkSink base bytes cap) /\
    (forall c, cap = Some c -> c + B < lenN bytes -> io_failed x).
Proof.
  intros P B base cap r bytes M b0. assert (bw_ok b0) as O0.
  { split; cbn [b0 bw_buf bw_cap bw_dev]; [rewrite lenN_nil; lia|]. unfold within. cbn [k_cap k_out]. destruct cap; [rewrite lenN_nil; lia|exact I]. }
  split; [do 2 eexists; apply bw_exec_runs, O0|]. intros x b R. destruct (bw_sound p b0 x b O0 R) as (O & (KB & KBase & KC) & X).
  unfold bw_content in X at 1. cbn [b0 bw_dev bw_buf k_base k_out app] in X. rewrite P, M in X. cbn [k_out] in X. cbn [b0 bw_dev bw_cap k_base k_cap] in KB, KBase, KC.
  assert (forall k0, k_base k0 = base -> k_cap k0 = cap -> k0 = mkSink base (k_out k0) cap) as EK by (intros [? ? ?]; cbn; congruence).
  split; [destruct X as [[-> _]|[X (c & K & L & _)]]; [auto|right; split; [exact X|exists c; split; [congruence|exact L]]]|].
  split; [pose proof (flush_fun_runs b (proj2 O)) as F; do 3 eexists; split; [exact F|reflexivity]|]. split; [|split].
  - intros k (r1 & b1 & F & ->). destruct (flush_sound _ _ _ F O) as (O1 & (KB1 & KBase1 & KC1) & C1 & (more & M1) & Y). rewrite (EK (bw_dev b1)) by congruence. f_equal.
    destruct X as [[_ C]|[_ (c & K & L & E)]].
    + destruct Y as [[_ E1]|(_ & NE & NR)].
      * rewrite C in C1. unfold bw_content in C1. rewrite E1, app_nil_r in C1. rewrite C1. unfold kept. destruct cap as [c|]; [|reflexivity]. destruct O1 as [_ W]. unfold within in W. rewrite KC1, KC, C1 in W.
        symmetry. unfold takeN. apply firstn_all2. unfold lenN in W. lia.
      * destruct (full_cap _ NR) as [c K]. assert (cap = Some c) as -> by congruence. cbn [kept]. rewrite <- C, <- C1. unfold bw_content. symmetry. apply full_takes; [apply O1|exact NR|congruence].
    + assert (cap = Some c) as -> by congruence. cbn [kept]. rewrite M1, E. destruct O1 as [_ W]. unfold within in W. rewrite KC1, KC, M1, E, lenN_app, lenN_takeN in W.
      destruct more as [|z more]; [apply app_nil_r|]. rewrite lenN_cons in W. lia.
  - intros a b1 -> F. destruct (flush_sound _ _ _ F O) as (O1 & (KB1 & KBase1 & KC1) & C1 & _ & [[_ E1]|[Y _]]); [|discriminate]. rewrite (EK (bw_dev b1)) by congruence. f_equal.
    destruct X as [[_ C]|[[X|X] _]]; [|discriminate..]. rewrite C in C1. unfold bw_content in C1. rewrite E1, app_nil_r in C1. exact C1.
  - intros c -> L. destruct X as [[_ C]|[X _]]; [|exact X]. exfalso. destruct O as [LB W]. unfold within in W. rewrite KC in W. apply (f_equal lenN) in C. unfold bw_content in C. rewrite lenN_app in C. lia.
Qed.

(** ** The writers of /repo are programs *)
Definition wcode {A} (m : writer A) : Type := { p : wprog A | wperforms p m }.
Definition wcode_lift {A} (r : res A) : wcode (lift r). Proof. exists (WPure r). intros k. reflexivity. Defined.
Definition wcode_ret {A} (a : A) : wcode (ret a). Proof. exists (WPure (Ok a)). intros k. reflexivity. Defined.
Definition wcode_fail {A} e : wcode (@fail sink A e). Proof. exists (WPure (Err e)). intros k. reflexivity. Defined.
Definition wcode_bytes bs : wcode (write_bytes bs). Proof. exists (WAll bs). intros k. reflexivity. Defined.
Definition wcode_as_read bs : wcode (as_read (write_bytes bs)). Proof. exists (WAllR bs). intros k. reflexivity. Defined.
Definition wcode_position : wcode wposition. Proof. exists WPosition. intros k. reflexivity. Defined.
Definition wcode_bind {A B} (m : writer A) (f : A -> writer B) : wcode m -> (forall a, wcode (f a)) -> wcode (bind m f).
Proof.
  intros [p P] K. exists (WBind p (fun a => proj1_sig (K a))). intros k. cbn [wdenote]. unfold bind. rewrite (P k).
  destruct (m k) as [[a|e|w] k1]; [|reflexivity..]. apply (proj2_sig (K a)).
Defined.
Definition wcode_for_each {A} (l : list A) (f : A -> writer unit) : (forall a, wcode (f a)) -> wcode (for_each l f).
Proof. intros H. induction l as [|a l IH]; cbn [for_each]; [apply wcode_ret|]. apply wcode_bind; [apply H|intros _; exact IH]. Defined.

Ltac wcodes :=
  repeat (cbv zeta; match goal with
  | |- wcode (bind _ _) => apply wcode_bind; [|intros ?]
  | |- wcode (ret _) => apply wcode_ret
  | |- wcode (lift _) => apply wcode_lift
  | |- wcode (fail _) => apply wcode_fail
  | |- wcode wposition => apply wcode_position
  | |- wcode (write_bytes _) => apply wcode_bytes
  | |- wcode (write_u8 _) => apply wcode_bytes
  | |- wcode write_entry_type => apply wcode_as_read
  | |- wcode (write_u32 _) => apply wcode_bytes
  | |- wcode (write_u64 _) => apply wcode_bytes
  | |- wcode (for_each _ _) => apply wcode_for_each; intros ?
  | |- wcode (match ?x with _ => _ end) => destruct x
  | H : _ |- _ => apply H
  end).

Definition wcode_f32s l : wcode (write_f32s l). Proof. unfold write_f32s. wcodes. Defined.
Definition wcode_string s : wcode (write_string s). Proof. unfold write_string. wcodes. Defined.
Definition wcode_items l : wcode (write_items l). Proof. unfold write_items. wcodes. apply wcode_string. Defined.
Definition wcode_header l : wcode (write_header l). Proof. unfold write_header. wcodes. Defined.
Definition wcode_metadata T t : wcode (write_metadata T t). Proof. unfold write_metadata. wcodes. Defined.
Definition wcode_norms l : wcode (write_norms l). Proof. unfold write_norms. wcodes. apply wcode_f32s. Defined.
Definition wcode_ndarray a : wcode (write_ndarray a). Proof. unfold write_ndarray. wcodes. apply wcode_f32s. Defined.
Definition wcode_quantized q : wcode (write_quantized q). Proof. unfold write_quantized. wcodes; apply wcode_f32s. Defined.
Definition wcode_mmap_ndarray a : wcode (write_mmap_ndarray a). Proof. unfold write_mmap_ndarray. wcodes; apply wcode_ndarray. Defined.
Definition wcode_mmap_quantized a : wcode (write_mmap_quantized a). Proof. unfold write_mmap_quantized. wcodes; apply wcode_quantized. Defined.
Definition wcode_storage s : wcode (write_storage_wrap s).
Proof. destruct s; cbn [write_storage_wrap]; [apply wcode_ndarray|apply wcode_quantized|apply wcode_mmap_ndarray|apply wcode_mmap_quantized]. Defined.
Definition wcode_storage_view s : wcode (write_storage_view_wrap s).
Proof. destruct s; cbn [write_storage_view_wrap]; [apply wcode_ndarray|apply wcode_mmap_ndarray]. Defined.
Definition wcode_vocab v : wcode (write_vocab_wrap v).
Proof.
  destruct v; cbn [write_vocab_wrap]; unfold write_explicit, write_ngrams_with_indices, write_bucketed, write_floret, write_simple; wcodes;
    first [apply wcode_items | apply wcode_string].
Defined.
Definition wcode_embeddings T {V S} (VC : chunk_ops V) (SC : chunk_ops S) e :
  wcode (ck_write VC (em_vocab e)) -> wcode (ck_write SC (em_storage e)) -> wcode (write_embeddings T VC SC e).
Proof. intros HV HS. unfold write_embeddings. wcodes; first [apply wcode_header|apply wcode_metadata|apply wcode_norms]. Defined.
Definition wcode_file T (e : emb T) : wcode (write_file T e).
Proof. apply wcode_embeddings; [apply wcode_vocab|apply wcode_storage]. Defined.
Definition wcode_text P {Md V S} (VO : vocab_ops V) (SO : storage_ops f32 S) u (e : embeddings Md V S f32) : wcode (write_text P VO SO u e).
Proof. unfold write_text. wcodes. Defined.
Definition wcode_text_dims P {Md V S} (VO : vocab_ops V) (SO : storage_ops f32 S) u (e : embeddings Md V S f32) : wcode (write_text_dims P VO SO u e).
Proof. unfold write_text_dims. wcodes. apply wcode_text. Defined.
Definition wcode_word2vec {Md V S} (VO : vocab_ops V) (SO : storage_ops f32 S) u (e : embeddings Md V S f32) : wcode (write_word2vec VO SO u e).
Proof. unfold write_word2vec. wcodes. apply wcode_f32s. Defined.
Definition wcode_floret_text P pf {Md} (e : embeddings Md (subword_vocab floret_indexer) (array2 f32) f32) : wcode (write_floret_text P pf e).
Proof. unfold write_floret_text. wcodes. Defined.
Definition wcode_fasttext pf T {S} (SO : storage_ops f32 S) (e : embeddings (toml_table T) (subword_vocab ft_indexer) S f32) : wcode (write_fasttext pf T SO e).
Proof. unfold write_fasttext, write_config, write_ft_vocab, write_ft_matrix. wcodes; apply wcode_f32s. Defined.

Lemma file_wprogram T {V S} (VC : chunk_ops V) (SC : chunk_ops S) e pv ps :
  wperforms pv (ck_write VC (em_vocab e)) -> wperforms ps (ck_write SC (em_storage e)) -> exists p, wperforms p (write_embeddings T VC SC e).
Proof. intros HV HS. destruct (wcode_embeddings T VC SC e (exist (fun p => wperforms p _) pv HV) (exist (fun p => wperforms p _) ps HS)) as [p P]. eauto. Qed.
Lemma chunk_wprograms : (forall v, exists p, wperforms p (write_vocab_wrap v)) /\ (forall s, exists p, wperforms p (write_storage_wrap s)) /\
  (forall s, exists p, wperforms p (write_storage_view_wrap s)) /\ (forall T t, exists p, wperforms p (write_metadata T t)) /\ (forall l, exists p, wperforms p (write_norms l)).
Proof.
  split; [|split; [|split; [|split]]]; intros.
  - destruct (wcode_vocab v) as [p P]; eauto.
  - destruct (wcode_storage s) as [p P]; eauto.
  - destruct (wcode_storage_view s) as [p P]; eauto.
  - destruct (wcode_metadata T t) as [p P]; eauto.
  - destruct (wcode_norms l) as [p P]; eauto.
Qed.

(** ** C112: nothing is noticed while everything is held back *)
Fixpoint plain {A} (p : wprog A) : Prop :=
  match p with
  | WPure _ => True
  | WAll _ => True
  | WAllR _ => True
  | WPosition => False
  | WBind p f => plain p /\ forall a, plain (f a)
  end.
Lemma plain_holds {A} (p : wprog A) : plain p -> forall b x b' , wruns buf_drain p b x b' ->
  lenN (k_out (snd (wdenote p (mkSink (k_base (bw_dev b)) (bw_buf b) None)))) < bw_cap b ->
  bw_dev b' = bw_dev b /\ bw_cap b' = bw_cap b /\ wdenote p (mkSink (k_base (bw_dev b)) (bw_buf b) None) = (x, mkSink (k_base (bw_dev b)) (bw_buf b') None).
Proof.
  induction p as [A r|bs|bs| |A B p IH f IHf]; intros PL b x b' R L; cbn [wruns wdenote buf_drain dn_all dn_position plain] in *.
  - destruct R as [-> ->]. auto.
  - cbn in L. rewrite lenN_app in L. unfold write_bytes, push. cbn [k_cap k_base k_out]. inversion R as [b0 bs0 L1|b0 bs0 r0 b2 L1 CO|b0 bs0 b1 r0 b2 L1 F CO|b0 bs0 e b1 L1 F]; subst; unfold bw_spare in L1; [|lia..].
    repeat split.
  - destruct R as (y & R & ->). cbn in L. rewrite lenN_app in L. unfold as_read, write_bytes, push. cbn [k_cap k_base k_out]. inversion R as [b0 bs0 L1|b0 bs0 r0 b2 L1 CO|b0 bs0 b1 r0 b2 L1 F CO|b0 bs0 e b1 L1 F]; subst; unfold bw_spare in L1; [|lia..].
    repeat split.
  - contradiction.
  - destruct PL as [PL PF]. pose proof (wdenote_appends p (k_base (bw_dev b)) (bw_buf b)) as (r1 & more & es1 & (E1 & _) & _). unfold bind in *. rewrite E1 in *.
    assert (forall y b1, wruns buf_drain p b y b1 -> lenN (bw_buf b ++ more) < bw_cap b -> bw_dev b1 = bw_dev b /\ bw_cap b1 = bw_cap b /\ r1 = y /\ bw_buf b1 = bw_buf b ++ more) as U.
    { intros y b1 R1 L1. destruct (IH PL b y b1 R1) as (D1 & C1 & E); [rewrite E1; exact L1|]. rewrite E1 in E. apply pair_equal_spec in E as [-> E]. injection E as ->. auto. }
    assert (lenN (bw_buf b ++ more) < bw_cap b) as L1.
    { destruct r1 as [a|e|w]; cbn [snd k_out] in L; [|exact L..]. destruct (wdenote_appends (f a) (k_base (bw_dev b)) (bw_buf b ++ more)) as (r2 & more2 & es2 & (E2 & _) & _).
      rewrite E2 in L. cbn [snd k_out] in L. rewrite lenN_app in L. lia. }
    destruct R as [(a & b1 & R1 & R2)|[(e & R1 & ->)|(w & R1 & ->)]]; destruct (U _ _ R1 L1) as (D1 & C1 & -> & B1).
    + specialize (IHf a (PF a) b1 x b' R2). rewrite D1, C1, B1 in IHf. destruct (IHf L) as (D2 & C2 & E2). auto.
    + rewrite B1. auto.
    + rewrite B1. auto.
Qed.

Definition pcode {A} (m : writer A) : Type := { p : wprog A | wperforms p m /\ plain p }.
Definition pcode_lift {A} (r : res A) : pcode (lift r). Proof. exists (WPure r). split; [intros k; reflexivity|exact I]. Defined.
Definition pcode_ret {A} (a : A) : pcode (ret a). Proof. exists (WPure (Ok a)). split; [intros k; reflexivity|exact I]. Defined.
Definition pcode_fail {A} e : pcode (@fail sink A e). Proof. exists (WPure (Err e)). split; [intros k; reflexivity|exact I]. Defined.
Definition pcode_bytes bs : pcode (write_bytes bs). Proof. exists (WAll bs). split; [intros k; reflexivity|exact I]. Defined.
Definition pcode_as_read bs : pcode (as_read (write_bytes bs)). Proof. exists (WAllR bs). split; [intros k; reflexivity|exact I]. Defined.
Definition pcode_bind {A B} (m : writer A) (f : A -> writer B) : pcode m -> (forall a, pcode (f a)) -> pcode (bind m f).
Proof.
  intros [p [P Q]] K. exists (WBind p (fun a => proj1_sig (K a))). split; [|split; [exact Q|intros a; apply (proj2_sig (K a))]].
  intros k. cbn [wdenote]. unfold bind. rewrite (P k). destruct (m k) as [[a|e|w] k1]; [|reflexivity..]. apply (proj2_sig (K a)).
Defined.
Definition pcode_for_each {A} (l : list A) (f : A -> writer unit) : (forall a, pcode (f a)) -> pcode (for_each l f).
Proof. intros H. induction l as [|a l IH]; cbn [for_each]; [apply pcode_ret|]. apply pcode_bind; [apply H|intros _; exact IH]. Defined.
Ltac pcodes :=
  repeat (cbv zeta; match goal with
  | |- pcode (bind _ _) => apply pcode_bind; [|intros ?]
  | |- pcode (ret _) => apply pcode_ret
  | |- pcode (lift _) => apply pcode_lift
  | |- pcode (fail _) => apply pcode_fail
  | |- pcode (write_bytes _) => apply pcode_bytes
  | |- pcode (write_u8 _) => apply pcode_bytes
  | |- pcode write_entry_type => apply pcode_as_read
  | |- pcode (write_u32 _) => apply pcode_bytes
  | |- pcode (write_u64 _) => apply pcode_bytes
  | |- pcode (for_each _ _) => apply pcode_for_each; intros ?
  | |- pcode (match ?x with _ => _ end) => destruct x
  end).
Definition pcode_f32s l : pcode (write_f32s l). Proof. unfold write_f32s. pcodes. Defined.
Definition pcode_text P {Md V S} (VO : vocab_ops V) (SO : storage_ops f32 S) u (e : embeddings Md V S f32) : pcode (write_text P VO SO u e).
Proof. unfold write_text. pcodes. Defined.
Definition pcode_text_dims P {Md V S} (VO : vocab_ops V) (SO : storage_ops f32 S) u (e : embeddings Md V S f32) : pcode (write_text_dims P VO SO u e).
Proof. unfold write_text_dims. pcodes. apply pcode_text. Defined.
Definition pcode_word2vec {Md V S} (VO : vocab_ops V) (SO : storage_ops f32 S) u (e : embeddings Md V S f32) : pcode (write_word2vec VO SO u e).
Proof. unfold write_word2vec. pcodes. apply pcode_f32s. Defined.
Definition pcode_floret_text P pf {Md} (e : embeddings Md (subword_vocab floret_indexer) (array2 f32) f32) : pcode (write_floret_text P pf e).
Proof. unfold write_floret_text. pcodes. Defined.
Definition pcode_fasttext pf T {S} (SO : storage_ops f32 S) (e : embeddings (toml_table T) (subword_vocab ft_indexer) S f32) : pcode (write_fasttext pf T SO e).
Proof. unfold write_fasttext, write_config, write_ft_vocab, write_ft_matrix. pcodes; apply pcode_f32s. Defined.

Lemma text_wprograms P {Md V S} (VO : vocab_ops V) (SO : storage_ops f32 S) u (e : embeddings Md V S f32) :
  (exists p, wperforms p (write_text P VO SO u e) /\ plain p) /\ (exists p, wperforms p (write_text_dims P VO SO u e) /\ plain p) /\
  (exists p, wperforms p (write_word2vec VO SO u e) /\ plain p).
Proof. destruct (pcode_text P VO SO u e) as [p1 H1], (pcode_text_dims P VO SO u e) as [p2 H2], (pcode_word2vec VO SO u e) as [p3 H3]. eauto 8. Qed.
Lemma floret_wprogram P pf {Md} (e : embeddings Md (subword_vocab floret_indexer) (array2 f32) f32) : exists p, wperforms p (write_floret_text P pf e) /\ plain p.
Proof. destruct (pcode_floret_text P pf e) as [p H]. eauto. Qed.
Lemma fasttext_wprogram pf T {S} (SO : storage_ops f32 S) (e : embeddings (toml_table T) (subword_vocab ft_indexer) S f32) : exists p, wperforms p (write_fasttext pf T SO e) /\ plain p.
Proof. destruct (pcode_fasttext pf T SO e) as [p H]. eauto. Qed.

(** A writer of /repo that does not ask for its position never notices what
    happens to the last [B] bytes. *)
Lemma plain_unnoticed {A} (m : writer A) p : wperforms p m -> plain p ->
  forall B base cap r bytes, m (mkSink base [] None) = (r, mkSink base bytes None) -> lenN bytes < B ->
  forall x b, wruns buf_drain p (mkBw B [] (mkSink base [] cap)) x b -> x = r /\ bw_dev b = mkSink base [] cap.
Proof.
  intros P PL B base cap r bytes M L x b R. destruct (plain_holds p PL _ _ _ R) as (D & _ & E); cbn [bw_dev bw_buf bw_cap k_base].
  - rewrite P, M. exact L.
  - cbn [bw_dev bw_buf k_base] in E. rewrite P, M in E. apply pair_equal_spec in E as [-> _]. auto.
Qed.
