(** * The hash functions of the model are the published ones. *)
From Coq Require Import Lia ZifyBool ZifyNat ZifyN.
From Verif Require Import Base BaseFacts Utf8 Utf8Facts Subword Vocab FileSpec VocabSpec VocabFacts IndexerFacts HashSpec.
From Verif Require LookupExact.
Local Open Scope N_scope.

Lemma two64_pow : two64 = 2 ^ 64.
Proof. reflexivity. Qed.

Lemma app_eq_length {A} (a b c d : list A) : a ++ b = c ++ d -> length a = length c -> a = c /\ b = d.
Proof.
  revert c. induction a as [|x a IH]; intros [|y c] E L; try discriminate; [auto|]. cbn [app] in E. injection E as -> E.
  destruct (IH c E) as [-> ->]; [injection L as L; exact L|auto].
Qed.

(** ** Words *)
Lemma mod64_is x : is_mod64 x (x mod two64).
Proof.
  rewrite two64_pow. split; [apply N.mod_lt; discriminate|]. exists (x / 2 ^ 64).
  rewrite (N.div_mod x (2 ^ 64)) at 1 by discriminate. lia.
Qed.
Lemma mod64_eq x y : is_mod64 x y -> y = x mod two64.
Proof. rewrite two64_pow. intros [L [k ->]]. rewrite N.mod_add by discriminate. symmetry. apply N.mod_small. exact L. Qed.
Lemma mod64_lt x y : is_mod64 x y -> y < 2 ^ 64.
Proof. intros [L _]. exact L. Qed.

Lemma testbit_high x n i : x < 2 ^ n -> n <= i -> N.testbit x i = false.
Proof.
  intros H L. destruct (N.eq_dec x 0) as [->|NZ]; [apply N.bits_0|]. apply N.bits_above_log2.
  enough (N.log2 x < n) by lia. apply N.log2_lt_pow2; lia.
Qed.
Lemma bits_lt x n : (forall i, n <= i -> N.testbit x i = false) -> x < 2 ^ n.
Proof.
  intros H. destruct (N.lt_ge_cases x (2 ^ n)) as [|L]; [assumption|]. exfalso.
  assert (x <> 0) as NZ by (pose proof (N.pow_nonzero 2 n); lia).
  pose proof (N.bit_log2 x NZ) as B. rewrite H in B; [discriminate|]. apply N.log2_le_pow2; lia.
Qed.
Lemma lxor_lt x y n : x < 2 ^ n -> y < 2 ^ n -> N.lxor x y < 2 ^ n.
Proof.
  intros X Y. apply bits_lt. intros i L. rewrite N.lxor_spec, !(testbit_high _ n) by assumption. reflexivity.
Qed.

Lemma rotl_rotated x r : x < 2 ^ 64 -> 0 < r < 64 -> rotated x r (rotl64 x r).
Proof.
  intros X R. unfold rotl64. rewrite two64_pow. split.
  - apply bits_lt. intros i L. rewrite N.lor_spec, N.mod_pow2_bits_high by assumption.
    rewrite N.shiftr_spec'. cbn [orb]. apply (testbit_high _ 64); [exact X|lia].
  - intros i L. rewrite N.lor_spec. destruct (N.lt_ge_cases (i + r) 64) as [C|C].
    + rewrite (N.mod_small (i + r)) by exact C. rewrite N.mod_pow2_bits_low by exact C.
      rewrite N.shiftl_spec_high' by lia. replace (i + r - r) with i by lia.
      rewrite N.shiftr_spec', (testbit_high x 64 (i + r + (64 - r))); [|exact X|lia]. apply Bool.orb_false_r.
    + replace ((i + r) mod 64) with (i + r - 64).
      2:{ apply (N.mod_unique _ _ 1); lia. }
      rewrite N.mod_pow2_bits_low by lia. rewrite N.shiftl_spec_low by lia.
      rewrite N.shiftr_spec'. cbn [orb]. f_equal. lia.
Qed.
Lemma rotated_unique x r y y' : r <= 64 -> rotated x r y -> rotated x r y' -> y = y'.
Proof.
  intros R [L H] [L' H']. apply N.bits_inj. intros j. destruct (N.lt_ge_cases j 64) as [C|C].
  - set (i := (j + (64 - r)) mod 64). assert (i < 64) as I by (apply N.mod_lt; discriminate).
    assert ((i + r) mod 64 = j) as E.
    { unfold i. rewrite N.add_mod_idemp_l by discriminate. replace (j + (64 - r) + r) with (j + 1 * 64) by lia.
      rewrite N.mod_add by discriminate. apply N.mod_small. exact C. }
    rewrite <- E, H, H' by exact I. reflexivity.
  - rewrite !(testbit_high _ 64) by assumption. reflexivity.
Qed.
Lemma rotated_eq x r y : x < 2 ^ 64 -> 0 < r < 64 -> rotated x r y -> y = rotl64 x r.
Proof. intros X R H. apply (rotated_unique x r); [lia|exact H|apply rotl_rotated; assumption]. Qed.

Lemma word_le bs : word_of bs (le_value bs).
Proof.
  induction bs as [|b bs IH]; intros i.
  - destruct (N.to_nat (i / 8)); apply N.bits_0.
  - cbn [le_value]. pose proof (bN_lt b) as B. destruct (N.lt_ge_cases i 8) as [L|L].
    + rewrite (N.div_small i 8), (N.mod_small i 8) by exact L. cbn [N.to_nat nth_error].
      rewrite <- (N.mod_pow2_bits_low _ 8) by exact L. change (2 ^ 8) with 256.
      replace (bN b + 256 * le_value bs) with (bN b + le_value bs * 256) by lia. rewrite N.mod_add by discriminate.
      rewrite N.mod_small by exact B. reflexivity.
    + assert (i = i - 8 + 8) as Ei by lia. rewrite Ei at 1. rewrite <- N.div_pow2_bits. change (2 ^ 8) with 256.
      replace ((bN b + 256 * le_value bs) / 256) with (le_value bs).
      2:{ apply (N.div_unique _ _ _ (bN b)); lia. }
      rewrite IH. assert (i / 8 = (i - 8) / 8 + 1) as E.
      { rewrite Ei at 1. replace (i - 8 + 8) with (i - 8 + 1 * 8) by lia. apply N.div_add. discriminate. }
      assert (i mod 8 = (i - 8) mod 8) as E2.
      { rewrite Ei at 1. replace (i - 8 + 8) with (i - 8 + 1 * 8) by lia. apply N.mod_add. discriminate. }
      rewrite E, E2, N.add_1_r, N2Nat.inj_succ. reflexivity.
Qed.
Lemma word_eq bs k : word_of bs k -> k = le_value bs.
Proof. intros H. apply N.bits_inj. intros i. rewrite H. symmetry. apply word_le. Qed.
Lemma word_small bs k : word_of bs k -> k < 256 ^ lenN bs.
Proof. intros H. apply word_eq in H as ->. apply le_value_lt. Qed.

(** ** FNV-1a *)
Lemma fnv64_snoc bs b : fnv64 (bs ++ [b]) = fnv64_step (fnv64 bs) b.
Proof. unfold fnv64. rewrite fold_left_app. reflexivity. Qed.

Lemma fnv64_is bs : fnv1a64 bs (fnv64 bs).
Proof.
  induction bs as [|b bs IH] using rev_ind; [exact fnv_start|]. rewrite fnv64_snoc.
  destruct (mod64_is (N.lxor (fnv64 bs) (bN b) * 1099511628211)) as [L E]. econstructor; [exact IH|exact L|exact E].
Qed.
Lemma fnv64_eq bs h : fnv1a64 bs h -> h = fnv64 bs.
Proof.
  induction 1 as [|bs b h h' _ IH L E]; [reflexivity|]. rewrite fnv64_snoc, <- IH. unfold fnv64_step.
  apply mod64_eq. split; assumption.
Qed.

(** ** MurmurHash3 *)
Lemma mixed_eq c r c' k y : 0 < r < 64 -> mixed c r c' k y -> y = mul64w (rotl64 (mul64w k c) r) c'.
Proof.
  intros R (a & b & A & B & C). pose proof (mod64_lt _ _ A) as L. apply rotated_eq in B; [|exact L|exact R].
  apply mod64_eq in A. apply mod64_eq in C. subst. reflexivity.
Qed.
Lemma mixed_is c r c' k : 0 < r < 64 -> mixed c r c' k (mul64w (rotl64 (mul64w k c) r) c').
Proof.
  intros R. exists (mul64w k c), (rotl64 (mul64w k c) r). split; [apply mod64_is|]. split; [|apply mod64_is].
  apply rotl_rotated; [|exact R]. exact (mod64_lt _ _ (mod64_is _)).
Qed.
Lemma mixed1_eq k y : mixed1 k y -> y = mm_k1 k.
Proof. intros H. apply mixed_eq in H; [exact H|lia]. Qed.
Lemma mixed2_eq k y : mixed2 k y -> y = mm_k2 k.
Proof. intros H. apply mixed_eq in H; [exact H|lia]. Qed.
Lemma mixed1_is k : mixed1 k (mm_k1 k).
Proof. apply mixed_is. lia. Qed.
Lemma mixed2_is k : mixed2 k (mm_k2 k).
Proof. apply mixed_is. lia. Qed.
Lemma mixed_lt c r c' k y : mixed c r c' k y -> y < 2 ^ 64.
Proof. intros (a & b & _ & _ & H). exact (mod64_lt _ _ H). Qed.

Definition block1 (h1 h2 k1 : N) : N := add64w (mul64w (add64w (rotl64 (N.lxor h1 (mm_k1 k1)) 27) h2) 5) 0x52dce729.
Definition block2 (h1' h2 k2 : N) : N := add64w (mul64w (add64w (rotl64 (N.lxor h2 (mm_k2 k2)) 31) h1') 5) 0x38495ab5.

Lemma wrap_mul_add x y m c : add64w (mul64w (add64w x y) m) c = ((x + y) * m + c) mod two64.
Proof.
  unfold add64w, mul64w. rewrite N.mul_mod_idemp_l by discriminate. rewrite N.add_mod_idemp_l by discriminate. reflexivity.
Qed.

Lemma mm_block f w1 w2 rest h1 h2 : lenN w1 = 8 -> lenN w2 = 8 ->
  mm_body (S f) ((w1 ++ w2) ++ rest) h1 h2 =
  mm_body f rest (block1 h1 h2 (le_value w1)) (block2 (block1 h1 h2 (le_value w1)) h2 (le_value w2)).
Proof.
  intros L1 L2. cbn [mm_body]. rewrite !lenN_app.
  replace (16 <=? lenN w1 + lenN w2 + lenN rest) with true by lia.
  assert (length w1 = 8%nat /\ length w2 = 8%nat) as [N1 N2] by (unfold lenN in *; lia).
  assert (firstn 8 ((w1 ++ w2) ++ rest) = w1) as ->.
  { rewrite <- app_assoc, <- N1. rewrite firstn_app, firstn_all, Nat.sub_diag. apply app_nil_r. }
  assert (skipn 8 ((w1 ++ w2) ++ rest) = w2 ++ rest) as ->.
  { rewrite <- app_assoc, <- N1. rewrite skipn_app, skipn_all, Nat.sub_diag. reflexivity. }
  assert (firstn 8 (w2 ++ rest) = w2) as ->.
  { rewrite <- N2. rewrite firstn_app, firstn_all, Nat.sub_diag. apply app_nil_r. }
  assert (skipn 16 ((w1 ++ w2) ++ rest) = rest) as ->.
  { assert (length (w1 ++ w2) = 16%nat) as E by (rewrite app_length; lia). rewrite <- E.
    rewrite skipn_app, skipn_all, Nat.sub_diag. reflexivity. }
  reflexivity.
Qed.

Lemma blocks_small seed bs h1 h2 : seed < 2 ^ 64 -> murmur_blocks seed bs h1 h2 -> h1 < 2 ^ 64 /\ h2 < 2 ^ 64.
Proof.
  intros S H. inv H; [auto|]. split; eapply mod64_lt; eassumption.
Qed.

Lemma blocks_run seed bs h1 h2 : seed < 2 ^ 64 -> murmur_blocks seed bs h1 h2 ->
  exists n, length bs = (16 * n)%nat /\ forall f rest, mm_body (n + f) (bs ++ rest) seed seed = mm_body f rest h1 h2.
Proof.
  intros S H. induction H as [|bs w1 w2 h1 h2 k1 k2 m1 m2 r1 r2 h1' h2' H (n & L & IH) L1 L2 W1 M1 R1 E1 W2 M2 R2 E2].
  - exists 0%nat. split; [reflexivity|]. reflexivity.
  - exists (n + 1)%nat. split; [rewrite !app_length; unfold lenN in *; lia|]. intros f rest.
    replace (n + 1 + f)%nat with (n + Datatypes.S f)%nat by lia. rewrite <- app_assoc, IH. rewrite mm_block by assumption.
    destruct (blocks_small _ _ _ _ S H) as [B1 B2].
    pose proof (mixed_lt _ _ _ _ _ M1) as Q1. pose proof (mixed_lt _ _ _ _ _ M2) as Q2.
    apply rotated_eq in R1; [|apply lxor_lt; assumption|lia]. apply rotated_eq in R2; [|apply lxor_lt; assumption|lia].
    apply word_eq in W1. apply word_eq in W2. apply mixed1_eq in M1. apply mixed2_eq in M2. subst.
    apply mod64_eq in E1. apply mod64_eq in E2. unfold block1, block2. rewrite !wrap_mul_add. rewrite <- E1, <- E2. reflexivity.
Qed.

Lemma blocks_exist seed n bs : seed < 2 ^ 64 -> length bs = (16 * n)%nat -> exists h1 h2, murmur_blocks seed bs h1 h2.
Proof.
  intros S. revert bs. induction n as [|n IH]; intros bs L.
  - destruct bs; [|discriminate]. exists seed, seed. constructor.
  - destruct (IH (firstn (16 * n) bs)) as (h1 & h2 & H); [apply firstn_length_le; lia|].
    set (w1 := firstn 8 (skipn (16 * n) bs)). set (w2 := skipn 8 (skipn (16 * n) bs)).
    assert (length (skipn (16 * n) bs) = 16%nat) as LS by (rewrite skipn_length; lia).
    assert (lenN w1 = 8) as L1 by (unfold lenN, w1; rewrite firstn_length; lia).
    assert (lenN w2 = 8) as L2 by (unfold lenN, w2; rewrite skipn_length; lia).
    assert (bs = firstn (16 * n) bs ++ w1 ++ w2) as E by (unfold w1, w2; rewrite !firstn_skipn; reflexivity).
    destruct (blocks_small _ _ _ _ S H) as [B1 B2].
    rewrite E. do 2 eexists. econstructor; [exact H|exact L1|exact L2|apply word_le|apply mixed1_is| |apply mod64_is|
      apply word_le|apply mixed2_is| |apply mod64_is].
    all: apply rotl_rotated; [apply lxor_lt; [assumption|eapply mixed_lt; (apply mixed1_is || apply mixed2_is)]|lia].
Qed.

Lemma tail_run f w1 w2 h1 h2 t1 t2 : lenN w1 <= 8 -> lenN w2 < 8 -> w2 = [] \/ lenN w1 = 8 ->
  murmur_tail w1 w2 h1 h2 t1 t2 <-> mm_body (S f) (w1 ++ w2) h1 h2 = (t1, t2).
Proof.
  intros L1 L2 C. cbn [mm_body]. rewrite lenN_app. replace (16 <=? lenN w1 + lenN w2) with false by lia.
  assert (firstn 8 (w1 ++ w2) = w1 /\ skipn 8 (w1 ++ w2) = w2) as [-> ->].
  { destruct C as [->|C].
    - rewrite app_nil_r. split; [apply firstn_all2|apply skipn_all2]; unfold lenN in *; lia.
    - assert (length w1 = 8%nat) as E by (unfold lenN in *; lia). rewrite <- E, firstn_app, skipn_app, firstn_all, skipn_all, Nat.sub_diag.
      cbn [firstn skipn]. rewrite app_nil_r. auto. }
  assert (mm_k1 0 = 0 /\ mm_k2 0 = 0) as [Z1 Z2] by (split; vm_compute; reflexivity).
  split.
  - intros (A & B & C' & D). f_equal.
    + destruct w1 as [|b w1]; [rewrite A by reflexivity; cbn [le_value]; rewrite Z1; apply N.lxor_0_r|].
      destruct B as (k & m & W & M & ->); [discriminate|]. apply word_eq in W. apply mixed1_eq in M. subst. reflexivity.
    + destruct w2 as [|b w2]; [rewrite C' by reflexivity; cbn [le_value]; rewrite Z2; apply N.lxor_0_r|].
      destruct D as (k & m & W & M & ->); [discriminate|]. apply word_eq in W. apply mixed2_eq in M. subst. reflexivity.
  - intros E. inversion E as [[E1 E2]]. repeat split.
    + intros ->. cbn [le_value]. rewrite Z1. apply N.lxor_0_r.
    + intros _. exists (le_value w1), (mm_k1 (le_value w1)). split; [apply word_le|]. split; [apply mixed1_is|reflexivity].
    + intros ->. cbn [le_value]. rewrite Z2. apply N.lxor_0_r.
    + intros _. exists (le_value w2), (mm_k2 (le_value w2)). split; [apply word_le|]. split; [apply mixed2_is|reflexivity].
Qed.

Lemma final_is k : murmur_final k (mm_fmix k).
Proof.
  unfold mm_fmix. cbv zeta. rewrite !N.shiftr_div_pow2. do 2 eexists. split; [apply mod64_is|]. split; [apply mod64_is|]. reflexivity.
Qed.
Lemma final_eq k y : murmur_final k y -> y = mm_fmix k.
Proof.
  intros (a & b & A & B & ->). apply mod64_eq in A. apply mod64_eq in B. unfold mm_fmix. cbv zeta. rewrite !N.shiftr_div_pow2.
  unfold mul64w. rewrite <- A, <- B. reflexivity.
Qed.

(** Fuel beyond the length of the input changes nothing. *)
Lemma mm_body_fuel f f' bs h1 h2 : (length bs < f)%nat -> (length bs < f')%nat -> mm_body f bs h1 h2 = mm_body f' bs h1 h2.
Proof.
  revert f' bs h1 h2. induction f as [|f IH]; intros f' bs h1 h2 L L'; [lia|]. destruct f' as [|f']; [lia|].
  cbn [mm_body]. destruct (16 <=? lenN bs) eqn:E; [|reflexivity].
  apply IH; rewrite skipn_length; unfold lenN in *; lia.
Qed.

Definition murmur_words (bs : list byte) (seed : N) : N * N :=
  let '(h1, h2) := mm_body (S (length bs)) bs seed seed in
  let n := lenN bs mod two64 in
  let h1 := N.lxor h1 n in let h2 := N.lxor h2 n in
  let h1 := add64w h1 h2 in let h2 := add64w h2 h1 in
  let h1 := mm_fmix h1 in let h2 := mm_fmix h2 in
  let h1 := add64w h1 h2 in let h2 := add64w h2 h1 in (h1, h2).
Lemma murmur_split bs seed : murmur3_x64_128 bs seed = snd (murmur_words bs seed) * 2 ^ 64 + fst (murmur_words bs seed).
Proof. unfold murmur3_x64_128, murmur_words. destruct (mm_body _ _ _ _) as [h1 h2]. reflexivity. Qed.

Lemma murmur_eq seed bs lo hi : seed < 2 ^ 64 -> lenN bs < 2 ^ 64 -> murmur3 seed bs lo hi -> murmur_words bs seed = (lo, hi).
Proof.
  intros S LB (bl & w1 & w2 & h1 & h2 & t1 & t2 & a1 & a2 & f1 & f2 & -> & L1 & L2 & C & B & T & A1 & A2 & F1 & F2 & LO & HI).
  destruct (blocks_run _ _ _ _ S B) as (n & LN & R). unfold murmur_words.
  rewrite (mm_body_fuel _ (n + Datatypes.S (length (bl ++ w1 ++ w2))) (bl ++ w1 ++ w2)) by lia. rewrite R.
  apply (tail_run (length (bl ++ w1 ++ w2)) _ _ _ _ _ _ L1 L2 C) in T. rewrite T.
  rewrite (N.mod_small (lenN _)) by exact LB.
  apply mod64_eq in A1. apply mod64_eq in A2. apply final_eq in F1. apply final_eq in F2. apply mod64_eq in LO. apply mod64_eq in HI.
  unfold add64w. rewrite <- A1, <- A2, <- F1, <- F2, <- LO, <- HI. reflexivity.
Qed.

Lemma murmur_exists seed bs : seed < 2 ^ 64 -> lenN bs < 2 ^ 64 ->
  murmur3 seed bs (fst (murmur_words bs seed)) (snd (murmur_words bs seed)).
Proof.
  intros S LB. set (n := (length bs / 16)%nat). pose proof (Nat.div_mod (length bs) 16 ltac:(lia)) as DM. fold n in DM.
  pose proof (Nat.mod_upper_bound (length bs) 16 ltac:(lia)) as ML.
  destruct (blocks_exist seed n (firstn (16 * n) bs)) as (h1 & h2 & B); [exact S|apply firstn_length_le; lia|].
  set (r := skipn (16 * n) bs). assert (length r = (length bs mod 16)%nat) as LR by (unfold r; rewrite skipn_length; lia).
  destruct (mm_body 1 r h1 h2) as [t1 t2] eqn:T.
  assert (exists lo hi, murmur3 seed bs lo hi) as (lo & hi & H).
  { assert (lenN (firstn 8 r) <= 8) as L1 by (unfold lenN; rewrite firstn_length; lia).
    assert (lenN (skipn 8 r) < 8) as L2 by (unfold lenN; rewrite skipn_length; lia).
    assert (skipn 8 r = [] \/ lenN (firstn 8 r) = 8) as C.
    { destruct (Nat.le_gt_cases (length r) 8) as [L|L]; [left; apply skipn_all2; exact L|right; unfold lenN; rewrite firstn_length; lia]. }
    do 2 eexists. exists (firstn (16 * n) bs), (firstn 8 r), (skipn 8 r), h1, h2, t1, t2. do 4 eexists.
    split; [unfold r; rewrite !firstn_skipn; reflexivity|]. split; [exact L1|]. split; [exact L2|]. split; [exact C|]. split; [exact B|].
    split; [apply (tail_run 0); [exact L1|exact L2|exact C|rewrite firstn_skipn; exact T]|].
    split; [apply mod64_is|]. split; [apply mod64_is|]. split; [apply final_is|]. split; [apply final_is|]. split; apply mod64_is. }
  rewrite (murmur_eq seed bs lo hi S LB H). exact H.
Qed.

(** ** Indices *)
Lemma hash_input_eq cs bs : hash_input cs bs -> bs = le_bytes 8 (lenN cs) ++ flat_map (le_bytes 4) cs /\ lenN cs < 2 ^ 64.
Proof.
  intros (n & w & -> & L & W & F). pose proof (word_small _ _ W) as S. rewrite L in S. split; [|exact S]. f_equal.
  - apply word_eq in W. rewrite W. unfold lenN in L. replace 8%nat with (length n) by lia. symmetry. apply le_bytes_value.
  - clear W L S. induction F as [|c u cs w [LU WU] F IH]; [reflexivity|]. cbn [concat flat_map]. rewrite IH. f_equal.
    apply word_eq in WU. rewrite WU. unfold lenN in LU. replace 4%nat with (length u) by lia. symmetry. apply le_bytes_value.
Qed.
Lemma hash_input_is cs : forallb scalarb cs = true -> lenN cs < 2 ^ 64 -> hash_input cs (le_bytes 8 (lenN cs) ++ flat_map (le_bytes 4) cs).
Proof.
  intros V L. exists (le_bytes 8 (lenN cs)), (map (le_bytes 4) cs). split; [rewrite flat_map_concat_map; reflexivity|].
  split; [apply le_bytes_lenN|]. split.
  - pose proof (word_le (le_bytes 8 (lenN cs))) as W. rewrite le_u64 in W by exact L. exact W.
  - clear L. induction cs as [|c cs IH]; [constructor|]. cbn [forallb] in V. apply andb_prop in V as [V1 V2]. constructor; [|apply IH; exact V2].
    split; [apply le_bytes_lenN|]. pose proof (word_le (le_bytes 4 c)) as W. rewrite le_u32 in W; [exact W|].
    unfold scalarb in V1. unfold two32. lia.
Qed.

Lemma hash_input_inj cs cs' bs : hash_input cs bs -> hash_input cs' bs -> cs = cs'.
Proof.
  intros (n & w & -> & L & W & F) (n' & w' & E & L' & W' & F').
  apply app_eq_length in E as [<- E]; [|unfold lenN in *; lia]. clear L L' W W'.
  revert cs' w' F' E. induction F as [|c u cs w [LU WU] F IH]; intros cs' w' F' E; destruct F' as [|c' u' cs' w' [LU' WU'] F'].
  - reflexivity.
  - cbn [concat] in E. symmetry in E. apply app_eq_nil in E as [-> _]. discriminate.
  - cbn [concat] in E. apply app_eq_nil in E as [-> _]. discriminate.
  - cbn [concat] in E. apply app_eq_length in E as [<- E]; [|unfold lenN in *; lia].
    apply word_eq in WU. apply word_eq in WU'. subst. f_equal. eapply IH; eassumption.
Qed.

(** Bucket indices of the n-gram with the characters [cs]. *)
Lemma hash_published exp ix cs bs h : hash_indexer_new exp = Ok ix -> forallb scalarb cs = true ->
  hash_input cs bs -> fnv1a64 bs h -> ix_index hash_ops ix (mkSwcl (utf8_encode cs) (lenN cs)) = Ok [h mod 2 ^ exp].
Proof.
  intros N V I H. apply hash_input_eq in I as [-> L]. apply fnv64_eq in H as ->.
  assert (exp <= 64) as E. { unfold hash_indexer_new, rassert in N. destruct (N.leb_spec exp 64); [assumption|discriminate]. }
  destruct (LookupExact.hash_counts exp) as [_ C]. destruct (C E) as (ix' & N' & X & _). rewrite N in N'. inv N'. rewrite X.
  unfold swcl_hash_bytes. cbn [sw_len sw_str]. rewrite utf8_decode_encode by exact V. reflexivity.
Qed.
Lemma hash_published_exists cs : forallb scalarb cs = true -> lenN cs < 2 ^ 64 -> exists bs h, hash_input cs bs /\ fnv1a64 bs h.
Proof. intros V L. do 2 eexists. split; [apply hash_input_is; assumption|apply fnv64_is]. Qed.
Lemma hash_input_unique cs bs bs' : hash_input cs bs -> hash_input cs bs' -> bs = bs'.
Proof. intros A B. apply hash_input_eq in A as [-> _]. apply hash_input_eq in B as [-> _]. reflexivity. Qed.
Lemma fnv_unique bs h h' : fnv1a64 bs h -> fnv1a64 bs h' -> h = h'.
Proof. intros A B. apply fnv64_eq in A as ->. apply fnv64_eq in B as ->. reflexivity. Qed.

(** The 32-bit words of the hash, modulo the number of buckets. *)
Lemma floret_published nb nh seed ix g lo hi : floret_indexer_new nb nh seed = Ok ix -> seed < 2 ^ 32 -> lenN (sw_str g) < 2 ^ 64 ->
  murmur3 seed (sw_str g) lo hi ->
  ix_index floret_ops ix g = Ok (map (fun x => x mod nb) (firstn (N.to_nat nh) [lo mod 2 ^ 32; lo / 2 ^ 32; hi mod 2 ^ 32; hi / 2 ^ 32])).
Proof.
  intros N S L H. assert (seed < 2 ^ 64) as S' by lia.
  assert (0 < nh <= 4 /\ nb <> 0) as [NH NB].
  { unfold floret_indexer_new, rassert in N. destruct ((0 <? nh) && (nh <=? 4)) eqn:B; [|discriminate]. cbn [rbind] in N.
    destruct (N.eqb_spec nb 0); [discriminate|]. lia. }
  pose proof (murmur_split (sw_str g) seed) as M. rewrite (murmur_eq _ _ _ _ S' L H) in M. cbn [fst snd] in M.
  assert (lo < 2 ^ 64 /\ hi < 2 ^ 64) as [LO HI].
  { destruct H as (? & ? & ? & ? & ? & ? & ? & ? & ? & ? & ? & _ & _ & _ & _ & _ & _ & _ & _ & _ & _ & A & B).
    split; eapply mod64_lt; eassumption. }
  destruct (IndexerFacts.floret_index_exact nb nh seed ix g N) as (l & E & LL & _ & X). rewrite E. f_equal.
  change (2 ^ 64) with (2 ^ 32 * 2 ^ 32) in *. assert (0 < 2 ^ 32) as P by reflexivity. set (t := 2 ^ 32) in *.
  assert (forall k, k < nh -> nthN l k = Some (nth (N.to_nat k) [lo mod t; lo / t; hi mod t; hi / t] 0 mod nb)) as Y.
  { intros k K. rewrite X by exact K. f_equal. f_equal. rewrite M.
    assert (k = 0 \/ k = 1 \/ k = 2 \/ k = 3) as D by lia.
    assert ((hi * (t * t) + lo) / t = hi * t + lo / t) as D1.
    { replace (hi * (t * t) + lo) with (lo + hi * t * t) by lia. rewrite N.div_add by lia. lia. }
    assert ((hi * (t * t) + lo) / (t * t) = hi) as D2.
    { rewrite N.div_add_l by lia. rewrite (N.div_small lo) by exact LO. lia. }
    destruct D as [-> | [-> | [-> | ->]]]; cbn [N.to_nat Pos.to_nat Pos.iter_op nth Nat.add].
    - change (2 ^ (32 * 0)) with 1. rewrite N.div_1_r. replace (hi * (t * t) + lo) with (lo + hi * t * t) by lia. apply N.mod_add. lia.
    - change (2 ^ (32 * 1)) with t. rewrite D1. replace (hi * t + lo / t) with (lo / t + hi * t) by lia. rewrite N.mod_add by lia.
      apply N.mod_small. apply N.div_lt_upper_bound; lia.
    - change (2 ^ (32 * 2)) with (t * t). rewrite D2. reflexivity.
    - change (2 ^ (32 * 3)) with (t * t * t). rewrite <- N.div_div by lia. rewrite D2.
      apply N.mod_small. apply N.div_lt_upper_bound; lia. }
  assert (nh = 1 \/ nh = 2 \/ nh = 3 \/ nh = 4) as D by lia. clear X M H N E.
  assert (forall a b : list N, lenN a = lenN b -> (forall k, k < lenN a -> nthN a k = nthN b k) -> a = b) as EXT.
  { intros a b EL EK. apply nthN_ext. intros k. destruct (N.lt_ge_cases k (lenN a)) as [C|C]; [apply EK; exact C|].
    rewrite (proj2 (nthN_None a k)), (proj2 (nthN_None b k)) by lia. reflexivity. }
  apply EXT.
  - rewrite LL, lenN_map. destruct D as [-> | [-> | [-> | ->]]]; reflexivity.
  - rewrite LL. intros k K. rewrite Y by exact K.
    assert (k = 0 \/ k = 1 \/ k = 2 \/ k = 3) as DK by lia.
    destruct D as [-> | [-> | [-> | ->]]]; destruct DK as [-> | [-> | [-> | ->]]]; try lia; reflexivity.
Qed.
Lemma floret_published_exists seed bs : seed < 2 ^ 32 -> lenN bs < 2 ^ 64 -> exists lo hi, murmur3 seed bs lo hi.
Proof. intros S L. do 2 eexists. apply murmur_exists; [lia|exact L]. Qed.
Lemma murmur_unique seed bs lo hi lo' hi' : seed < 2 ^ 32 -> lenN bs < 2 ^ 64 -> murmur3 seed bs lo hi -> murmur3 seed bs lo' hi' -> lo = lo' /\ hi = hi'.
Proof.
  intros S L A B. apply murmur_eq in A; [|lia|exact L]. apply murmur_eq in B; [|lia|exact L]. rewrite A in B. inv B. auto.
Qed.
