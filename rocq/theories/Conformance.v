(** * Conformance examples

    The project's own unit tests, replayed on the model: evidence that the
    model describes the code, not part of any proof. *)
From Coq Require Import Strings.String Strings.Byte.
From Verif Require Import Base Utf8 Subword Vocab.
Local Open Scope N_scope.

Definition s (x : string) : str := list_byte_of_string x.
Fixpoint insert (n : N) (l : list N) : list N :=
  match l with [] => [n] | m :: l' => if n <=? m then n :: l else m :: insert n l' end.
Definition sort (l : list N) : list N := fold_right insert [] l.
Definition sorted (r : res (list N)) : res (list N) := let* l := r in Ok (sort l).

(** /repo/src/subword.rs 523-588. *)
Example ngrams_test :
  rbind (ngrams_collect (s "hellö world") 1 3) (fun l => Ok (map sw_str l)) = Ok (map s
    ["hel"; "he"; "h"; "ell"; "el"; "e"; "llö"; "ll"; "l"; "lö "; "lö"; "l"; "ö w"; "ö "; "ö"; " wo"; " w"; " ";
     "wor"; "wo"; "w"; "orl"; "or"; "o"; "rld"; "rl"; "r"; "ld"; "l"; "d"]%string).
Proof. vm_compute. reflexivity. Qed.
Example ngrams_23_test :
  rbind (ngrams_collect (s "hello world") 2 3) (fun l => Ok (map sw_str l)) = Ok (map s
    ["hel"; "he"; "ell"; "el"; "llo"; "ll"; "lo "; "lo"; "o w"; "o "; " wo"; " w"; "wor"; "wo"; "orl"; "or"; "rld"; "rl"; "ld"]%string).
Proof. vm_compute. reflexivity. Qed.
Example short_ngram_test :
  rbind (ngrams_collect (s "ˈjəp") 3 6) (fun l => Ok (map sw_str l)) = Ok (map s ["ˈjəp"; "ˈjə"; "jəp"]%string).
Proof. vm_compute. reflexivity. Qed.
Example empty_ngram_test : ngrams_collect [] 1 3 = Ok [].
Proof. reflexivity. Qed.
Example incorrect_min_n_test : ngrams_new [] 0 3 = Panic PAssert.
Proof. reflexivity. Qed.
Example incorrect_max_n_test : ngrams_new [] 2 1 = Panic PAssert.
Proof. reflexivity. Qed.

(** /repo/src/subword.rs 590-703. *)
Definition hash_test (exp : N) (w : string) : res (list N) :=
  let* ix := hash_indexer_new exp in sorted (str_subword_indices hash_ops (s w) 3 6 ix).
Example subword_indices_4_test_1 : hash_test 2 "<Daniël>" = Ok [0; 0; 0; 0; 1; 1; 1; 1; 1; 2; 2; 2; 2; 2; 2; 3; 3; 3].
Proof. vm_compute. reflexivity. Qed.
Example subword_indices_4_test_2 : hash_test 2 "<hallo>" = Ok [0; 0; 0; 0; 1; 1; 1; 2; 3; 3; 3; 3; 3; 3].
Proof. vm_compute. reflexivity. Qed.
Example subword_indices_2m_test_1 : hash_test 21 "<Daniël>" =
  Ok [214157; 233912; 311961; 488897; 620206; 741276; 841219; 1167494; 1192256; 1489905; 1532271; 1644730; 1666166;
      1679745; 1680294; 1693100; 2026735; 2065822].
Proof. vm_compute. reflexivity. Qed.
Example subword_indices_2m_test_2 : hash_test 21 "<hallo>" =
  Ok [75867; 104120; 136555; 456131; 599360; 722393; 938007; 985859; 1006102; 1163391; 1218704; 1321513; 1505861; 1892376].
Proof. vm_compute. reflexivity. Qed.
Example ngrams_indices_2m_test :
  (let* ix := hash_indexer_new 21 in subword_indices_with_ngrams hash_ops (s "<hallo>") 3 6 ix) =
  Ok (map (fun p => (s (fst p), [snd p]))
    [("<hallo", 1321513); ("<hall", 1505861); ("<hal", 104120); ("<ha", 985859);
     ("hallo>", 136555); ("hallo", 1006102); ("hall", 1892376); ("hal", 456131);
     ("allo>", 599360); ("allo", 1163391); ("all", 938007); ("llo>", 1218704); ("llo", 722393); ("lo>", 75867)]%string).
Proof. vm_compute. reflexivity. Qed.

(** /repo/src/compat/fasttext/indexer.rs 96-150. *)
Definition ft_test (mn mx : N) (w : string) : res (list N) :=
  let* ix := ft_indexer_new 2000000 in sorted (str_subword_indices ft_ops (s w) mn mx ix).
Example ft_subword_indices_test_1 : ft_test 3 6 "<Daniël>" =
  Ok [69886; 84537; 338340; 441697; 448390; 468430; 504093; 573175; 749365; 804851; 811506; 991985; 1022467; 1105725;
      1249224; 1418443; 1493412; 1880616].
Proof. vm_compute. reflexivity. Qed.
Example ft_subword_indices_test_2 : ft_test 3 6 "<überspringen>" =
  Ok [79599; 119685; 255527; 263610; 352266; 385524; 403356; 421853; 485366; 488156;
      586161; 619228; 629649; 642367; 716781; 751724; 754367; 771707; 799583; 887882;
      894109; 904527; 908492; 978563; 991164; 992241; 1142035; 1230973; 1278156;
      1350653; 1414694; 1513262; 1533308; 1607098; 1607788; 1664269; 1712300;
      1749574; 1793082; 1891605; 1934955; 1992797].
Proof. vm_compute. reflexivity. Qed.
Example ft_subword_indices_5_5_test_1 : ft_test 5 5 "<Daniël>" = Ok [441697; 749365; 1105725; 1880616].
Proof. vm_compute. reflexivity. Qed.
Example ft_subword_indices_5_5_test_2 : ft_test 5 5 "<überspringen>" =
  Ok [79599; 352266; 385524; 629649; 716781; 978563; 991164; 1230973; 1350653; 1992797].
Proof. vm_compute. reflexivity. Qed.

(** Published test vectors of MurmurHash3_x64_128 (h1 is the low half). *)
Example murmur3_empty : murmur3_x64_128 [] 0 = 0.
Proof. vm_compute. reflexivity. Qed.
Example murmur3_hello : murmur3_x64_128 (s "hello") 0 = 0x5b1e906a48ae1d19 * two64 + 0xcbd8a7b341bd9b02.
Proof. vm_compute. reflexivity. Qed.
Example murmur3_fox : murmur3_x64_128 (s "The quick brown fox jumps over the lazy dog") 0
  = 0x7a433ca9c49a9347 * two64 + 0xe34bbc7bbc071b6c.
Proof. vm_compute. reflexivity. Qed.
