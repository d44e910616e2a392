(** * Metadata of fastText models (/repo/src/compat/fasttext/io.rs 100-117,
    179-195).

    [FastText] takes [Table::try_from(config)] as a parameter.  Here it is
    written out, as the derived [Serialize] and the serializer of the toml
    crate define it. *)
From Coq Require Import ZArith String.
From Verif Require Import Base Utf8 Stream F32 ChunkIO Subword Vocab Storage Embeddings TextIO FastText.
Local Open Scope N_scope.

(** [toml::Value].  Simplification: only the kinds that occur; [f64] is kept
    as its bit pattern. *)
Inductive tvalue := TString (s : str) | TInteger (n : Z) | TFloat (bits : N).
(** [toml::Table]: a [BTreeMap<String, Value>] (the feature [preserve_order]
    is off), here as the list that iteration gives, ascending by key. *)
Definition ttable := list (str * tvalue).
Fixpoint t_insert (k : str) (v : tvalue) (t : ttable) : ttable :=
  match t with
  | [] => [(k, v)]
  | (k', v') :: t' =>
      match str_compare k k' with
      | Lt => (k, v) :: t
      | Eq => (k, v) :: t'
      | Gt => (k', v') :: t_insert k v t'
      end
  end.
Definition t_get (t : ttable) (k : str) : option tvalue :=
  match find (fun kv => str_eqb k (fst kv)) t with Some kv => Some (snd kv) | None => None end.

Definition key (x : string) : str := list_byte_of_string x.
(** [serialize_u32]: converted to [i64]; unit variants are their names. *)
Definition t_u32 (n : N) : tvalue := TInteger (Z.of_N n).
Definition t_loss (l : ft_loss) : tvalue :=
  TString (key match l with HierarchicalSoftmax => "HierarchicalSoftmax" | NegativeSampling => "NegativeSampling" | Softmax => "Softmax" end).
Definition t_model (m : ft_model) : tvalue :=
  TString (key match m with Cbow => "Cbow" | SkipGram => "SkipGram" | Supervised => "Supervised" end).
(** The fields of [Config] in the order of their declaration, lines 180-194. *)
Definition config_fields (c : ft_config) : list (string * tvalue) :=
  [("dims", t_u32 (fc_dims c)); ("window_size", t_u32 (fc_window c)); ("epoch", t_u32 (fc_epoch c));
   ("min_count", t_u32 (fc_min_count c)); ("neg", t_u32 (fc_neg c)); ("word_ngrams", t_u32 (fc_word_ngrams c));
   ("loss", t_loss (fc_loss c)); ("model", t_model (fc_model c)); ("bucket", t_u32 (fc_bucket c));
   ("min_n", t_u32 (fc_min_n c)); ("max_n", t_u32 (fc_max_n c)); ("lr_update_rate", t_u32 (fc_lr c));
   ("sampling_threshold", TFloat (fc_threshold c))]%string.
(** [Table::try_from(config)], line 103; none of these values is refused. *)
Definition ft_config_table (c : ft_config) : option ttable :=
  Some (fold_left (fun t kv => t_insert (key (fst kv)) (snd kv) t) (config_fields c) []).

(** Tables of the toml crate with a printer and a parser. *)
Definition toml_of (print : ttable -> str) (parse : str -> option ttable) : toml_ops := mkToml ttable print parse.
