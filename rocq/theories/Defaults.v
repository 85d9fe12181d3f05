(** Model of the constructors of /repo that were not needed elsewhere: they put their arguments into a record, or call
    another constructor with fixed arguments. *)
From Coq Require Import QArith.
From Verif Require Import GoBase Vocab MergeMap Bpe WordPiece SplitPattern NormString PreTokString Regex PreTokenizers Encodings.
Import GoBase.
#[local] Open Scope Z_scope.

(** wordcache.go:10-26 [DefaultCacheCapacity], [NewCache], [NewDefaultCache]; the capacity is read nowhere. *)
Record word_cache : Type := WordCache { wc_capacity : Z }.
Definition default_cache : word_cache := WordCache 10000.
(** wordcache.go:28-39 [SetValues], [Set], [Get], and 41-47 [GetValues]. *)
Definition cache_get (c : word_cache) (key : list Z) : option word := None.
Definition cache_get_values (c : word_cache) (keys : list (list Z)) : list (option word) := map (cache_get c) keys.

(** bpemodel.go:50-70 [New]; the record [bpe] has no cache (see Bpe.v). *)
Definition bpe_new (v : vocab) (merges : merge_map) (cacheCapacity : Z) (dropout : Q) (unk prefix suffix : list Z) (fuse : bool) : bpe :=
  Bpe v merges dropout unk prefix suffix fuse.
(** bpemodel.go:72-83 [NewDefault]; mergemap.go:31-34 [NewMergeMap] is the empty map. *)
Definition bpe_default : bpe := Bpe new_vocab ∅ 0 [] [] [] false.

(** wordpiecemodel.go:32-44 [New]; 46-53 [NewDefault] is [wp_default]. *)
Definition wp_new (v : vocab) (unk prefix : list Z) (maxChars : Z) : wordpiece := WordPiece v unk prefix maxChars.

(** metaspacepretokenizer.go:29-49 [DefaultReplacementCharacter], [New], [NewDefault]. *)
Definition metaspace_default : pretokenizer := metaspace 0x2581 true.

(** bytelevelpretokenizer.go:46-62 [New], [NewDefault]: the third argument, offsets trimming, is stored and read nowhere. *)
Definition byte_level_new (engine : engine2) (prefixSpace offsetsTrimming : bool) : pretokenizer := byte_level engine prefixSpace.
Definition byte_level_default (fold : Z → Z) (letter number space : Z → bool) : pretokenizer :=
  byte_level_new (engine_of (splitting_re fold letter number space)) true true.

(** whitespacepretokenizer.go:29-35 [New], [NewDefault]. *)
Definition whitespace_default (word space : Z → bool) : pretokenizer := whitespace_pretokenizer (engine_of (word_re word space)).

(** encodings.go:42-62 [NewEncoding]. *)
Definition new_encoding := Encoding.
