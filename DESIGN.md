# Formal model of nlpodyssey/gotokenizers in Rocq (Coq 8.16.1)

What is proved is listed in `MANIFEST.json` (property → theorems, status, remark); the properties themselves are in
`properties.jsonl`. This file says how the model is made, what has to be trusted, and what was found.

## Layout

| file (rocq/theories) | content |
|---|---|
| `GoBase.v`, `Lit.v` | Go run-time basics: panic monad, slicing/indexing with bounds checks, `result` (error returns), UTF-8 as Go does it; string literals |
| `Strutils.v`, `SplitPattern.v`, `NormString.v`, `Vocab.v`, `Json.v`, `MergeMap.v`, `Heap.v`, `Bpe.v`, `WordPiece.v`, `Encodings.v`, `PreTokString.v`, `Normalizers.v`, `PreTokenizers.v`, `Defaults.v`, `Pointers.v`, `Machine.v`, `Recover.v`, `Files.v`, `Floats.v`, `Capacity.v`, `Arrays.v`, `Concurrent.v`, `Nil.v`, `Callbacks.v` | the model, function by function; every definition cites file and lines of /repo |
| `Regex.v` | what backtracking regexps match (leftmost, first alternative, greedy), and the two regexps that are written in /repo |
| `Spec*.v` | small independent specifications: they mention the model only through its data types |
| `*Facts.v`, `Norm{Edits,Inv,OA,Replace,Slice,Split}.v`, `Bpe{Word,Loop,Tok}.v`, `SplitExact.v`, `JsonVocab.v`, `Exact*.v`, `RefBert.v` | proofs |
| `Props*.v` | the property theorems only: `Theorem … Proof. exact … Qed. Print Assumptions`, and beside each an `Example` on concrete data |
| `ModelTests.v` | the unit tests of /repo replayed on the model by `vm_compute`. They test the model against the authors' expectations; they are no proofs |
| `tools/gen_properties.py`, `tools/gen_manifest.py` | write `properties.jsonl`, `MANIFEST.json` |
| `tools/mutate.py`, `seeded/mutations.py`, `tools/automutate.py`, `seeded/LOG.jsonl` | wrong programs (M…: by hand; A…: one token changed by a program), the runners, the results |

Naming: a theorem that proves less than the property says ends in `_partial`; one that proves the property false, by a
concrete witness, has `_refuted` in its name; `_iff` and `_exact` theorems give the condition under which a refuted
property holds, and that it fails everywhere else.

## Trusted base

* Coq's kernel, including its virtual machine (`vm_compute` is used in Examples, in refutations and in finite checks).
* `Print Assumptions` follows every theorem of the property files; each says "Closed under the global context": no
  axiom, neither of our own nor of a library.
* The standard library and std++ (for lists and tactics). Loading std++ loads `Coq.ssr.ssrunder`, whose module
  `Under_rel` holds seven parameters; `coqchk -o` therefore lists them. No theorem depends on them (see above).
* That the model says what the Go code does. The model is written by reading; nothing was run. What supports it: the
  citations, the replayed unit tests, and the list of differences below.
* That the specifications (`Spec*.v` and the statements in `Props*.v`) say what the English says.
* For C111 and C112, that `SpecRef.v` says what encoder.py (openai/gpt-2) and tokenization.py (google-research/bert) do.
  They are not in /repo and are transcribed from memory; lower case and canonical decomposition are per character there
  (no final sigma, no reordering of marks).

## Modelling decisions

* Go `string`/`[]byte` = `list Z` of byte values; `rune`, `int` = `Z` (unbounded;
  lengths and offsets are bounded by memory). `[]rune` = `list Z`. `Machine.v` repeats with wrap-around at 32 or 64
  bits the functions whose sums are not bounded by the length of a slice alone; C108 shows that it makes no difference for
  texts, but for gigabytes of invalid UTF-8 on 32 bits.
* Panics are values: `outcome A := Ret a | Panic`. Every slice expression and index expression of the Go code goes
  through the bounds-checked `sub`/`idx`.
* Error returns are values: `result A := Ok a | Err e`. Error texts are not modelled, only their kind and line number.
* A method that mutates its receiver returns the new receiver. A Go method that panics half-way leaves its receiver
  half-modified; the model drops it (nothing in /repo recovers from panics), but for `Recover.v`, which keeps it [C110].
* Loops are structural recursion or fuelled recursion with a distinguished out-of-fuel outcome which theorems exclude.
* UTF-8: `runes` decodes like Go's `range`/`[]rune` (an invalid byte gives U+FFFD of width 1), `encode_rune` encodes
  like `string(r)` (an invalid rune gives the 3 bytes of U+FFFD). Written with div/mod instead of shifts and masks.
* `unicode.White_Space` and the Chinese range table are concrete; every other Unicode table (`Other`, `Mn`, `Punct`,
  `ToLower`, letter and number classes) is a universally quantified function, so theorems hold for every table.
* Regexp engines (`regexp`, `regexp2`) are universally quantified functions returning match lists; the contract assumed
  of them (ordered, disjoint, in bounds) is a hypothesis of the theorems that need it. For the two regexps that occur in
  /repo, `Regex.v` gives what they match, the character classes being universally quantified, and meets the contract
  (proved); theorems about the default pre-tokenizers use it.
* `rand.Float64() < dropout` is a universally quantified stream of rational draws.
* `bufio.Scanner` is modelled with its limit of 64 KiB per line (as a function of the whole file; `Files.v` has its buffer,
  and C113 shows that they agree); `json.Unmarshal` into a `map[string]int` on bytes
  (`Json.v`, written from the documentation and from knowledge of encoding/json, Go 1.13-1.24, whose source is not in
  /repo): `int` is 64 bits (32 bits: an ID of 2^31 or more is an error); a value of the wrong type is an error, whatever else the document holds. Go's limit of
  10000 nested values does not matter, since a nested value is of the wrong type.
* Map iteration order of `FromJSONFile` is a universally quantified permutation.
* `container/heap` (Go standard library) is modelled literally (up/down on an array).
* /repo has no function that joins normalizer, pre-tokenizer, model and encoding. The end-to-end theorems (C63, C64, C67,
  C68, and those of C86-C100 that speak of pipelines) are about the client program of `SpecEnd.v`/`SpecPipe.v`, four calls of the public API in a row.

## Not modelled

* How a file is found by its name. (Opening, reading in portions and closing are in `Files.v` only [C113]; the other files
  start from the bytes of the vocabulary file and of the merge file.)
* Slice capacity. A slice expression may reach up to the capacity, the model stops at the length, but for `Capacity.v`,
  with which C115 shows where it matters: `CoerceRangeToOriginal` on a range that ends behind the text, after `FromString`
  on invalid UTF-8. (The other slice expressions of /repo, in word.go:168, wordmerge.go:42 and regexp2.go:40, have an upper
  bound that is an index of the slice.)
* Sharing below normalized strings. `*NormalizedString` is a value in all files but `Pointers.v`, where it is a location
  of a store; C90 shows that for the library this makes no difference, and how it does for a client that puts one pointer
  into two splits. No alignment slice is shared between two normalized strings (`Slice` and `TransformRange` allocate),
  strings are immutable; token slices are values everywhere. Slices of captures and the array that `Splits()` hands out are
  values but for `Arrays.v`; C116 and C117 show where that matters.
* Negative runes returned by a caller's function: written as U+FFFD, as `strings.Builder` does since Go 1.17.
* Implementations of `Range` other than the two in the package; values of `SplitDelimiterBehavior` other than the five
  constants (the Go code panics on both).
* float64: dropout and draws are rationals, but for `Floats.v`, which has float64, and C114, which shows that it makes no
  difference (NaN as dropout behaves as 0 does, +Inf as 1).
* Nil arguments (a nil regexp or pattern: a panic at its first use), but for vocabularies and merges, in `Nil.v` [C119], and functions of runes, in `Callbacks.v` [C120], which also has functions that panic or keep state. Concurrent use, but for `Tokenize` of the BPE
  model, in `Concurrent.v` [C118], with atomic steps: Go's memory model is not there, and a cache whose methods race is not.
  Callbacks that call methods of the `PreTokenizedString` they are called by are in `Arrays.v` only [C117]. (No function of /repo writes to anything but
  its receiver: models, vocabularies, merge maps, patterns and pre-tokenizers are read only, except by `AddTerm` and `Set`.)
* `WordCache` is the stub of /repo; C42 is also proved for every cache that returns only what was stored under the key.
* `offsetsTrimmingEnabled` of the byte-level pre-tokenizer, which the code stores and never reads.

## Abstraction for NormalizedString

Specification object: *aligned text* = `list (rune * (start, end))`, i.e. the normalized string as a sequence of
characters each carrying the byte span of the original it came from. `repr ns v` says that the concrete value (bytes +
one alignment per byte) is the byte-level image of `v`. Each operation is proved to refine a one-line list operation on
`v` (map, filter, take/drop, append, ...). History properties follow by induction over operation lists (`SpecHist.v`:
`edit`, `reachable`).

## Findings

Where the code does not do what its documentation or the property says. Each is proved with a witness; the theorem is in
brackets.

1. `BytesToRuneOffsetConverter` stores byte indices; it is right only if all characters but the last are ASCII, and panics
   on an empty range at the end [C02].
2. `Filter` and `TrimLeft` pass a number of runes where `TransformRange` expects bytes: wrong spans or a panic as soon as
   a multi-byte character is removed at the front; a byte order mark makes the BERT normalizer panic [C08, C09, C60, C66].
3. `Prepend("")` moves the first character's span to (0, 0) [C10].
4. `Append` uses a rune index as byte index (the authors' FIXME): wrong text or panic unless all characters but the last are ASCII [C11, C04].
5. `Split` panics if the pattern yields an empty capture behind the length of the *original*, e.g. after a prefix was
   added; the byte-level pre-tokenizer can reach it with a regexp that matches the empty string [C15, C58].
6. Pieces of an edited string do not combine back to the original [C18].
7. `OriginalAlignments` panics on an empty normalized string [C19]; range conversion hands out-of-range requests of the
   string's own kind back, or panics, instead of reporting them [C22]. The case "start found, no end found" of
   `CoerceRangeToNormalized` (normalizedstring.go:387) cannot happen.
8. The empty string pattern counts runes as bytes: wrong captures on non-ASCII text [C26].
9. `AddTerm` after loading a vocabulary with sparse IDs gives out an ID that is in use; after loading `null` it panics [C30].
10. `MergeMapFromFile` panics if the prefix length exceeds a right-hand term's [C32]; it skips "#version" lines anywhere;
    a line of 64 KiB is an error.
11. BPE: the continuing-subword prefix is applied to the first character and to no other [C40].
12. BPE without unknown token: unknown characters are left out and all later offsets shift [C38].
13. WordPiece looks for shorter candidates by stepping back one byte, or two: boundaries next to three-byte characters are
    missed, so words in CJK scripts become unknown though their pieces are in the vocabulary [C44].
14. The BERT table of Chinese characters has a gap, U+2B820..U+2B91F (0x2B920 where 0x2B820 is meant) [C61].
15. Invalid UTF-8: `FromString` makes three alignments per undecodable byte; `Prepend` panics or deletes two bytes; split
    pre-tokenizers report an error or panic; BPE offsets run past the text [C65].
16. Metaspace only replaces U+0020; a replacement rune that is no scalar value is written as U+FFFD and never found [C56].
17. Normalizing BERT text twice puts more spaces around Chinese characters each time [C71].
18. With the metaspace pre-tokenizer, "a b" and "a▁b" have the same tokens [C72].
19. A vocabulary file may give the ID null, which is read as 0; terms in invalid UTF-8 are conflated [C83].
20. Metaspace looks for the meta character, not for white space, before it adds one: text that starts with a space gets
    two [C84]. The option for trimming offsets of the byte-level pre-tokenizer and the capacity of the cache are read nowhere.
21. BPE without unknown token returns no tokens and no error for text without known characters [C85].
22. Because of 2, filtering twice is not filtering once with both conditions, nor is mapping and filtering one pass [C87].
23. Two texts with the same token IDs need not be equal: unknown characters, and the spaces between pieces [C88, C89].
24. On undecodable bytes, an entry that ends with one ends two bytes too late in the original [C100].
25. `MergeAll` on a word that has been merged before may panic or merge symbols that are no neighbours, since the links of
    the symbols that stay are not renumbered [C106].
26. A vocabulary with every character of a text, continued and not, need not suffice for WordPiece, because of 13 [C105].
27. Lengths given to `Word.Add` that add up to 2^63 (2^31 on 32 bits) wrap around in `MergeAll`; a symbol whose length
    becomes 0 that way is removed. On 32 bits the offsets of 2^31 / 3 undecodable bytes wrap around [C108].
28. A symbol of length 0 given to `Word.Add` is removed by `MergeAll`; as the left one of a pair it is never merged, and until
    the end it keeps its neighbours apart. A pair whose lengths add up to 0 vanishes [C109].
29. A BERT normalization that panics (2) may have cleaned the text by then; `Replace` with a pattern that goes too far has replaced the first matches [C110].
30. Compared with BERT's own tokenizer: accents are stripped without decomposing first ("é" stays), the ASCII symbols `$ + < = > ^ | ~` and the backquote are not punctuation (both are TODOs in the code) [C112].
31. Compared with GPT-2's own tokenizer: other tokens for capitalised contractions ("'To" is cut into "'T" and "o", since `DefaultSplittingRegexp` ignores case and GPT-2's expression does not), and if the merges file is not in training order [C111].
32. `Invert` negates the captures of the inner pattern in place: of a pattern that keeps its slice, every other call finds the opposite [C116].
33. `Tokenize` with a function that calls `Split` on the same string may panic, or give tokens to other splits [C117].
34. A read of the merges file that fails in the middle of a line is reported as a malformed line, and may panic; if closing the file fails, a map is returned beside the error [C113].
35. `Slice` of an empty range takes its position for one in the original and the normalized string at once: it panics if the other string is shorter, and otherwise gives an empty string with that offset [C14].
36. With dropout, a fixed seed does not make concurrent calls of `Tokenize` reproducible, not even up to their order: the calls share the numbers of math/rand [C118].

## Mutation testing

`tools/mutate.py` edits one definition of the model per run, in a scratch copy outside the repository, recompiles all
that depends on it, replaces broken proofs by `Admitted` *in the scratch copy* and goes on, so that every theorem resting
on the edited behaviour is found (by its Print Assumptions). A proof that breaks need not mean that the statement became
false. The log therefore keeps the two apart: "failed" lists the theorems whose proofs break; an Example that fails is a value the
mutant computes wrongly; where no Example fails, the note says what the statements give by reading them, and is no more
than that.

## How each property is proved

| id | model | proof |
|---|---|---|
| C01 | `is_rune_boundary` | induction over the rune list; for valid strings continuation bytes = non-boundaries |
| C02 | converter table + `convert` | expected false (byte index used as rune index): refute with witness, prove for ASCII |
| C03 | `from_string` | refinement to aligned text of the string itself |
| C04, C05 | op datatype + `step` | invariant by induction over op lists |
| C06-C12 | `transform_range` loop and callers | refinement to aligned-text ops; refute where byte/rune index confusion breaks them (Filter, Trim, Append, Prepend "") and prove the exact domain |
| C13-C18 | `slice`, `split` | refinement; concatenation laws; C18 refuted after edits, proved on fresh strings |
| C19-C22 | `original_alignments`, coerce functions | counting characterisation; C22 refuted |
| C23-C27 | pattern functions with engine oracles | induction over runes / matches; C26 refuted for empty pattern on non-ASCII |
| C28-C30 | two finite maps | invariant over op lists; C30 refuted for sparse IDs |
| C31, C32 | line parser + fold | induction over lines; panic on long prefix refutes half of C32 |
| C33 | literal binary heap | heap-order invariant, permutation |
| C34-C37 | `merge_all` loop with fuel, stream of drop decisions | linked-list invariant + queue completeness; refinement to relational textbook BPE; measure for fuel |
| C38-C42 | `tokenize` | induction over runes, conservation of length; C38 refuted without unknown token; C40 refuted |
| C43-C46 | `tokenize` (two nested loops) | induction; C44 refuted for 3/4-byte characters, proved for all characters below U+0800 |
| C47-C53 | records and list traversals | induction over splits |
| C54-C59 | pre-tokenizers composed of the above | refinement + list specs |
| C60-C62 | normalizers | refinement; C60 panic half refuted, text half proved; C61 refuted (gap at U+2B820) |
| C63, C64 | full pipelines | composition |
| C65 | same functions on invalid UTF-8 | refuted with witnesses; exact conditions for `FromString`, `Prepend`, `Append`, `Map`, function and regexp2 patterns; string and regexp patterns are right on all bytes; `Transform` and what is made of it beside the same on the string as Go reads it: a simulation (`like`), induction over the changes |
| C66 | lower-case and strip normalizers | refinement, as C07 and C09 |
| C67, C68 | byte-level BPE and BERT pipelines | composition of C58/C60 with C39/C43; spans of characters into the original |
| C69, C70 | `tokenize` on parts of a text | the steps between symbols of a run form a run of their own; saturation of parts |
| C71 | normalizers applied twice | what one pass leaves is fixed by each step of the next |
| C72 | metaspace, then BPE | what the pieces concatenate to (C56), how BPE cuts them (C67) |
| C73 | two texts with a delimiter between them | pieces of both sides (C67), offsets moved by the length of the first |
| C74 | pre-tokenizers applied twice | pieces fill their original text; a pattern that finds one capture in such a piece returns the piece |
| C75 | vocabularies that differ in their IDs only | an injective renaming commutes with the queue, the word, the merges, the look-ups, the encodings |
| C76 | lower-casing before or after pre-tokenizing | segments, groups and pieces of the replaced text correspond to those of the text |
| C77 | histories of the library's own stages | every stage is a sequence of the edits of C26/C52 |
| C78 | order of tokens and pieces | edits take their spans from those there are; pieces of pieces stay in order; tokens start and end at spans of their first and last byte |
| C79 | number of iterations of MergeAll | entries in the queue, skipped entries and twice the live symbols: a potential that every iteration not dropped lowers |
| C80 | models that agree on what a text can reach | lock step of the two runs; looked-up pairs are neighbours among the live symbols |
| C81 | FromJSONFile against the grammar of RFC 8259 | parser on bytes, grammar on code points; decoding cannot reach over ASCII bytes; soundness and completeness by induction over the text and over derivations |
| C82 | from the bytes of the files to the tokens | C81 with C39 and C43 |
| C83 | null values and invalid UTF-8 in vocabulary files | witnesses; each derivation of the grammar contains its members |
| C84 | documented text against C56 | comparison of the two maps on the text |
| C85 | models that return no tokens | no tokens means no symbols (merges never remove the last one), no symbols means no known character |
| C86 | laws between edits and slices | both sides computed in the aligned-text model, whose representation determines the value (same_ns) |
| C87 | two passes of Filter | as C86, for the texts where Filter is right (C08) |
| C88 | token IDs determine the text (models) | values are recovered from IDs, texts from values: C39, tried_toks; with unknown characters: merging keeps the concatenation of terms with the unknown token as a letter of its own; textbook merging looks at IDs only |
| C89 | token IDs determine the words or the text (pipelines) | IDs grouped into words by the prefix (groups_unique), then C88; C67_spells, C72_spells |
| C90 | pointers behave like values | induction over the loops: each call touches one location, results are new locations |
| C91 | the same string again | first function is idempotent on what it leaves, new locations for the pieces |
| C92 | what every history preserves | the alignments taken by TransformRange lie between those before and after the range; a slice only depends on alignments and original, so it can be taken over a text of one-byte characters |
| C93 | lookups of WordPiece | each turn of the inner loop drops at least one byte, each turn of the outer loop starts at least one byte further; the worst case by induction on the distance to the end |
| C94 | characters and bytes | bit patterns as sums for the few possible values, then the facts on decoding and encoding; whoever starts a string is decoded first, so nothing starts where decoding gives up |
| C95 | exact cuts of the default regexp | the first way to match, alternative by alternative: runs of a kind and what is left after them; the relation is a function |
| C96 | outcome of Filter, Trim, Strip, BERT in every case | walk along the characters as read from the wrong byte; compose the stages on aligned texts |
| C97 | MergeAll with dropout | queue and skipped entries are the pairs of the live symbols and entries whose symbols have grown or gone; the former are left out or not as the specification says; an old request's symbols are smaller than any pair now starting at its byte, so it ties with none |
| C98 | programs of edits | each step does to the aligned text what its meaning says (C07, C96, C10, C12); composition by induction |
| C99 | normalizers in pipelines | C98 for the normalized text, its alignment kept well-formed by every step; then C68 and the pieces of C56, C58, C95 on any aligned text |
| C100 | encoding invalid UTF-8 | FromString on invalid text has the alignments of the text with U+FFFD written out, which is well-formed; BPE answers for that text, so C38 and C39 apply to it; WordPiece: lookup of each byte's span |
| C101 | MergeAll as passes by rank | a pass is a run of textbook steps (invariant: everything of lower rank merged, of this rank everything to the left); what it makes occurs in no earlier rule, so the passes end saturated; uniqueness of the textbook answer (C34); IDs and terms correspond through the consistent vocabulary |
| C102 | a longer merges file | the textbook steps with the shorter map are steps with the longer one, so the longer answer is reached from the shorter; every step joins two neighbouring groups of tokens |
| C103 | answers under dropout | every iteration is a merge or none (C35); conversely a run of C97's specification is built for any order of merges: leave out everything that comes first, merge, start again, at the end leave out the rest; C97's determinism turns it into the answer for draws that decide so |
| C104 | terms that stand for themselves | WordPiece: the first end tried is the end of the string, and answers are unique (C44). BPE: cut the answer before and after the token (C69), then faithfulness (C39) gives ID and offsets |
| C105 | vocabularies with every character | a longest known piece exists, since the single character is one; so a greedy segmentation exists, and C44 says that it is the answer |
| C106 | words merged again | the loop invariant gets groups: every live symbol stands for a block of symbols, its place is the place of the block's first symbol; the links left are these places. A saturated word gives an empty queue |
| C107 | random numbers per word | a potential on the number of live symbols and of queue entries: a merge that leaves s symbols queues at most min(2, s - 1) entries, an iteration that is not dropped takes one away for good, and between two of these every entry is drawn at most once |
| C108 | integers of 32 and 64 bits | a second model of the arithmetic with wrapping (`Machine.v`, for every size), equal to the first as long as the sum of all lengths fits; that sum never grows, whatever the links |
| C109 | words of any lengths | the links are followed through symbols of length 0, which are removed at the end only; the left one of a pair is never merged when empty |
| C110 | panics and recovery | a second model (`Recover.v`) in which a method gives its receiver at the end, panic or not; the assignments stand in the order of the Go code; a panic inside a function argument is turned into an error |
| C111 | byte-level BPE against encoder.py | the loop bpe() as a relation on segmentations; equal to the passes of C101 in training order; pieces of C95, with and without regard to case: the same unless a contraction is capitalised; the one merge of the apostrophe with the next byte gives the library fewer tokens if one is; pipeline lemma that keeps all tokens |
| C112 | BERT against tokenization.py | the functions of the reference on characters (`SpecRef.v`); both splitting loops fused into one scan whose pieces are those of C55; folding commutes with splitting at white space; a vocabulary of all words of both sides tells different words apart, one with the two parts of a word around its last three-byte character gives the library fewer tokens |
| C113 | files in portions | bufio.Scanner modelled with its buffer (`Files.v`); invariant: buffered bytes ++ bytes to come; induction on what is left of the file |
| C114 | dropout as float64 | SpecFloat of the standard library; canonical mantissas: the order by exponent and mantissa is the order of m * 2^(e + 1074) |
| C115 | slice capacity | the other files stop at the length; induction over the changes, the second of two slice expressions rules out the spare part |
| C116 | arrays of captures | a store of arrays; what a call adds lies behind what was there, so the negation stays in the new part. A kept slice is negated once per call, hence the parity |
| C117 | arrays of splits, functions that call back | a store of arrays beside that of strings, and which array p.splits is; the range clause fixes the array, the assignment does not. Induction over the rest of the array |
| C118 | concurrent calls of Tokenize | a transition system whose steps are the accesses to what is shared; an invariant for each call: the loop so far is that of MergeAll with the numbers taken. Induction over the execution, a measure for its end |
| C119 | nil vocabularies and merges | the model with pointers, whose reads panic on nil: equal to the other one by induction over the loops; without merges the queue is empty, and every symbol is one token |
| C120 | functions that panic or keep state | a conversation of calls and answers, independent of the code; induction over it for each loop, with the transformation of C07 and C08 for the spans |
| `_iff`, `_exact` (C02, C08-C11, C26, C38, C40, C44, C60, C66) | the same functions on the inputs excluded from the partial theorems | counting of bytes and runes: the wrong index differs from the right one, and the difference is visible |
