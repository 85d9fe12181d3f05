{"id": "C01", "title": "IsRuneBoundary decides UTF-8 character boundaries", "statement": "For a valid UTF-8 string s and any int i, IsRuneBoundary(s, i) is true exactly when i is the byte length of some sequence of leading characters of s; in particular it is false for every i < 0 and i > len(s), and it never panics.", "quantifier": "every valid UTF-8 string and every (also negative or huge) index", "why_tests_cant": "strings of arbitrary mixes of 1-4 byte characters times all indices; a unit test samples one string", "anchors": ["strutils/strutils.go:IsRuneBoundary"]}
{"id": "C02", "title": "Byte-to-rune offset conversion", "statement": "For a valid UTF-8 sequence and byte offsets (Start, End) lying on character boundaries, BytesToRuneOffsetConverter.Convert returns the number of characters before Start and before End.", "quantifier": "every valid UTF-8 sequence and every pair of boundary offsets", "why_tests_cant": "errors only show on multi-byte text, at offsets that tests do not enumerate", "anchors": ["strutils/strutils.go:NewBytesToRuneOffsetConverter", "strutils/strutils.go:Convert"]}
{"id": "C03", "title": "A fresh NormalizedString is the identity alignment", "statement": "For a valid UTF-8 string s, FromString(s) has Get() = GetOriginal() = s, OriginalOffsets() = (0, len s), one alignment per byte, and the alignment of each byte is exactly the byte span of the character that contains it.", "quantifier": "every valid UTF-8 string", "why_tests_cant": "unbounded set of strings; the alignment table is as long as the string", "anchors": ["normalizedstring/normalizedstring.go:FromString", "normalizedstring/normalizedstring.go:alignmentsFromString"]}
{"id": "C04", "title": "Alignment invariants survive every history of edits", "statement": "Start from FromString(s), s valid UTF-8, and apply any finite sequence of Map/ToLower/ToUpper, Filter, Trim*, Prepend, Append, Replace, Transform, TransformRange and Slice calls (each returning without panic). Then the normalized string is valid UTF-8, has exactly one alignment per byte, all bytes of one character share one alignment, every alignment is a range of character boundaries inside GetOriginal(), and alignments are ordered without partial overlaps.", "quantifier": "every valid string and every finite history of mutating calls with arbitrary arguments in the documented domain", "why_tests_cant": "the invariant is about unbounded operation sequences", "anchors": ["normalizedstring/normalizedstring.go:TransformRange", "normalizedstring/normalizedstring.go:Filter", "normalizedstring/normalizedstring.go:Map", "normalizedstring/normalizedstring.go:Prepend", "normalizedstring/normalizedstring.go:Append", "normalizedstring/normalizedstring.go:Replace", "normalizedstring/normalizedstring.go:TrimLeftRight", "normalizedstring/normalizedstring.go:Slice"]}
{"id": "C05", "title": "No edit ever touches the original string", "statement": "Map, Filter, Trim*, Prepend, Append, Replace, Transform and TransformRange never change GetOriginal() nor OriginalOffsets(), whatever their arguments.", "quantifier": "every NormalizedString (well formed or not), every operation, every argument, every history", "why_tests_cant": "a frame condition over all histories", "anchors": ["normalizedstring/normalizedstring.go:TransformRange", "normalizedstring/normalizedstring.go:Transform"]}
{"id": "C06", "title": "TransformRange rewrites exactly the addressed characters", "statement": "On a well-formed string, for a range on character boundaries and a change list that consumes no more characters than the range holds, TransformRange replaces the addressed text by the runes of the change list, gives a replacing rune (Change <= 0) the span of the character it replaces and an inserted rune (Change >= 1) the span of the character just before it (or the empty span at the very start), skips -Change removed characters, and leaves text and spans outside the range as they were.", "quantifier": "every well-formed string, range, change list and initial offset in the documented domain", "why_tests_cant": "arbitrary-length change lists mixing insertions, replacements and removals of 1-4 byte characters", "anchors": ["normalizedstring/normalizedstring.go:TransformRange", "normalizedstring/normalizedstring.go:RuneChange"]}
{"id": "C07", "title": "Map rewrites each character in place", "statement": "Map(f) (hence ToLower/ToUpper) never panics on a well-formed string; the new text is the character-wise image of the old one and every character keeps the original span it had.", "quantifier": "every well-formed string and every total function f on runes (including ones returning invalid code points)", "why_tests_cant": "all functions and all strings; byte lengths may grow or shrink per character", "anchors": ["normalizedstring/normalizedstring.go:Map", "normalizedstring/normalizedstring.go:ToLower", "normalizedstring/normalizedstring.go:ToUpper"]}
{"id": "C08", "title": "Filter keeps exactly the accepted characters with their spans", "statement": "Filter(keep) never panics on a well-formed string; the new text is the subsequence of accepted characters and each of them keeps the original span it had.", "quantifier": "every well-formed string and every predicate", "why_tests_cant": "depends on how many characters are removed where and how many bytes each has", "anchors": ["normalizedstring/normalizedstring.go:Filter", "normalizedstring/normalizedstring.go:TransformRange"]}
{"id": "C09", "title": "Trim removes exactly the outer white space", "statement": "TrimLeftRight(left, right) never panics on a well-formed string; the new text is the old one without its maximal run of leading (if left) and trailing (if right) White_Space characters, and the remaining characters keep their spans.", "quantifier": "every well-formed string and both flags", "why_tests_cant": "arbitrary runs of 1-3 byte space characters at both ends", "anchors": ["normalizedstring/normalizedstring.go:TrimLeftRight", "normalizedstring/normalizedstring.go:countLeadingSpaces", "normalizedstring/normalizedstring.go:countTrailingSpaces"]}
{"id": "C10", "title": "Prepend", "statement": "Prepend(p) on a non-empty well-formed string yields p followed by the old text; the prepended characters take the span of the first character, all old characters keep theirs; on an empty string it does nothing.", "quantifier": "every well-formed string and every string p (including the empty one)", "why_tests_cant": "all strings, multi-byte first characters and empty p", "anchors": ["normalizedstring/normalizedstring.go:Prepend"]}
{"id": "C11", "title": "Append", "statement": "Append(p) on a non-empty well-formed string yields the old text followed by p; the appended characters take the span of the last character, all old characters keep theirs; on an empty string it does nothing.", "quantifier": "every well-formed string and every string p", "why_tests_cant": "the code carries a FIXME about rune versus byte index that only multi-byte text exposes", "anchors": ["normalizedstring/normalizedstring.go:Append"]}
{"id": "C12", "title": "Replace substitutes every match and nothing else", "statement": "For a pattern whose captures cover the text on character boundaries and a valid UTF-8 content, Replace yields the text in which every match is replaced by content; the characters outside matches keep their spans and the inserted ones take a span that one of the replaced characters had.", "quantifier": "every well-formed string, every covering pattern (any number and size of matches), every content", "why_tests_cant": "running offset correction over arbitrarily many matches of different sizes", "anchors": ["normalizedstring/normalizedstring.go:Replace"]}
{"id": "C13", "title": "Slice by normalized range is exact and keeps absolute offsets", "statement": "On a well-formed string, Slice(NormalizedRange(i, j)) with i < j on character boundaries succeeds; its text is bytes i..j of Get(), its original text is the part of GetOriginal() those characters came from, it is again well formed, and every character keeps its absolute position in the very first original string.", "quantifier": "every reachable NormalizedString (also slices of slices) and every boundary range", "why_tests_cant": "offset shifting composes over nested slices", "anchors": ["normalizedstring/normalizedstring.go:Slice", "normalizedstring/normalizedstring.go:GetRange", "normalizedstring/normalizedstring.go:GetOriginalRange", "normalizedstring/normalizedstring.go:OriginalOffsets"]}
{"id": "C14", "title": "Slice rejects ranges that cut a character", "statement": "If an end of the range is out of bounds or not on a character boundary of the string it refers to, Slice reports failure (no panic, no result).", "quantifier": "every well-formed NormalizedString (out of bounds: every value whatever), both kinds of ranges, all integers", "why_tests_cant": "all integer pairs", "anchors": ["normalizedstring/normalizedstring.go:Slice", "normalizedstring/normalizedstring.go:rangeIsValid"]}
{"id": "C15", "title": "Split never loses or invents text", "statement": "For a pattern whose captures cover the text on character boundaries, Split succeeds for each of the five behaviours; the pieces' texts in order concatenate to the whole text (Isolated, MergedWithPrevious, MergedWithNext, Contiguous) or to the text of the non-matching captures (Removed).", "quantifier": "every well-formed string, every covering pattern, every behaviour", "why_tests_cant": "all interleavings of matches and non-matches", "anchors": ["normalizedstring/normalizedstring.go:Split"]}
{"id": "C16", "title": "Split delimiter behaviours do what their documentation says", "statement": "Removed yields exactly the non-matches, Isolated exactly the captures, Contiguous the maximal runs of captures of equal kind, MergedWithPrevious attaches a match to the non-match directly before it, MergedWithNext attaches a match to the non-match directly after it; nothing else is merged.", "quantifier": "every covering capture list", "why_tests_cant": "arbitrary sequences of consecutive matches", "anchors": ["normalizedstring/normalizedstring.go:Split", "normalizedstring/normalizedstring.go:SplitDelimiterBehavior"]}
{"id": "C17", "title": "Splitting keeps offsets absolute and ordered", "statement": "Every piece with text produced by Split from a well-formed string has OriginalOffsets() inside those of the string, and its original text is that region of the original string. Starts and ends of the pieces never decrease, and two pieces overlap in the original only if the last character of one and the first character of the other come from the same original characters.", "quantifier": "every reachable string, every covering pattern, every behaviour", "why_tests_cant": "holds for all pieces of all splits of all histories", "anchors": ["normalizedstring/normalizedstring.go:Split", "normalizedstring/normalizedstring.go:OriginalOffsets"]}
{"id": "C18", "title": "Pieces combine back to the original string", "statement": "The pieces returned by Split (behaviours that keep delimiters), if combined back together, have the same original string as the string that was split (the constraint PreTokenizedString.Split states as a MUST).", "quantifier": "every well-formed string, every covering pattern", "why_tests_cant": "depends on what earlier edits removed or inserted next to the cut", "anchors": ["normalizedstring/normalizedstring.go:Split", "pretokenizedstring/pretokenizedstring.go:SplitFunc"]}
{"id": "C19", "title": "OriginalAlignments inverts the alignments", "statement": "On a non-empty well-formed string OriginalAlignments never panics and returns one range per byte of the original string: for original byte i the range holds exactly the normalized bytes whose span contains i; if there are none, it is the empty range at the number of normalized bytes that come before i.", "quantifier": "every reachable non-empty NormalizedString", "why_tests_cant": "all alignment tables with gaps, groups and empty spans", "anchors": ["normalizedstring/normalizedstring.go:OriginalAlignments"]}
{"id": "C20", "title": "Converting a range to the original is the span of its characters", "statement": "For a non-empty in-bounds normalized range on a well-formed string, CoerceRangeToOriginal returns the smallest range of the original string that contains the spans of all characters in the range.", "quantifier": "every well-formed string and every range", "why_tests_cant": "all ranges of all strings", "anchors": ["normalizedstring/normalizedstring.go:CoerceRangeToOriginal", "normalizedstring/normalizedstring.go:GetOriginalRange"]}
{"id": "C21", "title": "Converting an original range to normalized", "statement": "For an original range a < b on a well-formed string, CoerceRangeToNormalized returns a range on character boundaries that contains only bytes whose spans lie inside a..b and all bytes with a non-empty span inside a..b, and starts at such a byte unless empty; it reports failure exactly if no span ends by b. Converting a non-empty result back never leaves a..b, and converting a normalized range to original and back never loses bytes with a non-empty span.", "quantifier": "every well-formed string and every original range", "why_tests_cant": "all ranges of all alignment tables", "anchors": ["normalizedstring/normalizedstring.go:CoerceRangeToNormalized", "normalizedstring/normalizedstring.go:GetRange"]}
{"id": "C22", "title": "Out-of-range requests are reported, not fatal", "statement": "CoerceRangeTo*, GetRange and GetOriginalRange report failure (ok = false) for ranges that target something out of range, and never panic.", "quantifier": "every string and every integer range", "why_tests_cant": "all integer pairs, both referentials", "anchors": ["normalizedstring/normalizedstring.go:CoerceRangeToNormalized", "normalizedstring/normalizedstring.go:CoerceRangeToOriginal", "normalizedstring/normalizedstring.go:GetRange", "normalizedstring/normalizedstring.go:GetOriginalRange"]}
{"id": "C23", "title": "Rune-predicate pattern covers the string and finds exactly the accepted runes", "statement": "For valid UTF-8 s, FromFunc(f).FindMatches(s) returns contiguous ordered captures covering 0..len(s); the matches are exactly the single characters accepted by f and the non-matches are the maximal runs of rejected characters (one empty non-match for the empty string). FromRune(r) is the case f = (== r).", "quantifier": "every valid UTF-8 string and every predicate", "why_tests_cant": "all strings and predicates", "anchors": ["splitpattern/func.go:FindMatches", "splitpattern/rune.go:FromRune"]}
{"id": "C24", "title": "Regexp pattern covers the string", "statement": "For any s and any ordered, non-overlapping, in-bounds match list delivered by the regexp engine, FromRegexp(r).FindMatches(s) returns contiguous ordered captures covering 0..len(s), whose matching captures are exactly the engine's matches and whose non-matching captures are non-empty (except on the empty string).", "quantifier": "every string and every engine answer", "why_tests_cant": "engine answers with adjacent, empty, leading and trailing matches", "anchors": ["splitpattern/regexp.go:FindMatches"]}
{"id": "C25", "title": "Regexp2 pattern covers the string on character boundaries", "statement": "For valid UTF-8 s and any ordered, non-overlapping, in-bounds list of rune-indexed matches delivered by the regexp2 engine, FromRegexp2(r).FindMatches(s) returns contiguous ordered captures covering 0..len(s), all on character boundaries, and its matching captures are exactly the byte ranges of the engine's matches; engine errors are returned unchanged.", "quantifier": "every valid UTF-8 string and every engine answer", "why_tests_cant": "rune index to byte offset conversion over all multi-byte strings", "anchors": ["splitpattern/regexp2.go:FindMatches"]}
{"id": "C26", "title": "String pattern finds leftmost non-overlapping occurrences and covers the string", "statement": "FromString(p).FindMatches(s) covers 0..len(s) with contiguous ordered captures; matches are the leftmost non-overlapping occurrences of p (none for the empty p).", "quantifier": "all valid UTF-8 strings s and patterns p, including the empty pattern", "why_tests_cant": "the empty-pattern branch measures length in runes (FIXME in the code); only multi-byte text shows it", "anchors": ["splitpattern/string.go:FromString", "splitpattern/string.go:FindMatches"]}
{"id": "C27", "title": "Invert flips match flags only", "statement": "Invert(sp).FindMatches has the same offsets and errors as sp.FindMatches with every IsMatch negated; inverting twice is the identity; Split(Invert(sp), Removed) keeps exactly what Split(sp, Removed) drops.", "quantifier": "every pattern and string", "why_tests_cant": "law over all patterns", "anchors": ["splitpattern/invertedpattern.go:FindMatches"]}
{"id": "C28", "title": "Vocabulary grown by AddTerm is a dense bijection", "statement": "After any sequence of AddTerm calls on NewVocabulary(), terms have the IDs 0..Size()-1 in order of first insertion, GetString(GetID(t)) = t for every known term, GetID(GetString(i)) = i for every i < Size(), other lookups fail, re-adding is a no-op and IDs once given never change.", "quantifier": "every finite sequence of AddTerm calls", "why_tests_cant": "all histories", "anchors": ["vocabulary/vocabulary.go:AddTerm", "vocabulary/vocabulary.go:GetID", "vocabulary/vocabulary.go:GetString", "vocabulary/vocabulary.go:Size"]}
{"id": "C29", "title": "Vocabulary loaded from JSON round-trips", "statement": "For a JSON object with pairwise distinct IDs, FromJSONFile gives GetString(GetID(t)) = t and GetID(GetString(i)) = i, whatever order Go iterates its map in.", "quantifier": "every decoded JSON object and every map iteration order", "why_tests_cant": "Go randomises map iteration; a test sees one order per run", "anchors": ["vocabulary/vocabulary.go:FromJSONFile"]}
{"id": "C30", "title": "AddTerm keeps a loaded vocabulary consistent", "statement": "AddTerm on a vocabulary loaded from JSON gives the new term a fresh ID and keeps all existing ID-term associations.", "quantifier": "every decoded JSON object and every sequence of AddTerm calls", "why_tests_cant": "depends on which IDs the file uses", "anchors": ["vocabulary/vocabulary.go:AddTerm", "vocabulary/vocabulary.go:FromJSONFile"]}
{"id": "C31", "title": "MergeMapFromFile ranks merges by line order", "statement": "If loading succeeds, every non-comment line 'l r' is in the map: the pair (id l, id r) maps to the ID of l ++ r[prefixLength:] with rank the number of non-comment lines before the last line that names this pair, and the map has no other entries.", "quantifier": "every file content, vocabulary and prefix length", "why_tests_cant": "all files, duplicates and comment placements", "anchors": ["models/bpemodel/mergemap.go:MergeMapFromFile", "models/bpemodel/mergemap.go:Get", "models/bpemodel/mergemap.go:Set"]}
{"id": "C32", "title": "MergeMapFromFile reports the first bad line and never panics", "statement": "If some non-comment line is malformed or names a token (left, right or merged) out of vocabulary, loading fails with an error carrying the 1-based number of the first such line and no map is returned; loading never panics.", "quantifier": "every file content, vocabulary and prefix length", "why_tests_cant": "all malformed inputs", "anchors": ["models/bpemodel/mergemap.go:MergeMapFromFile"]}
{"id": "C33", "title": "The merge queue is a priority queue", "statement": "For any interleaving of pushes and pops, WordMergeHeap (driven by container/heap) pops an entry that is minimal by (rank, position) among those present and loses or duplicates none.", "quantifier": "every finite sequence of pushes and pops", "why_tests_cant": "all interleavings and sizes", "anchors": ["models/bpemodel/wordmerge.go:Less", "models/bpemodel/wordmerge.go:Swap", "models/bpemodel/wordmerge.go:Push", "models/bpemodel/wordmerge.go:Pop"]}
{"id": "C34", "title": "MergeAll without dropout is textbook BPE", "statement": "For merges that concatenate (an additive positive size on IDs exists), Word.MergeAll with dropout 0 yields the result of repeatedly merging the leftmost adjacent pair of lowest rank until no adjacent pair has a merge.", "quantifier": "every symbol sequence built with Add and every concatenating merge map", "why_tests_cant": "lazy deletion and stale queue entries over arbitrary words and merge tables", "anchors": ["models/bpemodel/word.go:MergeAll", "models/bpemodel/word.go:MergeWith", "models/bpemodel/wordmerge.go:Less"]}
{"id": "C35", "title": "MergeAll terminates, never panics and conserves length", "statement": "For every word built with Add from positive lengths, every merge map, every dropout setting and every random stream, MergeAll terminates without panic; the result is obtained from the input by merging adjacent pairs that have a merge; the total byte length is conserved.", "quantifier": "all words, merge maps, dropout outcomes", "why_tests_cant": "termination and safety over all random streams", "anchors": ["models/bpemodel/word.go:MergeAll", "models/bpemodel/word.go:removeSymbol", "models/bpemodel/word.go:Add"]}
{"id": "C36", "title": "MergeAll without dropout saturates", "statement": "After MergeAll with dropout 0 no two adjacent symbols have a merge.", "quantifier": "all words and all merge maps (even non-concatenating ones)", "why_tests_cant": "relies on the queue invariant for every word", "anchors": ["models/bpemodel/word.go:MergeAll"]}
{"id": "C37", "title": "Dropout 1 performs no merges", "statement": "With dropout >= 1 MergeAll leaves the word as it was, so tokenization yields characters.", "quantifier": "all words and merge maps", "why_tests_cant": "all words", "anchors": ["models/bpemodel/word.go:MergeAll", "models/bpemodel/bpemodel.go:Tokenize"]}
{"id": "C38", "title": "BPE token offsets tile the input", "statement": "For valid UTF-8 input, the offsets of the tokens returned by BPEModel.Tokenize are contiguous, non-empty and cover 0..len(sequence), with ends on character boundaries.", "quantifier": "every input, vocabulary, merge map, configuration and random stream", "why_tests_cant": "all inputs and configurations", "anchors": ["models/bpemodel/bpemodel.go:Tokenize", "models/bpemodel/bpemodel.go:mergeWord", "models/bpemodel/bpemodel.go:wordToTokens"]}
{"id": "C39", "title": "BPE tokens are faithful to the text", "statement": "With merges loaded by MergeMapFromFile (prefix length 0) over a bijective vocabulary containing every character of the input and no prefix/suffix configured, the Value of every returned token equals the text of the input at its Offsets and the vocabulary maps ID and Value to each other.", "quantifier": "all inputs, vocabularies and merge files", "why_tests_cant": "holds through arbitrary merge chains", "anchors": ["models/bpemodel/bpemodel.go:Tokenize", "models/bpemodel/bpemodel.go:wordToTokens"]}
{"id": "C40", "title": "BPE continuing-subword prefix applies to non-initial characters", "statement": "With a continuing-subword prefix configured, the initial symbol of a word is looked up without it and every later one with it (documented: a prefix to use on any subword that exists only behind another one).", "quantifier": "all inputs and vocabularies", "why_tests_cant": "depends on position and configuration", "anchors": ["models/bpemodel/bpemodel.go:mergeWord"]}
{"id": "C41", "title": "BPE unknown handling", "statement": "With an unknown token configured, each character missing from the vocabulary yields an unknown symbol of its byte length, and with fusion enabled each maximal run of such characters yields exactly one unknown symbol of the total length; if the unknown token itself is missing, Tokenize of any non-empty input fails with ErrUnknownTokenOutOfVocabulary.", "quantifier": "all inputs and vocabularies, both fusion settings", "why_tests_cant": "all runs and positions", "anchors": ["models/bpemodel/bpemodel.go:mergeWord"]}
{"id": "C42", "title": "BPE answers do not depend on call history", "statement": "Without dropout, Tokenize(s) returns the same result after any sequence of earlier calls (the cache is transparent) and never modifies the model.", "quantifier": "all call sequences", "why_tests_cant": "all histories", "anchors": ["models/bpemodel/bpemodel.go:tokenizeWithCache", "models/bpemodel/wordcache.go:Get", "models/bpemodel/wordcache.go:Set"]}
{"id": "C43", "title": "WordPiece tokens tile the input and are in the vocabulary", "statement": "Tokenize never panics and always terminates; if it succeeds, the tokens are either one unknown token over 0..len(s), or contiguous non-empty tokens covering 0..len(s), each with Value = the text at its Offsets (with the continuing prefix iff Start > 0) and ID = the vocabulary ID of Value.", "quantifier": "every byte string, vocabulary, prefix and limit", "why_tests_cant": "all strings and vocabularies", "anchors": ["models/wordpiecemodel/wordpiecemodel.go:Tokenize"]}
{"id": "C44", "title": "WordPiece is greedy longest-match-first", "statement": "For words within the length limit over valid UTF-8 and a vocabulary of valid UTF-8 terms, Tokenize yields the greedy longest-match-first segmentation over characters, and the unknown token exactly when that segmentation does not exist.", "quantifier": "every valid UTF-8 word and vocabulary", "why_tests_cant": "all words; multi-byte characters exercise the backwards stepping", "anchors": ["models/wordpiecemodel/wordpiecemodel.go:Tokenize"]}
{"id": "C45", "title": "WordPiece fails only when the unknown token is needed and missing", "statement": "Tokenize returns an error iff the word is too long or has no segmentation found, and the unknown token is not in the vocabulary; words longer than the limit (in characters) always give the unknown token.", "quantifier": "every word, vocabulary and limit", "why_tests_cant": "all words", "anchors": ["models/wordpiecemodel/wordpiecemodel.go:Tokenize"]}
{"id": "C46", "title": "WordPiece never cuts a character", "statement": "For valid UTF-8 input, a prefix that is valid UTF-8 and a vocabulary of valid UTF-8 terms, every token offset is a character boundary.", "quantifier": "every valid word and vocabulary", "why_tests_cant": "the search steps through byte positions inside characters", "anchors": ["models/wordpiecemodel/wordpiecemodel.go:Tokenize"]}
{"id": "C47", "title": "Encodings are parallel arrays", "statement": "EncodingFromEncodableTokens yields arrays of one common length; entry k of each is the field of token k, with special mask 0 and attention mask 1, and no overflow.", "quantifier": "every token list", "why_tests_cant": "all lengths", "anchors": ["encodings/encodings.go:EncodingFromEncodableTokens", "encodings/encodings.go:Len", "encodings/encodings.go:IsEmpty"]}
{"id": "C48", "title": "PreTokenizedString.Split: order, emptiness, tokenized splits", "statement": "A successful Split replaces each not-yet-tokenized split, in order, by the non-empty results of the split function and keeps already tokenized splits unchanged in place; the split function is called exactly on the untokenized ones with their index.", "quantifier": "every split list and split function", "why_tests_cant": "all functions and lists", "anchors": ["pretokenizedstring/pretokenizedstring.go:Split"]}
{"id": "C49", "title": "Failed steps do not lose splits", "statement": "If the split, normalize or tokenize function fails on some split, the error is returned unchanged, the list of splits keeps its length and order, later splits are untouched and no tokens are lost.", "quantifier": "every split list, function and failing position", "why_tests_cant": "all failure points", "anchors": ["pretokenizedstring/pretokenizedstring.go:Split", "pretokenizedstring/pretokenizedstring.go:Normalize", "pretokenizedstring/pretokenizedstring.go:Tokenize"]}
{"id": "C50", "title": "Tokenize attaches tokens exactly once and can be resumed", "statement": "A successful Tokenize leaves every split tokenized, calls the tokenizer exactly on the untokenized splits and never overwrites tokens; after a failure, calling it again only processes the remaining ones and yields the same final state as an uninterrupted run.", "quantifier": "every split list, tokenizer and failure position", "why_tests_cant": "all failure points", "anchors": ["pretokenizedstring/pretokenizedstring.go:Tokenize"]}
{"id": "C51", "title": "IntoEncoding succeeds iff everything is tokenized, and numbers words", "statement": "IntoEncoding fails iff some split is untokenized; otherwise the encoding lists all tokens of all splits in order, each with the given type ID and word index = wordIndex if >= 0 and the split's index otherwise.", "quantifier": "every split list, word index and type ID", "why_tests_cant": "all lists", "anchors": ["pretokenizedstring/pretokenizedstring.go:IntoEncoding"]}
{"id": "C52", "title": "Encoding offsets point into the original text", "statement": "For splits produced from a reachable string and tokens with non-empty in-bounds offsets, IntoEncoding does not panic and every encoding offset is the absolute span in the original string of the characters the token covers, inside the offsets of its split.", "quantifier": "every reachable pre-tokenized string and token list", "why_tests_cant": "all histories", "anchors": ["pretokenizedstring/pretokenizedstring.go:IntoEncoding"]}
{"id": "C53", "title": "Byte split listings", "statement": "GetNormalizedByteSplits assigns to the splits contiguous ranges starting at 0 whose lengths are those of the splits' texts; GetOriginalByteSplits reports each split's text, absolute original offsets and tokens.", "quantifier": "every pre-tokenized string", "why_tests_cant": "all lists", "anchors": ["pretokenizedstring/pretokenizedstring.go:GetNormalizedByteSplits", "pretokenizedstring/pretokenizedstring.go:GetOriginalByteSplits"]}
{"id": "C54", "title": "Delimiter pre-tokenizers yield exactly the fields of the text", "statement": "For valid UTF-8 text, WhiteSpaceSplitPreTokenizer and RuneDelimiterPreTokenizer yield exactly the maximal delimiter-free non-empty segments of the text, in order, each with its byte offsets in the text.", "quantifier": "every valid UTF-8 text and delimiter", "why_tests_cant": "all texts", "anchors": ["pretokenizers/whitespacesplitpretokenizer/whitespacesplitpretokenizer.go:PreTokenize", "pretokenizers/runedelimiterpretokenizer/runedelimiterpretokenizer.go:PreTokenize"]}
{"id": "C55", "title": "BERT pre-tokenizer", "statement": "For valid UTF-8 text, BertPreTokenizer yields, in order and with exact byte offsets, every punctuation character on its own and every maximal run of characters that are neither white space nor punctuation; nothing else.", "quantifier": "every valid UTF-8 text", "why_tests_cant": "all texts", "anchors": ["pretokenizers/bertpretokenizer/bertpretokenizer.go:PreTokenize"]}
{"id": "C56", "title": "Metaspace pre-tokenizer", "statement": "For valid UTF-8 text, MetaSpacePreTokenizer yields pieces whose texts concatenate to the text with every ' ' replaced by the replacement rune (and the replacement prepended if enabled and missing); every piece after the first starts with the replacement, and no piece contains it elsewhere.", "quantifier": "every valid UTF-8 text and replacement rune (a Unicode scalar value)", "why_tests_cant": "all texts", "anchors": ["pretokenizers/metaspacepretokenizer/metaspacepretokenizer.go:PreTokenize"]}
{"id": "C57", "title": "The byte-level alphabet is a bijection", "statement": "The byte-to-rune table of ByteLevelPreTokenizer is injective on the 256 byte values, maps to valid printable non-space runes, and fixes the printable ASCII bytes; so byte-level text determines the original bytes.", "quantifier": "all 256 bytes and all byte strings", "why_tests_cant": "all byte strings", "anchors": ["pretokenizers/bytelevelpretokenizer/bytelevelpretokenizer.go:byteToRune", "pretokenizers/bytelevelpretokenizer/bytelevelpretokenizer.go:init"]}
{"id": "C58", "title": "Byte-level pre-tokenizer is lossless", "statement": "For valid UTF-8 text and a splitting regexp with any well-formed answers, ByteLevelPreTokenizer succeeds; decoding the pieces' texts through the byte table and concatenating gives back the text (with the prefix space if enabled and needed), and each piece's characters keep the span of the character whose byte they stand for.", "quantifier": "every valid UTF-8 text and regexp answer", "why_tests_cant": "all texts", "anchors": ["pretokenizers/bytelevelpretokenizer/bytelevelpretokenizer.go:PreTokenize"]}
{"id": "C59", "title": "White-space pre-tokenizer yields exactly the regexp matches", "statement": "For valid UTF-8 text and any well-formed regexp answers, WhiteSpacePreTokenizer yields exactly the non-empty matches with their byte offsets; with the default regexp these are the maximal runs of word characters and of other non-space characters.", "quantifier": "every valid UTF-8 text", "why_tests_cant": "all texts", "anchors": ["pretokenizers/whitespacepretokenizer/whitespacepretokenizer.go:PreTokenize"]}
{"id": "C60", "title": "BERT normalizer: text", "statement": "On well-formed strings BertNormalizer never panics and its text is: control characters, U+0000 and U+FFFD removed and white space turned into ' ' (cleaning), a space put on both sides of each Chinese character, non-spacing marks removed, lower-cased - each step iff enabled.", "quantifier": "every well-formed string, every flag combination and all Unicode tables", "why_tests_cant": "all texts", "anchors": ["normalizers/bertnormalizer/bertnormalizer.go:Normalize", "normalizers/bertnormalizer/bertnormalizer.go:cleanText", "normalizers/bertnormalizer/bertnormalizer.go:handleChineseChars", "normalizers/bertnormalizer/bertnormalizer.go:stripAccents"]}
{"id": "C61", "title": "BERT Chinese-character table covers the CJK ideograph blocks", "statement": "A rune is treated as Chinese exactly if it lies in one of the CJK Unified Ideographs blocks (base, extensions A-E) or the compatibility blocks.", "quantifier": "all code points", "why_tests_cant": "1.1 million code points", "anchors": ["normalizers/bertnormalizer/bertnormalizer.go:chineseCharacters"]}
{"id": "C62", "title": "Sequence normalizer composes and stops at the first error", "statement": "SequenceNormalizer applies its normalizers left to right; if one fails, its error is returned, the later ones are not run and the string is in the state the failing one left it in; a sequence of sequences equals the flattened sequence.", "quantifier": "every list of normalizers and every string", "why_tests_cant": "all lists and failure points", "anchors": ["normalizers/sequencenormalizer/sequencenormalizer.go:Normalize"]}
{"id": "C63", "title": "End to end: WordPiece encodings quote the input", "statement": "For valid UTF-8 text split by a delimiter pre-tokenizer and tokenized by WordPieceModel, every non-unknown entry of the resulting Encoding has Tokens[k] = text[Offsets[k]] (with the continuing prefix stripped), the offsets are ordered and disjoint, and together they cover exactly the non-delimiter text.", "quantifier": "every valid UTF-8 text, delimiter set or the BERT or the regexp whitespace pre-tokenizer, vocabulary of valid UTF-8 terms (as any loaded from JSON) and valid UTF-8 prefix", "why_tests_cant": "composition of all layers over all texts", "anchors": ["pretokenizedstring/pretokenizedstring.go:IntoEncoding", "models/wordpiecemodel/wordpiecemodel.go:Tokenize", "pretokenizers/whitespacesplitpretokenizer/whitespacesplitpretokenizer.go:PreTokenize"]}
{"id": "C64", "title": "End to end: BPE encodings quote the input", "statement": "For valid UTF-8 text split by a delimiter pre-tokenizer and tokenized by BPEModel as in C39, every entry of the resulting Encoding has Tokens[k] = text[Offsets[k]], the offsets are ordered and disjoint and cover exactly the non-delimiter text.", "quantifier": "every valid UTF-8 text, delimiter set or the BERT or the regexp whitespace pre-tokenizer, vocabulary and merge file", "why_tests_cant": "composition of all layers over all texts", "anchors": ["pretokenizedstring/pretokenizedstring.go:IntoEncoding", "models/bpemodel/bpemodel.go:Tokenize"]}
{"id": "C65", "title": "Every entry point is total on invalid UTF-8", "statement": "FromString, the split patterns and the normalizers keep their contracts (one alignment per byte, captures covering the string) and do not panic on strings that are not valid UTF-8.", "quantifier": "every byte string", "why_tests_cant": "all byte strings", "anchors": ["normalizedstring/normalizedstring.go:alignmentsFromString", "splitpattern/func.go:FindMatches", "splitpattern/regexp2.go:FindMatches", "normalizedstring/normalizedstring.go:Prepend"]}
{"id": "C66", "title": "Lower-case and strip normalizers", "statement": "LowerCaseNormalizer maps every character to lower case and keeps its span; StripNormalizer removes exactly the maximal runs of white space on the enabled sides and keeps the spans of the rest. Neither panics or returns an error on a well-formed string.", "quantifier": "every well-formed string, flag combination and case mapping", "why_tests_cant": "all texts", "anchors": ["normalizers/lowercasenormalizer/lowercasenormalizer.go:Normalize", "normalizers/stripnormalizer/stripnormalizer.go:Normalize"]}
{"id": "C67", "title": "End to end: byte-level BPE is lossless", "statement": "For valid UTF-8 text pre-tokenized by ByteLevelPreTokenizer (with or without the space prefix, default splitting regexp) and tokenized by a BPEModel whose vocabulary has a term for each byte, every text has an encoding without unknown tokens; the tokens, concatenated and read back byte by byte, are the text (with the added space, if one was added); and the offsets of each entry are the smallest range of whole characters of the original text around its bytes.", "quantifier": "every valid UTF-8 text, byte-level vocabulary, merge file, dropout draws, reading of the regexp's character classes", "why_tests_cant": "composition of all layers over all texts and vocabularies", "anchors": ["pretokenizers/bytelevelpretokenizer/bytelevelpretokenizer.go:PreTokenize", "models/bpemodel/bpemodel.go:Tokenize", "pretokenizedstring/pretokenizedstring.go:IntoEncoding"]}
{"id": "C68", "title": "End to end: encodings of normalized text point into the original", "statement": "For text normalized in any way (in particular by BertNormalizer), split by a delimiter, the BERT or the regexp whitespace pre-tokenizer and tokenized by WordPieceModel or BPEModel, the entries quote consecutive parts of the pieces of the normalized text, and the offsets of each entry are the span of the original text that the characters of its part came from.", "quantifier": "every edited string, delimiter set, vocabulary; for BERT every valid UTF-8 text and option combination", "why_tests_cant": "composition of all layers over all texts and edit histories", "anchors": ["pretokenizedstring/pretokenizedstring.go:IntoEncoding", "normalizers/bertnormalizer/bertnormalizer.go:Normalize", "models/wordpiecemodel/wordpiecemodel.go:Tokenize", "models/bpemodel/bpemodel.go:Tokenize"]}
{"id": "C69", "title": "BPE: any run of tokens is the answer for its own text", "statement": "If BPEModel (no dropout, characters known, as in C39) tokenizes a text into tokens, then tokenizing the text covered by any run of consecutive tokens gives exactly these tokens, with their offsets counted from the start of the run: no merge ever looks across a token boundary of the answer.", "quantifier": "every vocabulary, merge file, valid UTF-8 text and run of tokens", "why_tests_cant": "all texts and all ways to cut the answer", "anchors": ["models/bpemodel/bpemodel.go:Tokenize", "models/bpemodel/word.go:MergeAll"]}
{"id": "C70", "title": "WordPiece: the first tokens are the answer for the text they cover", "statement": "If WordPieceModel tokenizes a word and the first tokens cover a prefix of it, tokenizing that prefix gives exactly these tokens.", "quantifier": "every vocabulary, word and cut", "why_tests_cant": "all words and all ways to cut the answer", "anchors": ["models/wordpiecemodel/wordpiecemodel.go:Tokenize"]}
{"id": "C71", "title": "Normalizing twice is normalizing once", "statement": "Filter, StripNormalizer, LowerCaseNormalizer and BertNormalizer are idempotent on well-formed strings, on text and spans alike, if lower-casing settles in one step.", "quantifier": "every well-formed string, predicate, option combination and Unicode table", "why_tests_cant": "all texts and tables", "anchors": ["normalizers/bertnormalizer/bertnormalizer.go:Normalize", "normalizers/stripnormalizer/stripnormalizer.go:Normalize", "normalizers/lowercasenormalizer/lowercasenormalizer.go:Normalize", "normalizedstring/normalizedstring.go:Filter"]}
{"id": "C72", "title": "Metaspace and BPE lose nothing", "statement": "With the metaspace pre-tokenizer and a BPE model that knows every character and meta symbol, the tokens of the encoding spell the text with its spaces replaced; the offsets follow each other from 0 to the end of the text (an added symbol that stays a token of its own shares those of the first character), and the text can be read back from the tokens.", "quantifier": "every valid text, meta symbol, prefix option, vocabulary, merges file and dropout decisions", "why_tests_cant": "all texts, models and dropout decisions", "anchors": ["pretokenizers/metaspacepretokenizer/metaspacepretokenizer.go:PreTokenize", "models/bpemodel/bpemodel.go:Tokenize", "pretokenizedstring/pretokenizedstring.go:IntoEncoding"]}
{"id": "C73", "title": "Texts can be encoded in parts", "statement": "The encoding of two texts with a delimiter between them (a character the pre-tokenizer removes) is the encoding of the first text followed by that of the second, with the offsets moved by the bytes before the second text and the word indices by the number of words before it; if one of them fails, the first failure is the answer.", "quantifier": "every pair of valid texts, delimiter, whitespace split / rune delimiter / BERT / regexp whitespace pre-tokenizer, WordPiece and BPE model and dropout decisions", "why_tests_cant": "all pairs of texts, models and dropout decisions; a test compares a few sums", "anchors": ["pretokenizedstring/pretokenizedstring.go:IntoEncoding", "pretokenizedstring/pretokenizedstring.go:Tokenize", "pretokenizers/whitespacesplitpretokenizer/whitespacesplitpretokenizer.go:PreTokenize", "models/bpemodel/bpemodel.go:Tokenize", "models/wordpiecemodel/wordpiecemodel.go:Tokenize"]}
{"id": "C74", "title": "Pre-tokenizing twice changes nothing", "statement": "Running the whitespace-split, rune-delimiter, BERT, metaspace or (with the default regexp) Whitespace pre-tokenizer a second time leaves every piece as it was: text, alignment, original text and place. It does not hold for the byte-level one, which spells the characters standing for bytes in bytes again.", "quantifier": "every pre-tokenized string any history of calls can produce, delimiter, meta symbol, prefix option, punctuation table and classes of the regexp", "why_tests_cant": "all texts and all earlier normalizations and cuts; tests run a pre-tokenizer once", "anchors": ["pretokenizers/metaspacepretokenizer/metaspacepretokenizer.go:PreTokenize", "pretokenizers/bertpretokenizer/bertpretokenizer.go:PreTokenize", "pretokenizers/whitespacepretokenizer/whitespacepretokenizer.go:PreTokenize", "pretokenizedstring/pretokenizedstring.go:Split", "normalizedstring/normalizedstring.go:Split"]}
{"id": "C75", "title": "Only the IDs in the answers depend on the IDs of the vocabulary", "statement": "Two vocabularies of the same terms, whatever IDs these have, and one merge file give the same merges or the same error, the same BPE and WordPiece tokens (values, offsets, errors; dropout included) and the same encodings, except that the IDs are those of the other vocabulary; so the order in which terms are added does not matter. It does not hold if the merges of the one vocabulary are used with the other.", "quantifier": "every pair of vocabularies with one ID per term over the same terms, merge file, model setting, sequence of random numbers, text, normalization and pre-tokenizer", "why_tests_cant": "all renumberings and all texts; a test fixes one vocabulary file, so a place where two IDs are compared by size would not show", "anchors": ["models/bpemodel/word.go:MergeAll", "models/bpemodel/bpemodel.go:Tokenize", "models/bpemodel/mergemap.go:MergeMapFromFile", "models/wordpiecemodel/wordpiecemodel.go:Tokenize", "pretokenizedstring/pretokenizedstring.go:IntoEncoding"]}
{"id": "C76", "title": "Lower-casing before or after pre-tokenizing is the same", "statement": "If a replacement of single characters (lower-casing) never turns a character that is cut at into one that is not, or the reverse, then pre-tokenizing and then replacing gives exactly the same pre-tokenized string (texts, alignments, positions) as replacing and then pre-tokenizing, from any reachable state; encodings agree too. For every behaviour but Contiguous the condition is also necessary. Without it the claim is false.", "quantifier": "every reachable pre-tokenized string, character replacement, rune predicate, split behaviour, model", "why_tests_cant": "all texts and all histories of edits; the two orders go through different alignments and different slices", "anchors": ["normalizedstring/normalizedstring.go:Map", "normalizedstring/normalizedstring.go:Split", "pretokenizedstring/pretokenizedstring.go:Split", "pretokenizedstring/pretokenizedstring.go:Normalize", "pretokenizers/bertpretokenizer/bertpretokenizer.go:PreTokenize", "normalizers/lowercasenormalizer/lowercasenormalizer.go:Normalize"]}
{"id": "C77", "title": "Any history of the library's own stages keeps the text and the invariants", "statement": "Whatever normalizers, pre-tokenizers and models of the library are applied to a text, in any order, with any regular expression engine and any model, and whether or not some of the calls fail: the pre-tokenized string keeps the original text, every piece keeps the alignment invariants and stands for a range of the original text.", "quantifier": "every text, every finite sequence of calls, nested sequences of normalizers, every engine and model, errors included", "why_tests_cant": "unboundedly many stages in any order; failures in the middle leave partly modified states", "anchors": ["pretokenizedstring/pretokenizedstring.go:Split", "pretokenizedstring/pretokenizedstring.go:Normalize", "pretokenizedstring/pretokenizedstring.go:Tokenize", "pretokenizers/bytelevelpretokenizer/bytelevelpretokenizer.go:PreTokenize", "pretokenizers/metaspacepretokenizer/metaspacepretokenizer.go:PreTokenize", "normalizers/bertnormalizer/bertnormalizer.go:Normalize", "normalizers/sequencenormalizer/sequencenormalizer.go:Normalize"]}
{"id": "C78", "title": "Tokens and pieces come in the order of the text and share at most one character", "statement": "After any history of the library's stages with engines whose matches follow each other and models whose tokens do (BPE always; WordPiece iff its limit is not negative or it has no unknown token), the offsets of the tokens of the encoding, and those of the pieces, are non-empty ranges of whole characters of the original text in its order; of two of them the first ends before the second starts, or they share exactly one character, the last of the first and the first of the second. That they never share is false.", "quantifier": "every text, every finite sequence of calls, every sound engine and orderly model, all pairs of tokens and pieces", "why_tests_cant": "unboundedly many stages, insertions and removals in between, alignments shared by several characters", "anchors": ["pretokenizedstring/pretokenizedstring.go:IntoEncoding", "pretokenizedstring/pretokenizedstring.go:Split", "pretokenizedstring/pretokenizedstring.go:GetOriginalByteSplits", "normalizedstring/normalizedstring.go:TransformRange", "normalizedstring/normalizedstring.go:Prepend", "normalizedstring/normalizedstring.go:CoerceRangeToOriginal", "models/bpemodel/bpemodel.go:Tokenize", "models/wordpiecemodel/wordpiecemodel.go:Tokenize"]}
{"id": "C79", "title": "MergeAll takes linearly many steps without dropout, quadratically many with it", "statement": "On a word of n symbols of positive length the main loop of MergeAll ends after at most (n-1)+(2n-5) iterations (differences cut off at 0) if there is no dropout, and after at most k(k-1)/2+(n-1) iterations, k=(n-1)+(2n-5), whatever is dropped; so Tokenize does without dropout, n being the number of characters.", "quantifier": "every word, every merge map, every dropout and every sequence of draws", "why_tests_cant": "the loop runs until a queue that grows while it runs is empty; the worst case depends on ranks and draws", "anchors": ["models/bpemodel/word.go:MergeAll", "models/bpemodel/bpemodel.go:mergeWord"]}
{"id": "C80", "title": "Answers depend only on the terms and merges that a text can reach", "statement": "MergeAll gives the same for two merge maps that agree on all pairs of neighbours that merging can produce; BPE models that moreover agree on the terms of the text's characters, the unknown token and the IDs that come up tokenize it alike. In particular, new terms, and new lines at the end of the merge file each of which merges a new term, change nothing for texts without a character that is a new term. WordPiece models that agree on the unknown token and on the parts of the text (with the prefix if not at its start) tokenize it alike; so terms added to a vocabulary matter only to texts that contain them.", "quantifier": "every pair of models, every text, every dropout and every sequence of draws", "why_tests_cant": "relates two runs on models that differ in unboundedly many entries", "anchors": ["models/bpemodel/word.go:MergeAll", "models/bpemodel/bpemodel.go:Tokenize", "models/bpemodel/mergemap.go:MergeMapFromFile", "models/wordpiecemodel/wordpiecemodel.go:Tokenize", "vocabulary/vocabulary.go:AddTerm"]}
{"id": "C81", "title": "A vocabulary file is read exactly as the JSON document it is", "statement": "FromJSONFile succeeds exactly on the bytes that are, as UTF-8 with undecodable bytes read as U+FFFD, a JSON object whose values are 64-bit integer literals or null, or the document null. GetID then answers what the last member of each name says (null says 0), and nothing else. No text denotes two documents. Writing distinct terms with distinct IDs in the usual notation and loading the file gives back exactly these terms and IDs; white space, escapes, the order of members and the order of map iteration do not matter if IDs are distinct.", "quantifier": "every file (any bytes), every vocabulary, every iteration order", "why_tests_cant": "a grammar with unboundedly many texts; escapes, surrogates and invalid UTF-8 interact", "anchors": ["vocabulary/vocabulary.go:FromJSONFile", "vocabulary/vocabulary.go:GetID", "vocabulary/vocabulary.go:GetString"]}
{"id": "C82", "title": "From vocabulary and merges files to token IDs", "statement": "If a vocabulary file denotes a document with distinct IDs for distinct terms, it loads, and with any merges file that loads, the BPE model tokenizes every text of known characters into tokens that spell the text, each with the ID that the document gives to its text. The tokens of a WordPiece model with a loaded vocabulary are pieces of the text (with the prefix if not at its start) with the IDs that the document gives to them, or the answer is the one for unknown words.", "quantifier": "every vocabulary file, every merges file, every text, every dropout, every sequence of draws", "why_tests_cant": "whole executions from the bytes of the files on", "anchors": ["vocabulary/vocabulary.go:FromJSONFile", "models/bpemodel/mergemap.go:MergeMapFromFile", "models/bpemodel/bpemodel.go:Tokenize", "models/wordpiecemodel/wordpiecemodel.go:Tokenize"]}
{"id": "C83", "title": "The terms and IDs of a loaded vocabulary are written in the file", "statement": "After FromJSONFile, every ID is written in the file, and different byte strings between quotes are different terms.", "quantifier": "every file (any bytes), every iteration order", "why_tests_cant": "a file is any byte string; the exceptions are null values and invalid UTF-8", "anchors": ["vocabulary/vocabulary.go:FromJSONFile"]}
{"id": "C84", "title": "MetaSpacePreTokenizer does what its documentation says", "statement": "As documented, all white space of the text becomes the meta character, and white space is put in front (becoming the meta character too) exactly if the text does not start with white space.", "quantifier": "every text, meta character and setting of the prefix", "why_tests_cant": "the code replaces U+0020 only and tests for the meta character; ordinary tests have no tabs and no leading spaces", "anchors": ["pretokenizers/metaspacepretokenizer/metaspacepretokenizer.go:PreTokenize"]}
{"id": "C85", "title": "A model that cannot encode a text says so", "statement": "Tokenize returns at least one token, or an error, for every text that is not empty.", "quantifier": "every model, text and random stream", "why_tests_cant": "all vocabularies and texts; a configured model never shows it", "anchors": ["models/bpemodel/bpemodel.go:Tokenize", "models/bpemodel/bpemodel.go:NewDefault", "models/wordpiecemodel/wordpiecemodel.go:Tokenize", "models/wordpiecemodel/wordpiecemodel.go:NewDefault"]}
{"id": "C86", "title": "Laws between edits and slices", "statement": "Mapping by f and then by g is mapping by g after f, mapping by the identity changes nothing; prepending (appending) two texts one after the other is prepending (appending) their concatenation; Trim is TrimLeft and TrimRight in either order; a slice of a slice is a slice, and mapping commutes with slicing. The equations hold for the whole value: original text, normalized text, alignments and shift.", "quantifier": "every normalized string with any history, every f and g that keep scalar values, every valid text and range of characters; Append and Trim where C11 and C09 hold", "why_tests_cant": "an equation between two runs relates arbitrary histories; each side could be consistent alone and still differ from the other in the alignments", "anchors": ["normalizedstring/normalizedstring.go:Map", "normalizedstring/normalizedstring.go:Prepend", "normalizedstring/normalizedstring.go:Append", "normalizedstring/normalizedstring.go:Trim", "normalizedstring/normalizedstring.go:Slice"]}
{"id": "C87", "title": "Filtering in two passes is filtering in one", "statement": "Filter by p and then by q gives the same value as Filter by both at once, and Map followed by Filter is Filter followed by Map.", "quantifier": "every normalized string with any history, every p, q and f", "why_tests_cant": "the shift bug of Filter makes one of two equivalent programs panic or misalign, depending on which characters are removed in front", "anchors": ["normalizedstring/normalizedstring.go:Filter", "normalizedstring/normalizedstring.go:Map"]}
{"id": "C88", "title": "Token IDs determine the text given to a model", "statement": "If two texts get tokens with the same IDs from a model whose vocabulary gives different IDs to different terms, they are the same text.", "quantifier": "every vocabulary, every pair of texts; for BPE every pair of merge files, dropouts and random numbers over one vocabulary", "why_tests_cant": "it relates all pairs of texts; a collision needs two texts that no test puts side by side", "anchors": ["models/bpemodel/bpemodel.go:Tokenize", "models/wordpiecemodel/wordpiecemodel.go:Tokenize"]}
{"id": "C89", "title": "Token IDs determine what was encoded", "statement": "Two texts with the same list of IDs in their encodings have the same words, or the same text where the pre-tokenizer removes nothing.", "quantifier": "every vocabulary, every pair of texts; pieces of the delimiter and BERT pre-tokenizers with WordPiece, byte-level and metaspace with BPE", "why_tests_cant": "collisions are between unrelated inputs (ab and a ##b; a and space a), which tests do not compare", "anchors": ["models/bpemodel/bpemodel.go:Tokenize", "models/wordpiecemodel/wordpiecemodel.go:Tokenize", "pretokenizers/bertpretokenizer/bertpretokenizer.go:PreTokenize", "pretokenizers/bytelevelpretokenizer/bytelevelpretokenizer.go:PreTokenize", "pretokenizers/metaspacepretokenizer/metaspacepretokenizer.go:PreTokenize"]}
{"id": "C90", "title": "Pieces reached through pointers behave like values", "statement": "Split, Normalize and Tokenize, and programs that use the library on several pre-tokenized strings by turns, have the same results as if each pre-tokenized string held its pieces itself: no call changes a string that another one can see.", "quantifier": "every store of normalized strings, every function that modifies only its argument and returns pointers of its own, every program of library calls on any number of pre-tokenized strings", "why_tests_cant": "sharing shows only if two strings live at the same time and one is changed in between", "anchors": ["pretokenizedstring/pretokenizedstring.go:Split", "pretokenizedstring/pretokenizedstring.go:Normalize", "pretokenizedstring/pretokenizedstring.go:Tokenize", "pretokenizedstring/pretokenizedstring.go:FromNormalizedString", "pretokenizers/metaspacepretokenizer/metaspacepretokenizer.go:PreTokenize"]}
{"id": "C91", "title": "Pre-tokenizing one normalized string several times", "statement": "FromNormalizedString and a pre-tokenizer on a string that was already given to the same pre-tokenizer produce the same pieces as the first time and do not disturb them.", "quantifier": "every store, pointer, well-formed normalized string, library pre-tokenizer, options and regexp engine", "why_tests_cant": "the caller's string is changed by some pre-tokenizers; that the second run does not change it further depends on the whole text", "anchors": ["pretokenizedstring/pretokenizedstring.go:FromNormalizedString", "pretokenizers/metaspacepretokenizer/metaspacepretokenizer.go:PreTokenize", "pretokenizers/bytelevelpretokenizer/bytelevelpretokenizer.go:PreTokenize"]}
{"id": "C92", "title": "What every history of calls preserves", "statement": "Whatever is called on a NormalizedString over valid UTF-8, with whatever arguments (Append after any text, Replace with any pattern and content, any slice; TransformRange if its range is text or ends the text), there is one alignment per byte, alignments are ordered ranges of whole characters of the original, the original stays valid, and OriginalAlignments and the conversions of ranges work as documented.", "quantifier": "every valid original string, every sequence of calls that return, every argument", "why_tests_cant": "the texts that break characters apart come from rare combinations of calls", "anchors": ["normalizedstring/normalizedstring.go:TransformRange", "normalizedstring/normalizedstring.go:Append", "normalizedstring/normalizedstring.go:Replace", "normalizedstring/normalizedstring.go:Slice", "normalizedstring/normalizedstring.go:OriginalAlignments", "normalizedstring/normalizedstring.go:CoerceRangeToOriginal"]}
{"id": "C93", "title": "WordPiece looks up quadratically many strings at most", "statement": "Tokenizing a text of n bytes looks up at most n(n+1)/2 strings in the vocabulary, plus one for the unknown token; with a limit of N characters per word at most 2N(4N+1)+1, however long the text; every token takes at least one lookup; and for every n some text of n bytes takes n(n+1)/2. For an ASCII text that is not unknown there is one lookup for each token and each end from that of the text back to that of the token, so n(n+1)/2 if and only if every token is one byte.", "quantifier": "every vocabulary, prefix, unknown token and limit, every string", "why_tests_cant": "running time is not what the tests look at, and the worst case needs a vocabulary made for it", "anchors": ["models/wordpiecemodel/wordpiecemodel.go:Tokenize"]}
{"id": "C94", "title": "Characters and bytes", "statement": "string(r), []rune(s) and range over a string, as the model has them, follow the bit patterns of UTF-8: characters have one encoding each, a byte with which no character starts is U+FFFD and one byte long, runes that are no characters are written as U+FFFD; slices and indices address what they should and panic otherwise; and unicode.White_Space holds the 25 characters of the Unicode standard.", "quantifier": "every rune, every byte string, every slice expression", "why_tests_cant": "all properties rest on this part of the language, and tests run on Go itself", "anchors": ["normalizedstring/normalizedstring.go:FromString", "strutils/strutils.go:IsRuneBoundary", "pretokenizers/whitespacesplitpretokenizer/whitespacesplitpretokenizer.go:PreTokenize"]}
{"id": "C95", "title": "Where the default byte-level pre-tokenizer cuts", "statement": "With the default regexp, as the model reads it, the pieces are those obtained by reading from the left: an apostrophe with one of the endings s, t, re, ve, m, ll, d (up to case); else the longest run of letters, of numbers or of other characters, with a space in front if there is one; else white space, all of it at the end of the text, all but the last character before something else, one character if there is only one. Every text is cut in exactly one such way.", "quantifier": "every text of scalar values, with and without the space prefix; every classification of characters in which no character is of two kinds and the space is white space; every case folding", "why_tests_cant": "the interplay of ten alternatives, greedy repetition and a look-ahead over all texts", "anchors": ["pretokenizers/bytelevelpretokenizer/bytelevelpretokenizer.go:PreTokenize", "pretokenizers/bytelevelpretokenizer/bytelevelpretokenizer.go:DefaultSplittingRegexp"]}
{"id": "C96", "title": "Filter, Trim, Strip and BERT normalization in every case", "statement": "Also when characters of several bytes are removed at the front, the outcome is determined: the number of removed characters is taken for a number of bytes, what is left is read from there on, and each kept character gets the span found at the byte reached so far; the call panics if and only if one of these bytes is beyond the end. In particular a removed character of three bytes, such as a byte order mark, before three or more ASCII characters makes BERT normalization panic.", "quantifier": "every NormalizedString holding UTF-8 text with one span per character (also spans that are out of place), every predicate, every set of options, every classification of characters", "why_tests_cant": "the outcome depends on the byte lengths of all removed and kept characters; tests use short ASCII beginnings", "anchors": ["normalizedstring/normalizedstring.go:Filter", "normalizedstring/normalizedstring.go:TrimLeftRight", "normalizedstring/normalizedstring.go:TransformRange", "normalizers/bertnormalizer/bertnormalizer.go:Normalize", "normalizers/stripnormalizer/stripnormalizer.go:Normalize"]}
{"id": "C97", "title": "MergeAll with dropout is byte pair encoding with dropout", "statement": "For every dropout and every random stream, each draw below the dropout leaves out the leftmost pair of lowest rank among those not yet left out, each other draw merges that pair and makes all pairs eligible again; requests for merges that a neighbouring merge has made impossible stay in the order by rank and start byte, and cost draws as well. It ends when every pair that has a merge is left out, so that these are no more than the draws since the last one that was not dropped. For merges from a file the outcome is determined. The draws are at most quadratic in the number of symbols, and linear without dropout.", "quantifier": "every word, merge map with additive sizes, dropout and random stream", "why_tests_cant": "the outcome depends on the whole random stream and on requests that are no longer valid; the repository tests dropout 0 and 1 and the number of symbols otherwise", "anchors": ["models/bpemodel/word.go:MergeAll"]}
{"id": "C98", "title": "Programs of edits and sequences of normalizers do exactly what their steps say", "statement": "Any sequence of Map, Filter, Trim, Prepend, Replace of characters, BERT normalization and TransformRange (of ranges between characters, with any changes) makes of a text with its spans what the composition of the steps' meanings says, and panics exactly if that composition does; two programs give the same result on a string if and only if they mean the same for its text. The same holds for sequences of the normalizers, nested to any depth, and for Normalize of a PreTokenizedString.", "quantifier": "every aligned text with any history, every program, every table of the Unicode library", "why_tests_cant": "the steps interact through spans that an earlier step has misplaced; a test sees one program on one text", "anchors": ["normalizedstring/normalizedstring.go:Map", "normalizedstring/normalizedstring.go:Filter", "normalizedstring/normalizedstring.go:TrimLeftRight", "normalizedstring/normalizedstring.go:Prepend", "normalizedstring/normalizedstring.go:Replace", "normalizedstring/normalizedstring.go:TransformRange", "normalizers/sequencenormalizer/sequencenormalizer.go:Normalize", "pretokenizedstring/pretokenizedstring.go:Normalize"]}
{"id": "C99", "title": "Any sequence of normalizers in front of a pipeline: the entries quote the normalized text, the offsets point into the original one", "statement": "Encoding a text with any sequence of the normalizers, nested to any depth, then one of the pre-tokenizers that cut at characters and then WordPiece or BPE panics exactly if the normalizers mean a panic for the text; otherwise the entries stand, in order and without gaps, for the parts of the pieces of the normalized text, and their offsets are where these parts came from in the original text. With the byte-level pre-tokenizer, after any normalizers, the tokens spell every byte of the normalized text; with the metaspace one, its characters and the meta symbols.", "quantifier": "every text, every sequence of normalizers, every table of the Unicode library, every vocabulary and merge list", "why_tests_cant": "offsets pass through four stages that each rewrite them; tests pin single stages on fresh texts", "anchors": ["normalizers/sequencenormalizer/sequencenormalizer.go:Normalize", "normalizers/bertnormalizer/bertnormalizer.go:Normalize", "pretokenizers/bytelevelpretokenizer/bytelevelpretokenizer.go:PreTokenize", "pretokenizers/metaspacepretokenizer/metaspacepretokenizer.go:PreTokenize", "pretokenizedstring/pretokenizedstring.go:IntoEncoding"]}
{"id": "C100", "title": "Encoding bytes that are no text", "statement": "Encoding any byte string, valid UTF-8 or not, without pre-tokenizer never panics. With BPE the entries stand, in order and without gaps, for groups of the characters that Go reads (an undecodable byte is one character, U+FFFD), the tokens quote the groups, and the offsets are where the groups are in the string. With WordPiece the offsets of an entry contain the bytes of its token.", "quantifier": "every byte string, BPE and WordPiece model, draws", "why_tests_cant": "invalid UTF-8 occurs at any place and in any number; the tests have none", "anchors": ["normalizedstring/normalizedstring.go:alignmentsFromString", "models/bpemodel/bpemodel.go:mergeWord", "models/wordpiecemodel/wordpiecemodel.go:Tokenize", "pretokenizedstring/pretokenizedstring.go:IntoEncoding"]}
{"id": "C101", "title": "BPE repeats what the training did", "statement": "If the merges file lists its merges in the order of training (no line uses the result of itself or of a later line, none occurs twice), then the terms that Tokenize answers without dropout are the characters of the text after one pass for each line, in the order of the file: each pass joins, from left to right, every left term of the line with a right term that follows it.", "quantifier": "every vocabulary, merges file in training order, text, with and without unknown token", "why_tests_cant": "the queue interleaves merges of different ranks at different places; agreement with passes over the whole word is a fact about all files and texts", "anchors": ["models/bpemodel/word.go:MergeAll", "models/bpemodel/wordmerge.go:Less", "models/bpemodel/mergemap.go:MergeMapFromFile", "models/bpemodel/bpemodel.go:Tokenize"]}
{"id": "C102", "title": "More merges only join tokens", "statement": "Lines added to the end of the merges file that repeat no earlier line only join tokens: each token of the new answer covers one or more consecutive tokens of the old one, spells what they spell, and starts and ends where they do.", "quantifier": "every vocabulary, two merges files of which one continues the other, text, prefix, suffix, unknown token", "why_tests_cant": "relates the answers of two models for all texts and files", "anchors": ["models/bpemodel/word.go:MergeAll", "models/bpemodel/mergemap.go:MergeMapFromFile", "models/bpemodel/bpemodel.go:Tokenize"]}
{"id": "C103", "title": "What dropout can answer", "statement": "With a dropout strictly between 0 and 1, the answers that Tokenize can give for a text, over all random numbers from [0, 1), are exactly the segmentations that can be made by joining neighbouring characters and results by pairs of the merges file, in any order and stopping anywhere. In particular the answer without dropout is among them.", "quantifier": "every vocabulary, merges file, text, dropout between 0 and 1", "why_tests_cant": "a set of answers over all infinite sequences of random numbers", "anchors": ["models/bpemodel/word.go:MergeAll", "models/bpemodel/bpemodel.go:Tokenize"]}
{"id": "C104", "title": "Terms that stand for themselves", "statement": "A term of a WordPiece vocabulary, if it is not empty and not longer than the limit, is the one token of its own text. For BPE (no prefix and suffix, no dropout) a term is the one token of its own text exactly if it is a token of any text at all. So terms of which this is not so are never used; a line of the merges file that makes the term does not help: with the lines b c, a b and ab c, the term abc is never used.", "quantifier": "every vocabulary, merges file, term and text", "why_tests_cant": "an equivalence between one run and the existence of any text with a token", "anchors": ["models/wordpiecemodel/wordpiecemodel.go:Tokenize", "models/bpemodel/bpemodel.go:Tokenize"]}
{"id": "C105", "title": "Vocabularies with every character", "statement": "A WordPiece vocabulary that has all characters of a word (the first one as it is, the others with the prefix) knows the word: its answer is the greedy longest-match segmentation. This holds for words in which no character but the first takes three bytes, and is false for others: \u91ce\u53e3 is unknown to a vocabulary with \u91ce and ##\u53e3. More terms do not always help: a vocabulary with a and ##bc knows abc, with the term ab it does not.", "quantifier": "every vocabulary, word and limit", "why_tests_cant": "an existence claim over all words and vocabularies", "anchors": ["models/wordpiecemodel/wordpiecemodel.go:Tokenize"]}
{"id": "C106", "title": "Words that are merged more than once", "statement": "Word is a public type: MergeAll may be called on a word that has been merged before. It then does the same as on a word that Add makes of the same symbols. False: MergeAll removes merged symbols from the word, but leaves the old places of the neighbours in those that stay, so the next MergeAll panics, or merges symbols that are no neighbours. It holds if only the last symbol is a merged one. Calling MergeAll a second time with the same merges and without dropout changes nothing.", "quantifier": "every word made by Add, two calls of MergeAll with any merges, dropouts and random numbers", "why_tests_cant": "all pairs of calls, and the links of every word that can be left by a run", "anchors": ["models/bpemodel/word.go:MergeAll", "models/bpemodel/word.go:removeSymbol", "models/bpemodel/word.go:Add"]}
{"id": "C107", "title": "How many random numbers a word takes", "statement": "MergeAll on a word of n > 2 symbols runs its loop at most 3n - 6 times without dropout, whatever the merges. With dropout it draws at most (n - 2)(7n - 11)/2 random numbers, whatever the merges and the numbers, and exactly one for each pair with a merge if all are dropped. The result depends on the numbers drawn only; Tokenize of a text of n characters gives the same result for two sources of random numbers that agree on the first (n - 2)(7n - 11)/2.", "quantifier": "every word made by Add, every merge list, every dropout and every source of random numbers", "why_tests_cant": "the worst case needs a merge list and random numbers made for it; tests use fixed seeds on one word", "anchors": ["models/bpemodel/word.go:MergeAll", "models/bpemodel/wordmerge.go:Push", "models/bpemodel/bpemodel.go:mergeWord"]}
{"id": "C108", "title": "Integers of 32 and 64 bits", "statement": "Computing with Go's int of 32 or 64 bits, where sums wrap around, gives what computing with unbounded integers gives: MergeAll for every word, Tokenize of the BPE model for every text, TransformRange for every range and every list of changes.", "quantifier": "every word, every merge list, every draw, every model, every text that fits into memory, every normalized string of a quarter of that, every list of changes", "why_tests_cant": "lengths near 2^31 do not occur in tests; for texts the statement is about all of them", "anchors": ["models/bpemodel/word.go:MergeWith", "models/bpemodel/word.go:MergeAll", "models/bpemodel/bpemodel.go:mergeWord", "models/bpemodel/bpemodel.go:wordToTokens", "normalizedstring/normalizedstring.go:TransformRange"]}
{"id": "C109", "title": "Words with symbols of any length", "statement": "On a word made by Add from symbols of any length, zero and negative ones included, MergeAll ends without panic, merges adjacent pairs that have a merge in the order of the textbook until none is left (without dropout), keeps the sum of the lengths and loses no symbol.", "quantifier": "every list of symbols with any int lengths, every merge list, every draw", "why_tests_cant": "tests add symbols of length 1 or 2 only; that no choice of lengths and merges breaks the links or the loop is a statement about all words", "anchors": ["models/bpemodel/word.go:Add", "models/bpemodel/word.go:MergeAll", "models/bpemodel/word.go:MergeWith"]}
{"id": "C110", "title": "What a call that panics leaves behind", "statement": "A call that panics leaves its receiver as it was or, if it consists of several edits, as the edits before the panic left it; a panic in a function given to Split, Normalize or Tokenize leaves the PreTokenizedString as an error would. So clients that recover from panics and go on reach no state that clients without panics do not reach, and Tokenize can be called again after a panic.", "quantifier": "every NormalizedString and PreTokenizedString, every argument, every function argument, every history of calls that return or panic", "why_tests_cant": "tests never recover from a panic; which assignments have been made by then depends on where the panic happens", "anchors": ["normalizedstring/normalizedstring.go:TransformRange", "normalizedstring/normalizedstring.go:Replace", "normalizers/bertnormalizer/bertnormalizer.go:Normalize", "pretokenizedstring/pretokenizedstring.go:Split", "pretokenizedstring/pretokenizedstring.go:Tokenize"]}
{"id": "C111", "title": "The byte-level pipeline computes the tokens of GPT-2", "statement": "With a merges file as training writes it (no pair uses what itself or a later pair makes), the byte-level pre-tokenizer followed by byte-level BPE gives exactly the tokens that GPT-2's encoder.py gives: the pieces of its regular expression, the bytes of each as characters, and on these, as long as listed pairs are there, all occurrences of the one listed first are joined; the IDs are those of the vocabulary. This holds for every text, with or without the space in front, and after any normalizers.", "quantifier": "every text, every merges file in training order, every vocabulary that has the bytes, every Unicode table with disjoint kinds", "why_tests_cant": "the two programs are organised differently: the library joins one occurrence at a time from a heap, GPT-2 all occurrences of one pair at a time; that they agree depends on the order of the file", "anchors": ["pretokenizers/bytelevelpretokenizer/bytelevelpretokenizer.go:PreTokenize", "models/bpemodel/word.go:MergeAll", "models/bpemodel/bpemodel.go:Tokenize"]}
{"id": "C112", "title": "The BERT pipeline computes the tokens of BERT", "statement": "The default BERT normalizer, the BERT pre-tokenizer and WordPiece together give the tokens that BERT's tokenization.py gives: clean the text, put spaces around ideographs, split at white space, lower the case and strip the accents of each word, split on punctuation, and take the longest match first, with the unknown token for words that are too long or have no such segmentation.", "quantifier": "every text, every WordPiece vocabulary of valid terms with the unknown token, every Unicode table in which lower case keeps marks and white space", "why_tests_cant": "the reference treats words one by one, the library the whole text step by step; whether they agree depends on every character", "anchors": ["normalizers/bertnormalizer/bertnormalizer.go:Normalize", "pretokenizers/bertpretokenizer/bertpretokenizer.go:PreTokenize", "models/wordpiecemodel/wordpiecemodel.go:Tokenize"]}
{"id": "C113", "title": "Files read in portions, and errors of the file system", "statement": "However the operating system hands out the bytes of the merges file (in portions of any size), MergeMapFromFile returns what it returns for the whole file: the same lines, the same limit of 64 KiB per line. If a read fails, there is no map: the error is that of the read if the bytes so far are a good merges file, else what is wrong with them, the line cut by the error counting as a line. If closing fails, its error is returned beside the map. No failure of opening, reading or closing goes unnoticed. FromJSONFile reads to the end or returns the error.", "quantifier": "every file, every way to cut it into reads, every error at any point, every vocabulary, every prefix length", "why_tests_cant": "tests read small files in one read that never fails; the scanner's buffer is shifted and grown at points that depend on the sizes of the reads", "anchors": ["models/bpemodel/mergemap.go:MergeMapFromFile", "vocabulary/vocabulary.go:FromJSONFile"]}
{"id": "C114", "title": "Dropout as a float64", "statement": "Every value of type float64, NaN, infinities and zeros included, amounts to exactly one rational dropout: whatever numbers are drawn, Tokenize gives for it what it gives for that one. NaN, -Inf, zero and negative numbers drop no merge, +Inf and numbers from 1 on drop every merge. The comparison of float64 is that of the numbers they stand for.", "quantifier": "every float64, every stream of draws in [0, 1), every model, every text", "why_tests_cant": "the comparisons with NaN, infinities and subnormal numbers occur in no test; the theorems on dropout are about rationals", "anchors": ["models/bpemodel/word.go:MergeAll", "models/bpemodel/bpemodel.go:Tokenize", "models/bpemodel/bpemodel.go:hasDropout"]}
{"id": "C115", "title": "Spare capacity of slices", "statement": "What lies in the array behind a slice makes no difference to TransformRange, nor to Slice on what the library makes; TransformRange leaves no spare capacity, FromString leaves some for texts that are not valid UTF-8 only. CoerceRangeToOriginal differs exactly for a range that ends behind the alignments and within their capacity: it returns what lies there instead of panicking.", "quantifier": "every normalized string, every spare array, every range and every list of changes", "why_tests_cant": "how far append over-allocates is a choice of the Go runtime, and the tests ask for no range behind the text", "anchors": ["normalizedstring/normalizedstring.go:CoerceRangeToOriginal", "normalizedstring/normalizedstring.go:TransformRange", "normalizedstring/normalizedstring.go:Slice", "normalizedstring/normalizedstring.go:alignmentsFromString"]}
{"id": "C116", "title": "Captures written in place", "statement": "Invert negates the captures in the slice that the inner pattern returned. Every pattern that is inverted nevertheless finds the same in every call, as often and in whatever order it is used, also by Split and Replace, and no call changes captures that an earlier one has returned.", "quantifier": "every pattern that makes a new slice in every call (all of the library), inverted any number of times, every string, every history; patterns that keep their slice", "why_tests_cant": "the second call on a pattern differs from the first only if its slice survives the call, and all patterns of the tests make new ones", "anchors": ["splitpattern/invertedpattern.go:FindMatches", "splitpattern/func.go:FindMatches", "normalizedstring/normalizedstring.go:Split", "normalizedstring/normalizedstring.go:Replace"]}
{"id": "C117", "title": "Slices handed out by Splits, and functions that use the string they are called by", "statement": "A slice handed out by Splits keeps its splits when Split replaces them, and shows the tokens that Tokenize adds. The functions given to Split, Normalize and Tokenize may call methods of the same PreTokenizedString: none of these panics, and each split gets the tokens that the tokenizer returned for it.", "quantifier": "every store of strings and arrays, every function, stateful or not", "why_tests_cant": "the tests call Splits at the end only, and none of their functions refers to the string it is called by", "anchors": ["pretokenizedstring/pretokenizedstring.go:Splits", "pretokenizedstring/pretokenizedstring.go:Split", "pretokenizedstring/pretokenizedstring.go:Normalize", "pretokenizedstring/pretokenizedstring.go:Tokenize"]}
{"id": "C118", "title": "Tokenize called by several goroutines at once", "statement": "Goroutines that call Tokenize of one BPEModel at once get the answers they would get alone. With dropout, every random number is used by one call, each call uses its own in order, and its answer is that of Tokenize with these numbers; with a fixed seed the answers are those of the same calls in some order. Every execution ends with all calls returned.", "quantifier": "every model, every number of calls, all texts, every interleaving, every cache with atomic methods", "why_tests_cant": "the tests call Tokenize from one goroutine, and no run covers all interleavings", "anchors": ["models/bpemodel/bpemodel.go:Tokenize", "models/bpemodel/bpemodel.go:tokenizeWithCache", "models/bpemodel/word.go:MergeAll"]}
{"id": "C119", "title": "Nil vocabularies and nil merges", "statement": "A BPE model with a nil vocabulary panics on every text but the empty one; a WordPiece model also on the empty text if its length limit is negative. A BPE model with a nil pointer for its merges panics on the texts that without merges give at least two tokens, and agrees with a model without merges on the others; with a pointer to a nil map it never panics. MergeMapFromFile with a nil vocabulary panics where an empty vocabulary gives the error for a left token, and agrees otherwise.", "quantifier": "every model, option and dropout, all texts, all files", "why_tests_cant": "the tests pass no nil, and the first use of a nil pointer depends on the text", "anchors": ["vocabulary/vocabulary.go:GetID", "models/bpemodel/mergemap.go:Get", "models/bpemodel/mergemap.go:MergeMapFromFile", "models/bpemodel/word.go:MergeAll", "models/bpemodel/bpemodel.go:mergeWord", "models/wordpiecemodel/wordpiecemodel.go:Tokenize"]}
{"id": "C120", "title": "Functions of the caller that panic, are nil or keep state", "statement": "Map, Filter and a pattern of FromFunc call the caller's function once for every character of the text, in order, and leave it in the state it ends in. The characters become the answers (Map), those answered with true are kept (Filter) or are the matches, the captures covering the text (FromFunc). If the function panics at one of the calls, so do they; Map and FromFunc panic in no other case. A nil function panics on every text but the empty one. A function whose answers depend on the character only gives what the other properties are about.", "quantifier": "every function with every state, all NormalizedStrings and valid texts", "why_tests_cant": "the tests pass pure functions that always answer", "anchors": ["normalizedstring/normalizedstring.go:Map", "normalizedstring/normalizedstring.go:Filter", "splitpattern/func.go:FindMatches"]}
