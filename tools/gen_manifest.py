#!/usr/bin/env python3
"""Writes MANIFEST.json from the table below; theorem names are collected from rocq/theories/Props*.v by prefix."""
import glob, json, re, os
root = os.path.dirname(os.path.dirname(os.path.abspath(__file__)))
status = {  # property: (status, note)
 "C03": ("proved", ""),
 "C04": ("partial", "Refuted for Append on text with multi-byte characters (a rune index is taken for a byte index); proved for all histories with the side conditions of SpecHist.edit on Append, Replace and TransformRange. C92: what survives without them. C11_append_exact and C96_filter: Append and Filter in every case."),
 "C05": ("proved", ""),
 "C06": ("proved", ""),
 "C07": ("proved", ""),
 "C08": ("partial", "Refuted if multi-byte characters are removed at the start (rune count taken for a byte offset: panic or wrong spans); proved if what is removed at the start is ASCII; the resulting text is right whenever Filter returns. C08_filter_iff: on a string just made this condition is also necessary. C96_filter: the outcome in every case."),
 "C09": ("partial", "Refuted for multi-byte leading white space (same cause as C08); proved for ASCII leading white space; the resulting text is right whenever Trim returns. C09_trim_iff: on a string just made this condition is also necessary. C96_trim: the outcome in every case."),
 "C10": ("partial", "Refuted for Prepend of the empty string (first span becomes (0, 0)); proved for every non-empty prepended text. C10_prepend_iff and C10_prepend_nothing: the exact condition and result."),
 "C11": ("partial", "Refuted on text with multi-byte characters (panic or wrong text); proved if all characters but the last are ASCII. C11_append_iff: in all other cases even the text is wrong. C11_append_exact, C11_append_panics_iff: the outcome in every case."),
 "C12": ("proved", "C12_replace_exact: which span the replacement of a match carries, in every case."),
 "C13": ("proved", ""),
 "C14": ("proved", "With C13, what Slice does with every range of a well-formed string: also empty ranges (which may panic), reversed ones, and original ranges."),
 "C15": ("partial", "Refuted: an empty capture past the end of the original string panics. Proved: either that happens, or Split succeeds and keeps exactly the text."),
 "C16": ("proved", "Including uniqueness of the grouping; the only other outcome is the panic of C15."),
 "C17": ("proved", ""),
 "C18": ("partial", "Refuted for edited strings (removed or duplicated origin); proved for strings whose spans tile the original: fresh strings and anything Map makes of them. C18_recombine_iff: that is exactly where all patterns recombine."),
 "C19": ("proved", "For non-empty strings, as stated; on empty ones it is proved to panic."),
 "C20": ("proved", ""),
 "C21": ("proved", ""),
 "C22": ("partial", "Refuted: out-of-range requests of the string's own kind panic or are handed back. Proved: the exact set of requests that panic, and what the others return."),
 "C01": ("proved", ""),
 "C02": ("partial", "Refuted in general (byte indices are used as rune indices; empty range at the end panics); proved for text whose characters except possibly the last are ASCII. C02_convert_exact and C02_convert_iff give the exact answer and the exact condition."),
 "C23": ("proved", ""),
 "C24": ("proved", "For every engine answer meeting the stated contract of package regexp."),
 "C25": ("proved", "For every engine answer meeting the stated contract of regexp2."),
 "C26": ("partial", "Refuted for the empty pattern on non-ASCII text; proved for every non-empty pattern and for the empty one on ASCII text. C26_empty_pattern_iff: for the empty pattern, right exactly on ASCII text."),
 "C27": ("proved", ""),
 "C28": ("proved", ""),
 "C29": ("proved", "For files with distinct IDs, as stated; also what remains without that."),
 "C30": ("partial", "Refuted: sparse IDs collide, and the JSON text null makes AddTerm panic. Proved for files with distinct IDs below the number of entries, and the exact condition for any sequence of AddTerm (C30_add_many_exact)."),
 "C31": ("proved", ""),
 "C32": ("partial", "Refuted: a prefix length longer than the right term panics. Proved: exactly one of success, error at the first bad line, panic at the first too short one, and the scanner giving up at a line of 64 KiB; no panic for prefix length 0."),
 "C33": ("proved", ""),
 "C34": ("proved", "Also for Tokenize with merges loaded from a file; an Example shows that the condition on sizes is needed. With dropout: C97."),
 "C35": ("proved", ""),
 "C36": ("proved", ""),
 "C37": ("proved", ""),
 "C38": ("partial", "Refuted without unknown token: unknown characters are left out and later offsets shift. Proved if an unknown token is configured or all characters are known. C38_offsets_iff: wrong in all other cases; C38_known_exact: the exact end."),
 "C39": ("proved", ""),
 "C40": ("partial", "Refuted: the prefix is put on the first character and on no other. Proved: what is looked up instead; it agrees with the documentation only for an empty prefix. C40_prefix_iff."),
 "C41": ("proved", ""),
 "C43": ("proved", ""),
 "C44": ("partial", "Refuted for words with three-byte characters (the backwards search steps by one or two bytes and misses their boundaries, e.g. 野口). Proved if no character but the first takes three bytes; and, for all byte strings, the exact greedy rule that is computed. C44_greedy_iff: for every other word there is a vocabulary that refutes it."),
 "C45": ("proved", "What 'no segmentation found' means is given by tried_toks, see C44."),
 "C46": ("proved", ""),
 "C47": ("proved", ""),
 "C48": ("proved", "Calls are recorded by a wrapper around the function argument that is proved not to change anything."),
 "C49": ("proved", ""),
 "C50": ("proved", ""),
 "C51": ("proved", ""),
 "C52": ("proved", ""),
 "C53": ("proved", ""),
 "C54": ("proved", ""),
 "C55": ("proved", "For every punctuation table."),
 "C56": ("proved", "Nothing is prepended to the empty text. A replacement that is no Unicode scalar value is written as U+FFFD and never found."),
 "C57": ("proved", ""),
 "C58": ("partial", "False as stated: with the prefix space, an empty match beyond the length of the original text makes Split panic (refuted with a witness). Proved for all answers without such a match, and without condition for the default regexp as read in Regex.v. C58_panics_iff: such a match is the only cause of a panic."),
 "C59": ("proved", "The default regexp as read in Regex.v, for every word and space class."),
 "C60": ("partial", "False as stated: Filter panics if multi-byte characters are removed at the front (refuted with a byte order mark and with a combining mark). Proved: the text is right whenever Normalize returns; text and spans without panic if what is removed at the front is ASCII, in particular if the first character is kept. C60_clean_iff: with cleaning and without accent removal that condition is also necessary on a string just made. C60_accents_iff: the same with accent removal, given that what cleaning removes at the front is ASCII. C96_bert: the outcome in every case."),
 "C61": ("partial", "Refuted: U+2B820..U+2B91F are missing. Proved: nothing else differs."),
 "C62": ("proved", ""),
 "C66": ("partial", "Lower-casing proved; Strip as in C09: refuted for multi-byte leading white space, proved for ASCII leading white space. C66_strip_iff: necessary on a string just made. C96_strip: the outcome in every case."),
 "C63": ("proved", "The client program that joins the layers is in SpecEnd (the repository has none). Terms and prefix must be valid UTF-8; C63_invalid_terms shows what happens otherwise."),
 "C64": ("proved", "C64_bpe under C39's hypotheses; C64_offsets: offsets for any model with an unknown token."),
 "C65": ("partial", "False as stated: refuted for FromString, function patterns, regexp2 patterns, Prepend, Map and splitting. Proved: the exact conditions for FromString, Prepend, Append (C65_append_partial, C65_append_text_iff) and Map, and for function patterns and regexp2 patterns (C65_func_pattern_iff, C65_regexp2_iff); C65_string_pattern, C65_regexp_pattern: these keep the contract on all bytes (the empty string pattern where bytes are characters); none of these panics except Prepend, on the texts given. C65_transform, C65_filter_partial, C65_trim_partial, C65_bert_partial: Transform, Filter, Trim and BERT normalization do what they do to the string as Go reads it, if what is removed in front is whole characters (C65_filter_front_partial: or single bytes); 2 alignments too many per undecodable byte stay. Filter may panic otherwise (C65_filter_refuted). C100: whole encodings of such strings."),
 "C67": ("proved", "Regexp matching as in C58_default_regexp (the reading of the default regexp in Regex.v; the character classes are arbitrary)."),
 "C68": ("partial", "Proved for any well-formed edited string (C68_wordpiece, C68_bpe). With BertNormalizer in front only where it does not panic (C60): characters removed at the front must be ASCII; refuted otherwise. C99_wordpiece has the exact statement, for any sequence of normalizers."),
 "C69": ("proved", "Hypotheses of C39 and no dropout."),
 "C70": ("proved", ""),
 "C71": ("partial", "Proved for Filter, Strip, lower-casing (iff the table settles in one step) and BERT without the option for Chinese characters. With it refuted: each pass adds spaces around Chinese characters; C71_bert_chinese: that is all a second pass does, so it changes nothing iff there are none."),
 "C72": ("partial", "Lossless and gapless for known characters, as C39. Reading the text back is refuted if the meta symbol occurs in it (C72_decodable_refuted) and proved if not (C72_decodable)."),
 "C73": ("proved", "C73_models: WordPiece and BPE satisfy the hypothesis of C73_join. C73_elsewhere_refuted: it does not hold at characters that are not delimiters."),
 "C74": ("proved", "For the five pre-tokenizers named; C74_byte_level_refuted for the byte-level one."),
 "C75": ("proved", "C75_old_merges_refuted for the merges of the old IDs."),
 "C76": ("proved", "C76_all_maps_refuted: without the condition."),
 "C77": ("proved", ""),
 "C78": ("proved", "C78_disjoint_refuted: two pieces with the same offsets."),
 "C79": ("proved", "The linear bound is attained (C79_example). Steps are iterations; the logarithmic cost of a heap operation is not counted."),
 "C80": ("proved", ""),
 "C81": ("proved", "Proved as stated (C81_reads, C81_rejects, C81_load, C81_unambiguous, C81_written, C81_layout). encoding/json is the Go standard library; its behaviour is modelled in Json.v."),
 "C82": ("proved", ""),
 "C83": ("partial", "Both halves are false: null gives the ID 0 (C83_ids_refuted), and names that are invalid UTF-8 are conflated (C83_terms_refuted). Proved instead: if the word null does not occur in the file, every ID is an integer literal of the file (C83_ids_partial); if the file is UTF-8 without backslashes, every term is written between quotes byte for byte (C83_terms_partial); for every file, each term is denoted by a string of the file and followed by its ID or, if that is 0, by null (C83_written_partial)."),
 "C84": ("partial", "False: \" a\" becomes two meta characters and a, a tab stays (C84_documented_refuted). Proved: the exact condition under which the documented text is produced (C84_documented_iff)."),
 "C85": ("partial", "Proved for WordPiece (C85_wordpiece, C85_wordpiece_default). Refuted for BPE: without unknown token, a text without known characters gives no tokens and no error (C85_bpe_refuted), in particular every text with NewDefault (C85_bpe_default); C85_bpe_iff: only then."),
 "C86": ("proved", "Append and Trim under the exact conditions of C11 and C09, outside which the operations themselves are wrong."),
 "C87": ("partial", "False: C87_filter_refuted, C87_map_filter_refuted. Proved whenever the characters removed in front are ASCII (C87_filter_partial, C87_map_filter_partial). C87_filter_iff, C87_map_filter_iff: the exact conditions, in terms of what Filter does (C96_filter)."),
 "C88": ("partial", "False when unknown characters are left out or replaced (C88_bpe_refuted, C88_wordpiece_refuted). Proved for BPE if all characters are known (C88_bpe_partial) and for WordPiece for every answer but the lone unknown token (C88_wordpiece_partial). Exactly: C88_bpe_iff (the same IDs iff the texts are the same up to unknown characters, if no merge involves the unknown token; C88_bpe_apart_refuted if one does), C88_bpe_without_unknown_iff, C88_wordpiece_iff."),
 "C89": ("partial", "Proved: BERT pieces with WordPiece (C89_bert), byte level without space in front (C89_byte_level) and exactly up to that space with it (C89_byte_level_prefix), metaspace without the meta character in the text (C89_metaspace), delimited pieces if no word starts with the prefix (C89_words_partial). False for words that start with the prefix (C89_words_refuted) and for BPE over delimited pieces (C89_bpe_refuted), where the IDs determine the text outside the delimiters if all its characters are known (C89_bpe_shown)."),
 "C90": ("proved", "Simulation of the store by the values of the other files; the assumption made there (no two splits share a pointer) is discharged for the library. False for functions that return a pointer twice (C90_shared_refuted, C90_returned_twice_refuted)."),
 "C91": ("proved", "C91_again; what is left of the caller's string is stated exactly (C91_cutting, C91_byte_level, C91_metaspace). With another pre-tokenizer the second time it is false (C91_other_refuted)."),
 "C92": ("proved", "No side condition on Append and Replace (cf. C04, C07), normalized text not necessarily UTF-8. Without the condition on TransformRange it is false (C92_transform_range_refuted)."),
 "C93": ("proved", "About the model with a counter, which without the counter is the model (C93_same). C93_exact: the number for ASCII words, and which take n(n+1)/2."),
 "C94": ("proved", "About Go's strings rather than /repo: pins down the definitions in which most other properties are stated."),
 "C95": ("proved", "The regular expression engine (dlclark/regexp2) is outside /repo: Regex.v models backtracking with greedy repetition."),
 "C96": ("proved", "Says exactly what happens where C08, C09, C60 and C66 do not hold."),
 "C97": ("proved", "C97_no_drops: without drops this is the textbook procedure of C34. C97_determined: where no two merges share a rank, as for merges from a file, the draws determine how many are spent and what comes out; with shared ranks the specification leaves ties open. Requests for merges that are no longer possible are tracked by rank and start byte."),
 "C98": ("proved", "Append and Replace by other patterns are not in the language of programs: Append may leave invalid UTF-8 (C11_append_exact); C12_replace_exact gives Replace for any pattern that covers the text."),
 "C99": ("proved", "Contains the case C68_bert_partial leaves out. For BPE under the hypotheses of C39 (known characters, no affixes)."),
 "C100": ("partial", "No panic, groups and quotations proved (C100_bpe, C100_bpe_quotes, C100_wordpiece). The offsets are false: an entry whose last byte is undecodable ends two bytes too late (C100_bpe gives the exact offsets, C100_places: right iff no entry ends with an undecodable byte); with WordPiece they are right in front of the first such byte (C100_wordpiece_valid_part) and false behind it (C100_wordpiece_refuted)."),
 "C101": ("proved", "C101_passes for MergeAll and C101_tokenize for whole files and texts. The condition on the order is needed: C101_order_refuted."),
 "C102": ("proved", "C102_merge_all, C102_tokenize. For lines added in front it is false (C102_front_refuted)."),
 "C103": ("proved", "C103_merge_all, C103_tokenize, C103_without_dropout. For dropout 1 and more see C37, for 0 and less C34; C97 says which answer belongs to which draws."),
 "C104": ("proved", "C104_wordpiece, C104_bpe_iff; C104_bpe_refuted: not every term that the merges file makes."),
 "C105": ("partial", "C105_all_characters_partial excludes words with three-byte characters after the first, for which it is refuted (C105_all_characters_refuted, the defect of C44); C105_all_characters_iff: for each of them. C105_more_terms_refuted: more terms."),
 "C106": ("partial", "C106_again (the second time, same merges, no dropout), C106_links (exactly which places are left, and that the word is as Add makes it iff only the last symbol is merged), C106_second_partial (then any second call is right), C106_second_refuted (otherwise not); C106_second_iff: for every other word some second call panics."),
 "C107": ("proved", "C107_plain (linear), C107_drawn (quadratic, and later numbers do not matter), C107_all_dropped (the exact number if all are dropped), C107_tokenize. The example reaches both bounds."),
 "C108": ("partial", "Proved for Tokenize of valid texts on 32 and 64 bits, and of all texts on 64 bits (C108_tokenize; C108_tokenize_iff: exactly which texts; C108_tokenize_refuted: 2^30 undecodable bytes on 32 bits), and for TransformRange (C108_transform). Refuted for MergeAll on words of a client: four symbols of length 2^62 (2^30) merge into nothing (C108_merge_refuted); C108_merge_iff: right for all merges and draws iff the lengths together fit. C108_merge_any: any links, any lengths."),
 "C109": ("partial", "Proved: end without panic, the sum (C109_any), all pairs whose left symbol is not empty are merged (C109_saturates), in the order of the textbook for merges that concatenate (C109_textbook). Refuted: symbols are lost (C109_nothing_lost_refuted); for lengths that are not negative, none is iff all are positive (C109_nothing_lost_iff)."),
 "C110": ("proved", "C110_edits: TransformRange, Transform, Prepend, Append, Filter, Map, Trim do all or nothing; C110_replace, C110_bert, C110_sequence: exactly what is left of the others (C110_replace_refuted, C110_bert_refuted: not all or nothing). C110_history, C110_pts_history: states reached with recovered panics are reached without."),
 "C111": ("partial", "False as stated: GPT-2's expression respects case, the library's is compiled with IgnoreCase (C111_case_refuted: \"'To\"). C111_pieces_iff: both cut a text in the same way exactly if the library finds no capitalised contraction in it. C111_gpt2_partial and C111_normalized_partial: the tokens of GPT-2 for all such texts; C111_text_iff: for one text, all merges and vocabularies give the tokens of GPT-2 iff it has no such contraction. C111_own_regexp: for all texts, if the expression is compiled without IgnoreCase. C111_reference (gpt2_tokens has exactly one answer), C111_word. C111_order_refuted: with \"ab a\" before \"a b\" the library differs on \"abab\"."),
 "C112": ("partial", "False as stated. C112_conditions (C112_bert_partial, C112_cased_partial): true under five conditions on the text, and none of them can be dropped: in NFD (C112_accents_refuted), no ASCII symbol such as $ (C112_symbols_refuted), nothing in U+2B820..2B91F (C112_extension_refuted), no panic of the normalizer (C112_mark_refuted), no three-byte character after the first of a word (C112_three_refuted). C112_text_iff, C112_cased_text_iff: for one text, over all vocabularies, exactly: no panic, the same words, no such character."),
 "C113": ("proved", "C113_merges, C113_read_error, C113_no_silence, C113_vocabulary. C113_cut_line_refuted, C113_cut_panic: a failing read may be reported as a malformed line, or panic."),
 "C114": ("proved", "C114_comparison (on Coq's SpecFloat, for canonical numbers), C114_tokenize, C114_extremes."),
 "C115": ("proved", "C115_transform, C115_slice with C115_enough, C115_fresh, C115_coerce (exact)."),
 "C116": ("partial", "True for the library's patterns and every other that makes new slices (C116_library, C116_invert, C116_split, C116_replace). False for a client's pattern that returns one slice again and again (C116_kept_refuted): every other call finds the opposite (C116_kept, exact)."),
 "C117": ("partial", "Exact for functions that leave the PreTokenizedString alone (C117_split, C117_normalize, C117_tokenize: as Pointers.v, and which arrays are written). What functions given to Split do to it is overwritten (C117_overwritten). Tokenize indexes p.splits anew for every token list: it panics if a function has left fewer splits (C117_tokenize_refuted), gives tokens to other splits if one has replaced them (C117_own_tokens_refuted), does not panic if none leaves fewer (C117_tokenize_partial); C117_nested: a tokenizer that calls Tokenize, exactly."),
 "C118": ("partial", "C118_answers without dropout, for every cache that returns only what was stored; C118_dropout: the answer for the numbers taken, exactly; C118_ends; C118_alone relates the steps to the sequential function. That a fixed seed gives the answers of the calls in some order is false (C118_seed_refuted). Methods of the cache and rand.Float64 are taken to be atomic, as rand's are and those of wordcache.go (which do nothing)."),
 "C119": ("proved", "C119_same_* show that the model with pointers is that of the other properties when they are not nil. C119_bpe_merges takes a vocabulary whose two maps are inverse to each other. C119_bpe_merges_any is for any vocabulary, and counts symbols instead of tokens."),
 "C120": ("proved", "The spans after Filter are in C120_filter, for functions that refuse only ASCII before the first character kept, as in C08; where others are refused there Filter itself may panic or give wrong spans (C08), and C120_filter_text has the text only."),
 "C42": ("proved", "For the cache stub of the repository and for every cache that returns only what was stored under the key."),
}
names = {}
for f in sorted(glob.glob(root + "/rocq/theories/Props*.v")):
    for m in re.finditer(r"^Theorem (C(\d\d+)_\w+)", open(f).read(), re.M):
        names.setdefault("C" + m.group(2), []).append(m.group(1))
missing = [p for p in status if p not in names]
extra = [p for p in names if p not in status]
assert not missing and not extra, (missing, extra)
claims = [{"property": p, "status": s, "theorems": names[p], "note": n} for p, (s, n) in sorted(status.items(), key=lambda x: int(x[0][1:]))]
json.dump({"claims": claims}, open(root + "/MANIFEST.json", "w"), indent=1)
open(root + "/MANIFEST.json", "a").write("\n")
print(len(claims), "claims", sum(len(c["theorems"]) for c in claims), "theorems")
