{"id": "C01", "title": "A verse can be constructed exactly when it exists", "statement": "BibleVerse(book, chap, verse, flags=f) returns a verse with exactly those three attributes if and only if the book has that chapter and the verse number lies between the chapter's first verse (0 when the effective flags contain VERSE_0 and the chapter has a verse 0, else 1) and its last verse; in every other case it raises InvalidReferenceError.", "quantifier": "every book data table, every global flag setting, every flags argument, every integer chapter and verse number", "why_tests_cant": "The set of integers is unbounded and the versification table is user-settable; tests only sample a few references of the default table.", "anchors": ["src/bibleref/ref.py: BibleVerse.__init__, BibleBook.min_verse_num, BibleBook.max_verse_num"]}
{"id": "C02", "title": "Verse comparison is the canonical Bible order", "statement": "Among verses of ordered books, <, <=, >, >=, == form a strict total order that agrees with position in the sequence book order / chapter / verse, whatever book order has been configured.", "quantifier": "all pairs and triples of verses, every duplicate-free book order", "why_tests_cant": "Totality, transitivity and agreement with the enumeration quantify over all triples of verses and all book orders.", "anchors": ["src/bibleref/ref.py: BibleVerse (dataclass order), BibleBook.__lt__ and siblings"]}
{"id": "C03", "title": "Book navigation follows the configured order", "statement": "After book_order has been set to a duplicate-free list, a book's order is its index, next()/prev() return the neighbour in the list and None at the ends, next and prev are mutually inverse, and books left out of the list have no order; a list with a duplicate is rejected with KeyError.", "quantifier": "every list of books assigned to book_order, every book, every earlier state", "why_tests_cant": "The assignments range over all lists and all previous states of the table.", "anchors": ["src/bibleref/data.py: BibleData.book_order setter", "src/bibleref/ref.py: BibleBook.next, BibleBook.prev"]}
{"id": "C04", "title": "Adding n verses moves n places along the Bible", "statement": "v.add(n) for n >= 0 is the verse n places after v in the enumeration of verses (of the whole Bible with MULTIBOOK, of v's book otherwise; including verse 0s when VERSE_0 is effective or v itself is a verse 0), and None exactly when there is no such verse. For negative n it is the verse |n| places earlier when that is in the same chapter and InvalidReferenceError otherwise.", "quantifier": "every well-formed versification, every valid verse, every integer n, every flags setting", "why_tests_cant": "n is unbounded and crosses arbitrarily many chapters and books.", "anchors": ["src/bibleref/ref.py: BibleVerse.add"]}
{"id": "C05", "title": "Subtracting n verses moves n places back", "statement": "v.subtract(n) for n >= 0 is the verse n places before v in the same enumeration used by add, and None exactly when there is no such verse.", "quantifier": "every well-formed versification, every valid verse, every integer n >= 0, every flags setting", "why_tests_cant": "n is unbounded and crosses arbitrarily many chapters and books.", "anchors": ["src/bibleref/ref.py: BibleVerse.subtract"]}
{"id": "C06", "title": "Addition and subtraction of verses are inverse and additive", "statement": "If v.add(n) is a verse w then w.subtract(n) is v, and if w.subtract(n) is v then v.add(n) is w; v.add(m).add(n) equals v.add(m+n) whenever the latter exists.", "quantifier": "every valid verse, all m, n >= 0, every flags setting passed to both calls", "why_tests_cant": "A relation between unboundedly many calls; chapter and book crossings of every length matter.", "anchors": ["src/bibleref/ref.py: BibleVerse.add, BibleVerse.subtract"]}
{"id": "C07", "title": "The difference of two verses is the signed distance", "statement": "v - w equals the number of places v is after w in the enumeration of verses (negative if before), is antisymmetric, and w + (v - w) is v again when v is not before w.", "quantifier": "every pair of valid verses, every flags setting", "why_tests_cant": "Distances are unbounded and cross every chapter boundary.", "anchors": ["src/bibleref/ref.py: BibleVerse.subtract, BibleRange.verse_count"]}
{"id": "C08", "title": "A range is always normalised and legal", "statement": "However a BibleRange is successfully constructed (from two verses or from positional parts, in either order), its start is not after its end, both ends are existing verses, and the two ends are in the same book unless the effective flags contain MULTIBOOK; with both ends given, the two ends are exactly the given verses.", "quantifier": "every argument combination, every versification, every flags setting", "why_tests_cant": "All argument combinations (2^5 None patterns times unbounded integers) are in scope.", "anchors": ["src/bibleref/ref.py: BibleRange.__init__"]}
{"id": "C09", "title": "Omitted parts of a range default to whole books and chapters", "statement": "BibleRange(book, chap, verse, end_book, end_chap, end_verse) with omitted parts denotes the span from the first verse of the named start unit to the last verse of the named end unit; if the named units are the other way around they are swapped first, so naming two units in either order gives the same range.", "quantifier": "every None pattern and every integer", "why_tests_cant": "The None patterns and integers cannot be enumerated by tests.", "anchors": ["src/bibleref/ref.py: BibleRange.__init__"]}
{"id": "C10", "title": "Iterating a range yields each of its verses once, in order", "statement": "list(r) is exactly the sequence of verses from r.start to r.end in Bible order, without repetition, and iteration terminates.", "quantifier": "every range (multi-chapter, multi-book), every versification, every flag setting", "why_tests_cant": "Ranges of every length; termination is not testable.", "anchors": ["src/bibleref/ref.py: BibleRange.__iter__"]}
{"id": "C11", "title": "verse_count is the number of verses in the range", "statement": "r.verse_count() equals the number of verses in Bible order between start and end inclusive (verse 0s counted exactly when VERSE_0 is in force or an end is a verse 0), and for a BibleRangeList it is the sum over the items.", "quantifier": "every range and list, every versification", "why_tests_cant": "Counting is over unbounded spans of chapters and books.", "anchors": ["src/bibleref/ref.py: BibleRange.verse_count, BibleRangeList.verse_count"]}
{"id": "C12", "title": "split partitions the range", "statement": "r.split(by_book, by_chap, num_verses=n) returns consecutive ranges whose verses, concatenated, are exactly the verses of r; pieces never cross a book (by_book) or chapter (by_chap), break nowhere else than required, and hold exactly n verses each except the last piece of each book/chapter run, which holds at most n.", "quantifier": "every range, every combination of modes, every n >= 1", "why_tests_cant": "Quantifies over all ranges and all n, including chunks that span several chapters or books.", "anchors": ["src/bibleref/ref.py: BibleRange.split"]}
{"id": "C13", "title": "split always terminates", "statement": "r.split(num_verses=n) terminates, returning ranges or raising ValueError, for every integer n.", "quantifier": "every range, every integer n", "why_tests_cant": "Non-termination cannot be observed by a test.", "anchors": ["src/bibleref/ref.py: BibleRange.split"]}
{"id": "C14", "title": "Chapter and book counts", "statement": "r.chap_count() is the number of distinct chapters that r touches and r.book_count() the number of distinct books; with whole=True they count exactly the chapters (books) all of whose verses lie in r.", "quantifier": "every range, every versification", "why_tests_cant": "Unbounded spans, first/last partial chapter combinations, chapters of one verse, books of one chapter.", "anchors": ["src/bibleref/ref.py: BibleRange.chap_count, BibleRange.book_count"]}
{"id": "C15", "title": "Range predicates agree with sets of verses", "statement": "is_disjoint, contains and surrounds hold exactly when the corresponding relation (empty intersection; superset; strictly more on both sides) holds between the sets of verses, is_adjacent holds exactly when the ranges are disjoint and no verse lies between them, and in/'<' style operators agree with the methods.", "quantifier": "every pair of ranges or verses, every flags setting", "why_tests_cant": "All relative positions of two ranges over all chapter and book boundaries.", "anchors": ["src/bibleref/ref.py: BibleRange.is_disjoint, is_adjacent, contains, surrounds"]}
{"id": "C16", "title": "Range union is set union", "statement": "a.union(b) returns the ranges whose verses are exactly those of a or b: one range when they overlap or are adjacent, else both in order; it never fails on existing ranges.", "quantifier": "every pair of ranges, every flags setting", "why_tests_cant": "All pairs of ranges.", "anchors": ["src/bibleref/ref.py: BibleRange.union"]}
{"id": "C17", "title": "Range intersection is set intersection", "statement": "a.intersection(b) returns one range with exactly the common verses, or an empty list if there are none; it never fails on existing ranges.", "quantifier": "every pair of ranges, every flags setting", "why_tests_cant": "All pairs of ranges.", "anchors": ["src/bibleref/ref.py: BibleRange.intersection"]}
{"id": "C18", "title": "Range difference is set difference", "statement": "a.difference(b) returns ranges whose verses are exactly those of a not in b, and never raises for existing ranges.", "quantifier": "every pair of ranges, every flags setting", "why_tests_cant": "All pairs, in particular those touching the first or last verse of a book.", "anchors": ["src/bibleref/ref.py: BibleRange.difference"]}
{"id": "C19", "title": "Range symmetric difference is set symmetric difference", "statement": "a.sym_difference(b) returns ranges whose verses are exactly those in one of a and b but not both, and never raises for existing ranges.", "quantifier": "every pair of ranges, every flags setting", "why_tests_cant": "All pairs, in particular those touching the first or last verse of a book.", "anchors": ["src/bibleref/ref.py: BibleRange.sym_difference"]}
{"id": "C20", "title": "merge gives the canonical smallest list", "statement": "After merge() the list holds the same verses as before, sorted, pairwise disjoint and non-adjacent; any two lists with the same verses merge to the same ranges, and no list of ranges with those verses is shorter.", "quantifier": "every list of ranges, every flags setting", "why_tests_cant": "All lists of all lengths; minimality quantifies over all other lists.", "anchors": ["src/bibleref/ref.py: BibleRangeList.merge"]}
{"id": "C21", "title": "List union is set union in canonical form", "statement": "a.union(b) (b a range, verse or list) holds exactly the verses of a or b, in merged canonical form, independent of argument order, and leaves a and b unchanged; union_update does the same in place.", "quantifier": "every pair of lists", "why_tests_cant": "All lists of all lengths.", "anchors": ["src/bibleref/ref.py: BibleRangeList.union, union_update"]}
{"id": "C22", "title": "List intersection is set intersection in canonical form", "statement": "a.intersection(b) holds exactly the verses common to a and b, in merged canonical form.", "quantifier": "every pair of lists", "why_tests_cant": "All lists of all lengths.", "anchors": ["src/bibleref/ref.py: BibleRangeList.intersection, intersection_update"]}
{"id": "C23", "title": "List difference is set difference in canonical form", "statement": "a.difference(b) holds exactly the verses of a that are not in b; in particular a - a is empty.", "quantifier": "every pair of lists", "why_tests_cant": "All lists of all lengths; in-place replacement while iterating.", "anchors": ["src/bibleref/ref.py: BibleRangeList.difference, difference_update"]}
{"id": "C24", "title": "List symmetric difference is set symmetric difference", "statement": "a.sym_difference(b) holds exactly the verses in one of a, b but not in both; in particular a ^ a is empty.", "quantifier": "every pair of lists", "why_tests_cant": "All lists of all lengths.", "anchors": ["src/bibleref/ref.py: BibleRangeList.sym_difference, sym_difference_update"]}
{"id": "C25", "title": "List containment and disjointness", "statement": "list.contains(x) is True exactly when every verse of x is in some range of the list (even when x spans several ranges), and list.is_disjoint(x) exactly when no verse is in both; neither modifies the list.", "quantifier": "every list and every verse, range or list x", "why_tests_cant": "All lists of all lengths.", "anchors": ["src/bibleref/ref.py: BibleRangeList.contains, is_disjoint"]}
{"id": "C26", "title": "range(), chap_range() and book_range() are least covers", "statement": "list.range() is the smallest range containing every verse of the list, and chap_range()/book_range() (of verses, ranges and lists) the smallest range of whole chapters / whole books containing the reference.", "quantifier": "every non-empty list of ranges, in any order and with any overlaps", "why_tests_cant": "All lists, including nested and overlapping ranges.", "anchors": ["src/bibleref/ref.py: BibleRangeList.range, chap_range, book_range; BibleRange.chap_range, book_range; BibleVerse.chap_range, book_range"]}
{"id": "C27", "title": "GroupedList behaves as a sequence of non-empty groups under every operation sequence", "statement": "After any sequence of append, prepend, append_group, extend, insert, pop, remove, item assignment, clear, clear_groups, insert_group_at, reverse and sort, iteration, len, groups, indexing and to_nested_lists show exactly the result of applying the same operations to a plain list of non-empty lists.", "quantifier": "every finite sequence of operations from the empty list", "why_tests_cant": "All operation histories over a doubly linked pointer structure.", "anchors": ["src/bibleref/util.py: GroupedList"]}
{"id": "C28", "title": "Every list access outside the bounds raises IndexError", "statement": "lst[i], lst[i] = x, lst.pop(i) and lst.groups[i] raise IndexError for every i < -len or i >= len and otherwise address exactly item i (counting from the end for negative i), as for built-in lists.", "quantifier": "every list and every integer index", "why_tests_cant": "Indices are unbounded.", "anchors": ["src/bibleref/util.py: GroupedList._conform_index, _node_at, GroupViews.__getitem__"]}
{"id": "C29", "title": "insert_group_at only changes the grouping", "statement": "insert_group_at(i) makes item i the first item of its group, changes no item and no other boundary, and leaves the list usable, also if item i already begins a group.", "quantifier": "every grouped list and every valid index", "why_tests_cant": "The corruption shows up only in later traversals, which need not terminate.", "anchors": ["src/bibleref/util.py: GroupedList.insert_group_at, _insert_new_group_at_node"]}
{"id": "C30", "title": "sort is a stable sort", "statement": "sort() leaves a permutation of the items in ascending order, keeps the order of equal items, and produces a single group with a consistent structure.", "quantifier": "every list, every ordering of items", "why_tests_cant": "All lists of all lengths; stability.", "anchors": ["src/bibleref/util.py: GroupedList.sort, _merge_sort, _split, _merge_sublists"]}
{"id": "C31", "title": "List equality is equality of grouped contents", "statement": "a == b for two grouped lists exactly when they have the same groups with equal items; equals(b, compare_groups=False) exactly when the flattened items are equal; a copy made by the constructor from to_nested_lists()/list contents is equal.", "quantifier": "every pair of grouped lists", "why_tests_cant": "All lists.", "anchors": ["src/bibleref/util.py: GroupedList.equals, __init__, to_nested_lists"]}
{"id": "C32", "title": "Extending a list with itself", "statement": "lst.extend(lst), lst += lst and union_update with itself terminate and behave as with a copy of the list.", "quantifier": "every list", "why_tests_cant": "Non-termination cannot be observed by a test.", "anchors": ["src/bibleref/util.py: GroupedList.extend", "src/bibleref/ref.py: BibleRangeList.union_update"]}
{"id": "C33", "title": "In-place operators keep the list", "statement": "After a |= b, a &= b, a -= b, a ^= b the variable still refers to the updated BibleRangeList.", "quantifier": "every pair of lists", "why_tests_cant": "Must hold for every input.", "anchors": ["src/bibleref/ref.py: BibleRangeList.__ior__, __iand__, __isub__, __ixor__"]}
{"id": "C34", "title": "regroup only changes grouping, is idempotent and conventional", "statement": "regroup() keeps the items and their order, produces non-empty groups, is idempotent, and gives the same grouping that parsing str(preserve_groups=False) gives.", "quantifier": "every list of ranges", "why_tests_cant": "All lists; relates three stateful algorithms.", "anchors": ["src/bibleref/ref.py: BibleRangeList.regroup, BibleRangeList.str"]}
{"id": "C35", "title": "Parsing the string of a list gives back the list", "statement": "BibleRangeList(L.str(...)) equals L, groups included, for the default options and for abbreviations, alternate verse separator, forced start verses and no-space output.", "quantifier": "every non-empty grouped list of legal ranges, every option combination, every earlier parse history", "why_tests_cant": "All lists of all lengths; the printer and parser carry state along the list.", "anchors": ["src/bibleref/ref.py: BibleRangeList.str, BibleVerse.str", "src/bibleref/parser.py: _BibleRefTransformer, grammar"]}
{"id": "C36", "title": "Parsing the string of a range or verse gives it back", "statement": "BibleRange(r.str(...)) equals r and BibleVerse(v.str(...)) equals v for every legal r and v.", "quantifier": "every legal range and verse, every option combination", "why_tests_cant": "All ranges.", "anchors": ["src/bibleref/ref.py: BibleRange.str, BibleVerse.str", "src/bibleref/parser.py: _parse"]}
{"id": "C37", "title": "Parsing depends only on the text and the flags", "statement": "The result of parsing a string is the same whatever strings were parsed (or failed to parse) before.", "quantifier": "every string and every history of earlier parses", "why_tests_cant": "Histories are unbounded.", "anchors": ["src/bibleref/parser.py: _transformer, _BibleRefTransformer"]}
{"id": "C38", "title": "The reference grammar is unambiguous", "statement": "Every text has at most one reading as a list of references, so the result cannot depend on how the parser resolves ambiguity; readings are found whenever they exist.", "quantifier": "every string, every set of five distinct punctuation separators", "why_tests_cant": "All strings.", "anchors": ["src/bibleref/parser.py: _recreate_parser"]}
{"id": "C39", "title": "A book name denotes at most one book", "statement": "No string is accepted as a name of two different books; every title and abbreviation denotes its own book; acceptance does not depend on letter case or on surrounding white space.", "quantifier": "every string", "why_tests_cant": "All strings; prefixes and optional white space make the set of accepted names infinite.", "anchors": ["src/bibleref/data.py: BibleData._set_regexes, default_name_data", "src/bibleref/ref.py: BibleBook.from_str"]}
{"id": "C40", "title": "verse_0_to_1 and verse_1_to_0", "statement": "verse_0_to_1 maps verse 0s to verse 1 of the same chapter and leaves others alone, is idempotent and order-preserving; verse_1_to_0 does the reverse on chapters with a verse 0; both keep ranges legal and keep list grouping.", "quantifier": "every verse, range and list, every flags setting", "why_tests_cant": "All verses.", "anchors": ["src/bibleref/ref.py: verse_0_to_1, verse_1_to_0 of BibleVerse, BibleRange, BibleRangeList"]}
{"id": "C41", "title": "An explicit flags argument overrides the global flags", "statement": "Passing flags=f to a method gives the result obtained by setting the global flags to f and passing nothing.", "quantifier": "every method with a flags argument, every pair of global and explicit flags", "why_tests_cant": "All inputs and flag pairs.", "anchors": ["src/bibleref/ref.py: every flags = flags or bibleref.flags or BibleFlag.NONE"]}
{"id": "C42", "title": "Book and chapter ranges are exact", "statement": "book.range() / book.chap_range(c) / chap_ranges() / first_verse / last_verse / verse_count / chap_count describe exactly the verses of the book/chapter; whole_bible() contains every verse.", "quantifier": "every book, every chapter number, every versification", "why_tests_cant": "All versifications and integers.", "anchors": ["src/bibleref/ref.py: BibleBook methods, BibleRange.whole_bible"]}
{"id": "C43", "title": "Whole-unit tests are exact", "statement": "is_whole_chap/is_whole_book hold exactly when the range's verses are all verses of one chapter/book, spans_start_chap/spans_end_chap/spans_start_book/spans_end_book exactly when the whole first/last chapter/book is inside the range, and is_first_in_chap/is_last_in_book etc. exactly for the first/last verses.", "quantifier": "every range and verse", "why_tests_cant": "All ranges.", "anchors": ["src/bibleref/ref.py: BibleRange.is_whole_chap ... spans_end_book, BibleVerse.is_first_in_chap ..."]}
{"id": "C44", "title": "Group views stay correct or fail loudly", "statement": "A view of a group shows exactly the current items of the group headed by the same item, and raises GroupViewError once that item is no longer a group head of the list (removed, moved by prepend/insert, regrouped or list cleared).", "quantifier": "every history of list operations after taking the view", "why_tests_cant": "All histories.", "anchors": ["src/bibleref/util.py: GroupView, GroupViews, GroupedList.clear"]}
{"id": "C45", "title": "Existing multi-book ranges work without MULTIBOOK", "statement": "As documented for the flag, union, intersection, difference, merge, iteration, counting and splitting of already existing multi-book ranges give the right verses when MULTIBOOK is not set.", "quantifier": "every pair of multi-book ranges", "why_tests_cant": "All ranges.", "anchors": ["src/bibleref/ref.py: BibleFlag.MULTIBOOK, BibleRange.union, intersection, difference, split, __iter__"]}
{"id": "C46", "title": "Parsing errors point at the offending text", "statement": "When a syntactically correct string is rejected, the BibleRefParsingError's start_pos/end_pos delimit exactly the text of the reference or book name that is invalid, and no other exception type escapes.", "quantifier": "every string", "why_tests_cant": "All strings.", "anchors": ["src/bibleref/parser.py: _BibleRefTransformer, _meta_info_to_pos"]}
{"id": "C47", "title": "Methods of a range on verses, ranges and lists", "statement": "r.is_disjoint(x), contains(x), surrounds(x) and is_adjacent(x) hold exactly when the corresponding relation holds between r and all ranges of x, and union/intersection/difference/sym_difference of a range with a verse, range or list give the same verses as the corresponding list operations.", "quantifier": "every range and every verse, range or list x", "why_tests_cant": "All lists of all lengths.", "anchors": ["src/bibleref/ref.py: BibleRange.is_disjoint, is_adjacent, contains, surrounds, union, intersection, difference, sym_difference with a BibleRangeList"]}
{"id": "C48", "title": "The text of a verse is exact", "statement": "A verse prints as the title (or abbreviation) of its book, a blank, the chapter number, the verse separator and the verse number, all numbers in plain decimal; in a book of one chapter the chapter number and separator are left out; nospace removes the blanks; alt_sep uses the alternative separator.", "quantifier": "every verse, every look, every versification with usable names", "why_tests_cant": "All verses and all tables.", "anchors": ["src/bibleref/ref.py: BibleVerse.str, __str__, BibleVersePart", "src/bibleref/data.py: book_title, book_abbrevs"]}
{"id": "C49", "title": "The text of a range is exact", "statement": "A range prints as its first and last reference joined by the range separator, with exactly the parts of the last reference that differ; a range that is one book, chapter or verse prints as a single reference; whole books and chapters are printed without their verses unless the start verse is forced.", "quantifier": "every range, every look and force_start_verse, every flags argument equal to the global flags", "why_tests_cant": "All ranges; the case distinction has dozens of branches.", "anchors": ["src/bibleref/ref.py: BibleRange.str, _start_parts_and_sep, _end_parts"]}
{"id": "C50", "title": "The text of a list is exact", "statement": "A list prints its ranges in order, each with exactly those parts that the text before it does not already supply, joined by the major separator at group boundaries (or where the context changes, if groups are not preserved) and the minor separator elsewhere.", "quantifier": "every grouped list, every look, preserve_groups and force_start_verse", "why_tests_cant": "All lists of all lengths.", "anchors": ["src/bibleref/ref.py: BibleRangeList.str, _start_parts_and_sep, _end_parts"]}
{"id": "C51", "title": "str and repr", "statement": "str(x) is x.str() without arguments; repr of a verse is BibleVerse(...) with the abbreviated text, of a range BibleRange(...) and of a list BibleRangeList(\"...\") with the plain text.", "quantifier": "every verse, range and list", "why_tests_cant": "All values.", "anchors": ["src/bibleref/ref.py: __str__ and __repr__ of BibleVerse, BibleRange, BibleRangeList"]}
{"id": "C52", "title": "Single units are printed as single references", "statement": "The text of a list has exactly one range separator for each range that is more than a single book, chapter or verse.", "quantifier": "every grouped list", "why_tests_cant": "All lists; the failure needs a chapter after verses in one group.", "anchors": ["src/bibleref/ref.py: BibleRangeList.str (force_dual_ref)"]}
{"id": "C53", "title": "Different references print differently", "statement": "Two different verses, ranges or grouped lists never have the same text.", "quantifier": "every pair of verses, ranges or lists", "why_tests_cant": "All pairs.", "anchors": ["src/bibleref/ref.py: str of BibleVerse, BibleRange, BibleRangeList"]}
{"id": "C54", "title": "The latest setting counts", "statement": "After any sequence of assignments to the separators, book order, name data, verse tables and flags, and of parses (successful or not), each setting has the value assigned last: the separators printed and read, the names printed and recognised, the numbers of verses, the verse 0s and the order of the books. An assignment that raises changes nothing.", "quantifier": "every history of assignments and parses", "why_tests_cant": "All histories; the settings are stored twice (tables and attributes of the books) and cached in a parser object.", "anchors": ["src/bibleref/data.py: setters of BibleData", "src/bibleref/parser.py: _parser, _recreate_parser", "src/bibleref/ref.py: BibleBook.from_str"]}
{"id": "C55", "title": "The parser follows the separators", "statement": "After any history, a string is rejected as a syntax error exactly when it has no reading with the separators in effect at that moment.", "quantifier": "every history of assignments and parses, every string", "why_tests_cant": "All histories and strings; the parser is a cached object.", "anchors": ["src/bibleref/parser.py: _parser, _recreate_parser, _parse", "src/bibleref/data.py: separator setters"]}
{"id": "C56", "title": "Printing and reading back after any history", "statement": "Whatever was assigned and parsed before, printing a verse, range or list and constructing it again from the text gives the same value.", "quantifier": "every history, every verse, range and list", "why_tests_cant": "All histories and values.", "anchors": ["src/bibleref/ref.py: str and constructors from strings", "src/bibleref/parser.py: _parse", "src/bibleref/data.py: setters"]}
{"id": "C57", "title": "Texts that stand on their own do not depend on history", "statement": "A string that is accepted by an unused parser gives the same result after every history that leads to the same settings; strings whose first reference names its book give the same result or the same error.", "quantifier": "every history of assignments and parses, every string", "why_tests_cant": "All histories and strings.", "anchors": ["src/bibleref/parser.py: _BibleRefTransformer, _transformer"]}
{"id": "C58", "title": "Operators are the methods without flags", "statement": "v + n, v - n, v - w on verses, x in r, r | x, r & x, r - x, r ^ x on ranges and lists give the same value or exception as add, subtract, contains, union, intersection, difference and sym_difference called without flags; any other operand of + and - on a verse raises TypeError.", "quantifier": "every verse, range, list and operand of the documented types", "why_tests_cant": "All values and configurations.", "anchors": ["src/bibleref/ref.py: BibleVerse.__add__, __sub__; BibleRange and BibleRangeList operators"]}
{"id": "C59", "title": "List operations on linked nodes", "statement": "After any history of operations on a BibleRangeList (those of GroupedList, and sort, regroup, merge, union_update, intersection_update, difference_update, sym_difference_update, verse_0_to_1, verse_1_to_0), some of which may have raised, iteration, reversed iteration, groups and counts agree, and results, exceptions and contents are those of the same operations on plain lists of groups; the lists returned by copying, union, intersection, difference and sym_difference are well linked too. (Histories without insert_group_at on the head of a later group, which is the subject of C29.)", "quantifier": "every history, every list, every reference, all flags and tables", "why_tests_cant": "All histories of pointer manipulations, including calls that were broken off by an exception at any point.", "anchors": ["src/bibleref/ref.py: BibleRangeList.sort, merge, regroup, *_update, union, intersection, difference, sym_difference", "src/bibleref/util.py: GroupedList"]}
{"id": "C60", "title": "Exception safety of in-place operations", "statement": "An in-place operation on a BibleRangeList that raises leaves the list as it was.", "quantifier": "every list after any history, every in-place operation, all flags and tables", "why_tests_cant": "All lists and all points at which an operation may be broken off.", "anchors": ["src/bibleref/ref.py: BibleRangeList.sort, merge, regroup, *_update, verse_0_to_1, verse_1_to_0"]}
{"id": "C61", "title": "A list united with itself in place", "statement": "l.union_update(l), or l |= l, ends.", "quantifier": "every list after any history, all flags and tables", "why_tests_cant": "Non-termination cannot be observed by a test, and every list must be covered.", "anchors": ["src/bibleref/ref.py: BibleRangeList.union_update", "src/bibleref/util.py: GroupedList.extend"]}
{"id": "C62", "title": "Arguments of BibleVerse", "statement": "BibleVerse(*args) returns: for one string, the verse that the string denotes; for a verse, an equal verse; for a book or the name of a book with two ints, the verse with these numbers if it exists, else InvalidReferenceError. A name of no book with two further arguments raises InvalidReferenceError. All other arguments raise ValueError.", "quantifier": "every list of arguments of any classes (None, ints, strings, books, verses, ranges, lists, iterables, other objects), all tables, flags and parser states", "why_tests_cant": "All argument lists and all strings.", "anchors": ["src/bibleref/ref.py: BibleVerse.__init__"]}
{"id": "C63", "title": "Arguments of BibleRange", "statement": "BibleRange(...) returns the range described by one string, a range, start= and end= verses, or one to six positional parts (book or name, ints or None); if the arguments are of an incorrect number or type, ValueError is raised (docstring).", "quantifier": "every list of arguments of any classes, all tables, flags and parser states", "why_tests_cant": "All argument lists.", "anchors": ["src/bibleref/ref.py: BibleRange.__init__"]}
{"id": "C64", "title": "Chapter and verse numbers as strings", "statement": "Where BibleRange takes a chapter or verse number, a string that int() takes gives the same result as the int.", "quantifier": "every string and every list of positional arguments, all tables and flags", "why_tests_cant": "All strings and argument lists.", "anchors": ["src/bibleref/ref.py: BibleRange.__init__"]}
{"id": "C65", "title": "What a constructed BibleRange is", "statement": "If BibleRange(...) returns, start and end of the new range are verses of the Bible, the start is not after the end, and without MULTIBOOK both are in one book.", "quantifier": "every list of positional arguments and every pair of keyword arguments of any classes, all tables and flags", "why_tests_cant": "All argument lists, including those of undocumented classes.", "anchors": ["src/bibleref/ref.py: BibleRange.__init__"]}
{"id": "C66", "title": "Arguments of BibleRangeList", "statement": "BibleRangeList(...) returns: for no argument or None, an empty list; for a string, the groups the parser gives; for a BibleRangeList, a copy with the same groups; for an iterable, or several arguments, of ranges and lists or tuples of ranges, these ranges in order, where every non-empty list or tuple begins a group and single ranges join the group before them. An item of another class, one argument that cannot be iterated, or a single range (one that does not end before it starts), raises TypeError.", "quantifier": "every list of arguments of any classes, all tables, flags and parser states", "why_tests_cant": "All argument lists, nested to any length.", "anchors": ["src/bibleref/ref.py: BibleRangeList.__init__, _check_type", "src/bibleref/util.py: GroupedList.__init__"]}
{"id": "C67", "title": "Set operations on objects that are no references", "statement": "A set operation or test (is_disjoint, is_adjacent, contains, surrounds, union, intersection, difference, sym_difference and the update methods) of a range or list with an object that is not a verse, range or list of ranges raises ValueError and changes nothing.", "quantifier": "every range and list, every object of another class, all tables and flags", "why_tests_cant": "All objects and lists.", "anchors": ["src/bibleref/ref.py: BibleRange and BibleRangeList set operations"]}
{"id": "C68", "title": "Items that are no ranges", "statement": "The methods of BibleRangeList that take items (append, prepend, insert, extend, append_group, item assignment, remove, index, count) raise TypeError for an item that is not a BibleRange and then leave the list unchanged.", "quantifier": "every list after any history, every object", "why_tests_cant": "All lists and objects, and every place of the wrong item in an iterable.", "anchors": ["src/bibleref/ref.py: BibleRangeList._check_type", "src/bibleref/util.py: GroupedList"]}
{"id": "C69", "title": "What the parser remembers", "statement": "A text is read in the context left by the texts parsed before it, whether these were accepted or rejected: the book of their last reference that names or inherits a book, and its chapter if that reference had a verse; a text without a reading and an assignment of global settings leave the context as it was. A context that was left in this way is unique.", "quantifier": "every history of parsed texts and assignments of flags, separators, order, names and verse counts; every next text; all flags", "why_tests_cant": "All histories and texts; a test sees one sequence of calls in one process.", "anchors": ["src/bibleref/parser.py: _BibleRefTransformer, _parse, _transformer"]}
{"id": "C70", "title": "A list minus itself in place", "statement": "l.difference_update(l), or l -= l, runs through the list that it changes. It ends, by returning or with an exception, and in both cases leaves a well linked list that covers exactly the verses of l. If it returns, the list is in canonical form; it is l merged, if MULTIBOOK is on or no range spans books. If no two ranges of l have a verse in common, it does exactly what l.merge() does.", "quantifier": "every list of legal ranges after any history, all tables, all flags arguments that agree with the global flags about verse 0s", "why_tests_cant": "Iteration over a list during its modification: all lists, all overlaps, and termination.", "anchors": ["src/bibleref/ref.py: BibleRangeList.difference_update, __isub__", "src/bibleref/util.py: GroupedList.__iter__, _insert_before, _pop_node"]}
{"id": "C71", "title": "The texts of grouped lists and views", "statement": "str of a GroupedList is the list notation of its groups, str of a GroupView that of its items, str of groups that of the reprs of the views of all groups, where an item is written as its repr; repr puts the class name and parentheses around str. A view that cannot be read raises the exception of iterating it. str and repr of a BibleRangeList are those of its groups, whatever was done to the list before.", "quantifier": "every list after any history, every view, every repr of items", "why_tests_cant": "All lists, groupings and histories.", "anchors": ["src/bibleref/util.py: GroupViews, GroupView, GroupedList: __str__, __repr__", "src/bibleref/ref.py: BibleRangeList.__str__, __repr__"]}
{"id": "C72", "title": "Texts under a flags argument", "statement": "str(flags=f) of a range or a list gives the text that str() gives when f is the global flags; a missing argument, or NONE, stands for the global flags.", "quantifier": "every legal range and list (with or without verse 0s), all tables, looks, groupings, global flags and flags arguments", "why_tests_cant": "All ranges and lists under all pairs of flags; the tests print with the global flags only.", "anchors": ["src/bibleref/ref.py: BibleRange.str, BibleRangeList.str"]}
{"id": "C73", "title": "The laws of union and intersection", "statement": "Expressions built with union and intersection from lists, ranges and verses have a value. The value has exactly the verses of the expression read as a set and is in canonical form, so that expressions which stand for the same set have equal values, with the same groups: union and intersection are commutative, associative, distributive over each other and absorbing.", "quantifier": "all expressions of any size over legal lists, ranges and verses, all tables and flags, if MULTIBOOK is on or no range spans books", "why_tests_cant": "All expressions of all sizes over all lists; tests try a few pairs.", "anchors": ["src/bibleref/ref.py: BibleRangeList.union, intersection, merge"]}
{"id": "C74", "title": "What does not matter in a text", "statement": "Texts that differ only in letter case are read as the same list, or fail with the same error at the same positions. White space put at the ends of a text or next to a separator changes nothing but the positions in errors, which are moved by its length. Texts whose tokens have the same meanings (names of the same book, the same numbers, either verse separator) are read as the same list, or fail and blame the same tokens; zeros in front of a number do not matter. What the parser remembers is the same, too.", "quantifier": "all texts, flags and earlier parses, every set of five distinct punctuation separators", "why_tests_cant": "All texts, cases and spacings, and all errors in them.", "anchors": ["src/bibleref/parser.py: _recreate_parser, _BibleRefTransformer", "src/bibleref/ref.py: BibleBook.from_str"]}
{"id": "C75", "title": "Sorting items that cannot all be compared", "statement": "If a comparison of two items raises while a GroupedList is sorted, sort raises the same exception, and leaves the list as it was. If the items are of several kinds, and two items can be compared just if they are of the same kind, sort succeeds exactly if all items are of one kind. For a BibleRangeList, ranges can all be compared if all their books are in book_order or there is only one book; sort, merge and union_update then do what they do for books of the order, and raise TypeError otherwise.", "quantifier": "every list after any history, every comparison that may raise, all ranges and tables", "why_tests_cant": "All lists, all places of items that cannot be compared, all comparisons; the state of the links after an exception.", "anchors": ["src/bibleref/util.py: GroupedList.sort, _merge_sort, _merge", "src/bibleref/ref.py: BibleRangeList.sort, merge, union_update"]}
{"id": "C76", "title": "Books outside the order", "statement": "Ranges whose books are not all in book_order, and are not all the same book, cannot be compared: comparisons, predicates and set operations raise TypeError. In all other cases they give what the order of the verses says. A book that is not in book_order has no next and no previous book; addition, subtraction, iteration, split, predicates and set operations on its verses and ranges give what they give in a Bible of which it is the only book. The ends of every range that the constructor makes can be compared.", "quantifier": "all tables whose book_order lists the books that have an order, all flags, verses and ranges whose ends can be compared", "why_tests_cant": "All orders of books and all pairs of ranges, with every book left out of the order.", "anchors": ["src/bibleref/ref.py: BibleBook.__lt__, BibleVerse, BibleRange", "src/bibleref/data.py: BibleData.book_order"]}
{"id": "C77", "title": "List methods for books outside the order", "statement": "If the ranges of a BibleRangeList and of another reference can all be compared (their books are all in book_order, or are all the same book), is_disjoint, contains, range, chap_range, book_range, union, intersection, difference, sym_difference and their update forms, and the methods of a range with a list, do what they do for books of the order. Otherwise range, chap_range, book_range, contains (if the list itself is mixed), union and sym_difference raise TypeError; intersection and difference compare the ranges of the list with those of the other reference and do not succeed if two of these cannot be compared; is_disjoint, contains and the methods of a range raise TypeError at the first pair that cannot be compared, unless the answer is known before. intersection_update and sym_difference_update that raise leave the list as it was. Lists of ranges of one book outside the order give what they give in a Bible of which it is the only book.", "quantifier": "every list after any history, all references, tables and flags, ranges whose ends can be compared", "why_tests_cant": "All mixtures of books in and outside the order, in all places of the two lists.", "anchors": ["src/bibleref/ref.py: BibleRangeList: is_disjoint, contains, range, union, intersection, difference, sym_difference", "src/bibleref/ref.py: BibleRange: is_disjoint, is_adjacent, contains, surrounds"]}
{"id": "C78", "title": "The order of the books matters only between books", "statement": "Take two Bibles that differ only in book_order, and references within one book. Comparisons, the constructor, the predicates and intersection give the same in both. Addition, subtraction, adjacency, union, difference, sym_difference, split and the list methods do so if neither the flags argument nor, where split is involved, the global flags have MULTIBOOK; iteration, split and the counts of legal ranges do so with all flags. Texts of lists of such ranges are the same; with a global MULTIBOOK, of legal ones. If the same books are listed in both orders, every text is read the same without MULTIBOOK, with the same errors at the same places, and with MULTIBOOK every accepted text whose ranges each lie within one book. A range given by positional arguments that name a book outside book_order twice raises TypeError.", "quantifier": "all tables, orders of books, flags, verses, ranges and lists within one book, all texts and earlier parses", "why_tests_cant": "All orders of all books; the tests use only the default order.", "anchors": ["src/bibleref/data.py: BibleData.book_order", "src/bibleref/ref.py: BibleBook.next, prev, __lt__; BibleVerse.add, subtract; BibleRange; BibleRangeList.str", "src/bibleref/parser.py: _BibleRefTransformer"]}
{"id": "C79", "title": "Sorting within the recursion limit", "statement": "A list of any length can be sorted within Python's recursion limit. Precisely: if the interpreter can nest R more calls and a comparison of two items nests c calls, a GroupedList of n items is sorted if n + c <= R (and R >= 2), and RecursionError is raised if n >= 2 and R <= n/2 + c, whatever the items; a list that is in order needs ceil(n/2) + 1 + c, and for every n some list needs n + c. The list is left as it was if RecursionError is raised. For a BibleRangeList the same holds of sort, merge, union_update and contains, which nest up to three calls more.", "quantifier": "every list after any history, all items and orders, every depth of comparisons, every R", "why_tests_cant": "All lengths and limits; the tests sort lists of a few items, and the limit can be set to anything.", "anchors": ["src/bibleref/util.py: GroupedList.sort, _merge_sort, _split, _merge_sublists", "src/bibleref/ref.py: BibleRangeList.sort, merge, union_update, contains"]}
{"id": "C80", "title": "Numbers with more digits than int() takes", "statement": "Python's int() raises ValueError for more digits than a limit (4300 unless changed, 0 for none), leading zeros included. If no number of a text has more digits than the limit, the text is read as without a limit. Otherwise ValueError is raised exactly if the text is readable and such a number ends no later than the end_pos of the BibleRefParsingError that is raised without a limit, or if none is; in all other cases the result or the exception with its positions is that without a limit. After a ValueError the transformer remembers what the references and separators before the reference with the first such number leave behind. The constructors of lists, ranges and verses from strings pass the ValueError on. For every limit but 0 there is a text of a legal reference that raises ValueError.", "quantifier": "every limit, text, flags and earlier parses; separators that are different punctuation characters", "why_tests_cant": "All limits, and all places of long numbers and of other errors in all texts.", "anchors": ["src/bibleref/parser.py: _BibleRefTransformer.NUM, _parse", "src/bibleref/ref.py: BibleRangeList.__init__, BibleRange.__init__, BibleVerse.__init__"]}
{"id": "C81", "title": "Iterating over a list that is being changed", "statement": "An iterator of a GroupedList, forwards or reversed, that has given an item goes on, at the moment it is asked, with the neighbour which that item had when it was last in the list, and gives the value of this neighbour at that time, also if the neighbour was removed since; it ends if there was none. So an item that is still in the list is followed by its present neighbour, and an item that was removed keeps the neighbours it had before. An iterator that has not begun gives the first (last) item of the present list; one that has ended stays so. Hence: a loop that changes nothing gives all items in order; a loop over a list that removes the items not to be kept gives every item and leaves the others, in their groups, without the groups that have become empty; a loop that appends an item in every round never ends unless the list is empty.", "quantifier": "every history of operations that does not call insert_group_at on the first item of a later group, every position of the iterator; for the removing loop every test that treats equal items alike, with items equal to themselves", "why_tests_cant": "All interleavings of changes and steps of iterators; a test follows a few.", "anchors": ["src/bibleref/util.py: GroupedList.__iter__, __reversed__, _remove_node, clear"]}
{"id": "C82", "title": "Iterating over the groups, or one group, while the list is being changed", "statement": "An iterator of lst.groups that has given the group of a first item goes on with the group that follows it in the present list, if that item still begins a group, and ends otherwise. An iterator of a GroupView that has given an item goes on with the item that comes after it (as for lists), unless there is none or that item now begins a group. An iterator of a view that has not begun gives the first item if it still begins a group, and raises GroupViewError otherwise.", "quantifier": "every history of operations without clear() that does not call insert_group_at on the first item of a later group, every position of the iterator", "why_tests_cant": "All interleavings of changes and steps of iterators.", "anchors": ["src/bibleref/util.py: GroupedList.GroupViews.__iter__, GroupView.__iter__, _remove_node"]}
{"id": "C83", "title": "A loop over the groups gives every group", "statement": "A loop over lst.groups gives every group that is in the list, with the same items, before and after the loop, whatever its body does with the list.", "quantifier": "every list after any history, every loop body that ends", "why_tests_cant": "All loop bodies.", "anchors": ["src/bibleref/util.py: GroupedList.GroupViews.__iter__, _remove_node"]}
{"id": "C84", "title": "Counting the verses of unions and intersections", "statement": "verse_count() of a list is at least the number of different Bible verses that lie in its ranges, and equal to it exactly if no two of its ranges overlap. The value of every expression of unions and intersections of lists counts each of its verses once. Hence, if m and n are the counts of lists A and B freed of overlaps (A | A, B | B), and u and i those of A | B and A & B, then u + i = m + n, i is at most m and n, i = 0 exactly if the lists have no verse in common, and i = m exactly if all verses of A are in B.", "quantifier": "all legal lists and expressions, all flags", "why_tests_cant": "All lists and nested operations; a test compares a few counts.", "anchors": ["src/bibleref/ref.py: BibleRangeList.verse_count, union, intersection; BibleRange.verse_count"]}
{"id": "C85", "title": "Where syntax errors are found", "statement": "A text that is no list of references by the grammar raises BibleRefParsingError with start_pos = p and end_pos = p + 1, and changes nothing that the parser remembers. p is the greatest place that tokens expected by the grammar, each the longest of its kind, and white space can reach from the beginning of the text; if they reach the end of the text, p is -1. The text before p (the whole text if p = -1) is itself a list of references, or becomes one when a digit is appended. If p is not -1, it is the place of a character of the text that is not white space. p is -1 exactly if a digit appended to the text makes it a list of references.", "quantifier": "every string, every set of five distinct punctuation separators, all flags and earlier parses", "why_tests_cant": "All strings; the tests check no position of a syntax error.", "anchors": ["src/bibleref/parser.py: _parse, _recreate_parser"]}
{"id": "C86", "title": "The positions of a parsing error lie in the text", "statement": "Whenever parsing a string raises BibleRefParsingError, 0 <= start_pos < end_pos <= len(string).", "quantifier": "every string, all flags and earlier parses", "why_tests_cant": "All strings.", "anchors": ["src/bibleref/parser.py: _parse, _BibleRefTransformer, _meta_info_to_pos"]}
{"id": "C87", "title": "Texts that can be continued", "statement": "A text can be continued to a list of references by the grammar exactly if it is one, or becomes one when the digit 1 or the letter a is appended. The position of the syntax error of a text that can be continued is -1 (its end), or lies in a last part of the text that consists of word characters and white space, the beginning of a name. So no continuation repairs a text in which some character at or after the position of the error is neither a word character nor white space.", "quantifier": "every string, every set of five distinct punctuation separators", "why_tests_cant": "All texts and all their continuations.", "anchors": ["src/bibleref/parser.py: _parse, _recreate_parser"]}
{"id": "C88", "title": "The pieces of a range join to the range", "statement": "The pieces that range.split() gives, in any order and any grouping, merge to the list of just the range. Without MULTIBOOK, pieces that do not cross books merge to the pieces of split(by_book=True). The counts of the verses of the pieces add up to that of the range.", "quantifier": "every legal range, all options of split, all orders and groupings of the pieces, all flags", "why_tests_cant": "All ranges, options and permutations.", "anchors": ["src/bibleref/ref.py: BibleRange.split, verse_count; BibleRangeList.merge, verse_count"]}
{"id": "C89", "title": "Texts joined with a separator", "statement": "Two texts with a list separator between them are a list of references exactly if the first text followed by the separator is one, and the second is one or white space. If the second is one, reading the joined text is reading the first with the separator and then the second with what the parser remembers from it: the result consists of the groups of both, where at a minor separator the last group of the first and the first group of the second become one; an exception of the first is raised as it is, one of the second with its positions moved by what stands before it; and the parser remembers the same. A separator at the end of a text does not change its result. With the tables of the package, BibleRangeList(str(a) + '; ' + str(b)) has the groups of a and then those of b, for all non-empty lists a and b without empty groups of ranges that are legal under the global flags (spanning books only with MULTIBOOK), after every history of parses.", "quantifier": "all strings, every set of five distinct punctuation separators, all flags and remembered states; all such lists", "why_tests_cant": "All pairs of texts and lists.", "anchors": ["src/bibleref/parser.py: _parse, _BibleRefTransformer, _recreate_parser", "src/bibleref/ref.py: BibleRangeList.__init__, str"]}
{"id": "C90", "title": "The places of pieces of equal size", "statement": "Number the verses of the Bible (with verse 0s if the flags in effect have VERSE_0 or an end of the range is a verse 0). If range r goes from number i to number j, then split(num_verses=n) with n >= 1 gives (j - i) // n + 1 pieces, and piece k (from 0) goes from number i + k*n to number i + k*n + n - 1 or j, whichever is less.", "quantifier": "every legal range, every n >= 1, all flags", "why_tests_cant": "All ranges and sizes.", "anchors": ["src/bibleref/ref.py: BibleRange.split, BibleVerse.add"]}
{"id": "C91", "title": "Containment is the order of union and intersection", "statement": "a.contains(x) is True exactly if a.union(x) equals a.union(a), and exactly if a.intersection(x) equals x united with itself; a.is_disjoint(x) is True exactly if a.intersection(x) is empty. Containment of lists is reflexive and transitive, and two lists contain each other exactly if they have the same canonical form (a | a == b | b). a | b is contained exactly in the lists that contain a and b, and a & b contains exactly the lists contained in a and in b. With MULTIBOOK the whole Bible, if whole_bible() returns it, contains every reference, w | x is w, and a & w is a in canonical form.", "quantifier": "all legal lists, and verses, ranges or lists x, all tables and flags, if MULTIBOOK is on or no range spans books", "why_tests_cant": "All pairs and triples of lists.", "anchors": ["src/bibleref/ref.py: BibleRangeList.contains, is_disjoint, union, intersection, BibleRange.whole_bible"]}
{"id": "C92", "title": "Numbers given to BibleRange as strings have limited length", "statement": "Let the interpreter limit int() to L digits. Then int(s) takes exactly the texts it would take without a limit that have at most L digits, leading zeros included, and raises ValueError for all others. BibleRange(...) of several arguments gives the same as without the limit if no chapter or verse number is a string of more than L digits; if there is one, and without the limit a range would be made, it raises ValueError; otherwise it raises what it would raise without the limit, or ValueError. So for every L there are arguments, such as 'Mark' and L zeros followed by a 1, that are refused only for the limit. One string as the only argument is read as C80 says.", "quantifier": "all arguments of all modelled classes, all limits, tables, flags and parser states", "why_tests_cant": "Strings of more than 4300 digits.", "anchors": ["src/bibleref/ref.py: BibleRange.__init__"]}
{"id": "C93", "title": "Iterating over a range while the flags change", "statement": "The calls of next() on an iterator of a range give, in the order of the Bible, the first verse of the range and all its other verses that are not verse 0s, each once, and then raise StopIteration for ever; none raises anything else. This is so whatever the global flags are at each of the calls, so that a loop whose body sets flags goes through the same verses as one whose body does not.", "quantifier": "every legal range, every number of calls and all flags at each call, all tables (which stay as they are)", "why_tests_cant": "All sequences of settings between the calls.", "anchors": ["src/bibleref/ref.py: BibleRange.__iter__, BibleVerse.add"]}
{"id": "C94", "title": "Arguments of the methods about chapters and books", "statement": "min_verse_num, max_verse_num, first_verse, last_verse and chap_range of a book with the number of a chapter give the first and last number, verse and the range of that chapter, and raise InvalidReferenceError if there is no such chapter; first_verse and last_verse without a number or with None are those of the book. The same methods of a verse, and is_first_in_chap and is_last_in_chap, do so for the book of the verse, and without a number or with None for the chapter of the verse. Every other argument raises TypeError. is_first_in_book and is_last_in_book take a book, or nothing for the book of the verse, and raise an exception for everything else.", "quantifier": "every book of the order, every verse in one, arguments of every class or none, all flags, all tables", "why_tests_cant": "Arguments of all classes, with all chapters of all books.", "anchors": ["src/bibleref/ref.py: BibleBook.min_verse_num", "src/bibleref/ref.py: BibleBook.chap_range", "src/bibleref/ref.py: BibleVerse.max_verse_num", "src/bibleref/ref.py: BibleVerse.is_first_in_book"]}
{"id": "C95", "title": "Changes inside the tables", "statement": "After any history of assignments to book_order, max_verses and verse_0s, and of changes made inside the lists, dictionaries and sets that were assigned, the books go by the tables as they stand: the last verses and verse 0s of each chapter are those in the tables, and the position of each book is that in the list of books. At the latest this is so after each table has been assigned again, also to itself.", "quantifier": "every history of assignments and changes, objects shared in any way", "why_tests_cant": "All histories, with lists shared between books and tables.", "anchors": ["src/bibleref/data.py: setters of BibleData", "src/bibleref/ref.py: BibleBook.next", "src/bibleref/ref.py: BibleBook.max_verse_num"]}
{"id": "C96", "title": "Equality with objects of any class", "statement": "a == b, where a and b are books, verses, ranges, lists of ranges, None, ints, strings or Python lists of such, is true exactly when a and b are of the same class and have the same contents: the same book, numbers, ends, groups with the same ranges, or equal items. It is symmetric, a != b is its negation, and neither raises an exception, also not for objects of other classes.", "quantifier": "all pairs of objects", "why_tests_cant": "All pairs of classes and contents.", "anchors": ["src/bibleref/ref.py: BibleVerse, BibleRange (dataclass)", "src/bibleref/util.py: GroupedList.__eq__, equals"]}
{"id": "C97", "title": "Indexes of any class", "statement": "Reading, setting and deleting an item, pop, insert, insert_group_at, index and the groups and views of a list take ints as places in the list, negative ones counted from the end (a single group takes no negative ones), raise IndexError for places outside the list, and TypeError for an index of any other class; the list is then unchanged. An index that has a default may be left out; del does not take None.", "quantifier": "every list after any history, every index from -len on, objects of every class", "why_tests_cant": "All lists and objects.", "anchors": ["src/bibleref/util.py: GroupedList._conform_index, __getitem__, __setitem__, __delitem__, insert, insert_group_at, pop, index", "src/bibleref/util.py: GroupViews, GroupView"]}
{"id": "C98", "title": "The order of objects of any class", "statement": "a < b, a <= b, a > b and a >= b give an answer exactly for two ints, two strings, two books that have a position, two verses of one book or of books with positions, two ranges whose first different ends are such verses, and two Python lists of which one begins with the other or whose first different items can be compared; every other pair, also of references of different classes, raises TypeError. Where they answer, a > b is b < a, a <= b is the negation of b < a, < is transitive, and exactly one of a < b, a == b and b < a holds. Verses are ordered by their place in the Bible, ranges by their start and then their end, lists by their first different items.", "quantifier": "all pairs and triples of objects; for the last law all tables in which no two books have the same position", "why_tests_cant": "All pairs and triples of classes and contents, and all orders of the books.", "anchors": ["src/bibleref/ref.py: BibleBook.__lt__, __le__, __gt__, __ge__", "src/bibleref/ref.py: BibleVerse, BibleRange (dataclass)"]}
{"id": "C99", "title": "equals with an argument of any class", "statement": "l.equals(x) is l == x: true exactly for a list of ranges with the same groups. l.equals(x, compare_groups=False) is true exactly when x is a list of ranges, a Python list, tuple or other collection whose items are the ranges of l in the same order. Neither raises an exception, whatever the class of x.", "quantifier": "every list of ranges after any history, objects of every class", "why_tests_cant": "All lists and objects.", "anchors": ["src/bibleref/util.py: GroupedList.equals, __eq__"]}
{"id": "C100", "title": "References in sets and as keys", "statement": "Books, verses and ranges can be hashed, and equal objects have equal hashes. A set made from references (and None, ints and strings) has each of them exactly once, in whatever order and however often they were added, and a reference is found in it exactly if it was added; a verse is never taken for the range of that verse, whatever hashes collide. Lists of ranges and Python lists cannot be hashed and raise TypeError.", "quantifier": "all lists of such objects, all hash functions", "why_tests_cant": "All lists and hash functions, with all their collisions.", "anchors": ["src/bibleref/ref.py: BibleVerse, BibleRange (dataclass)", "src/bibleref/ref.py: BibleBook", "src/bibleref/util.py: GroupedList.__eq__"]}
