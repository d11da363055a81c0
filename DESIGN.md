# Formal model of `bibleref` in Rocq (Coq 8.16.1)

This file says what is modelled, how each property of `properties.jsonl` is stated and
proved, and what is trusted.  It was written before the proofs and is kept current.

## 1. Shape of the model

The model is a shallow, total, computable Gallina program that follows
`/repo/src/bibleref/{ref,util,parser,data}.py` function by function.

* **Exceptions are values.**  `res A = Ok a | Err e`, one constructor of `exn` per Python exception
  class that the code can raise (`InvalidReferenceError`, `MultibookRangeNotAllowedError`,
  `BibleRefParsingError`, `ValueError`, `TypeError`, `AttributeError`, `KeyError`, `IndexError`,
  `GroupViewError`), plus `Diverge`, the value of a loop that ran out of fuel.  Every loop that is not
  structurally recursive takes fuel; the theorems show that the fuel given is always enough, or
  (for the non-termination findings) that no amount is enough.
* **Configuration is a parameter.**  `bibledata` holds what the `BibleData` singleton stores
  (book order, names, verse counts, verse-0 chapters, separators); `env` adds the global
  `bibleref.flags`.  Theorems quantify over every well-formed table, the default table of `data.py`
  is one instance (checked well-formed by computation).
* **Numbers** are `Z` (Python ints are unbounded).
* **Books** are an inductive type with the 66 members of the `BibleBook` enum.
* **GroupedList** is modelled at pointer level: a heap of nodes with `prev/next/prev_head/next_head/
  is_group_head/parent` fields and the list object's seven fields; it is proved to refine a plain
  `list (list A)`.  `BibleRangeList` is modelled on top of the latter (MList), and its in-place methods also on the
  nodes (MNode), with the state of the list after an exception.
* **Strings** are lists of 8-bit characters read as Latin-1 code points.
* **Book-name regexes** are a regex syntax tree built as `_set_regexes` builds the pattern text, with
  the usual language semantics for `fullmatch`.
* **Lark** is not in the repository.  Its contract is modelled: `parse(s)` returns a tree derivable
  from the grammar of `_recreate_parser` for `s` (white space ignored between tokens) or fails
  when there is none.  We prove the grammar unambiguous, so the contract determines the result.

## 2. Properties: what is modelled and how it is proved

| Id | Model | Method |
|----|-------|--------|
| C01 | `BibleVerse.__init__`, `min/max_verse_num` | case analysis, spec = membership in the table |
| C02 | dataclass comparison | spec = position in the enumeration `bible_verses`; induction on the enumeration |
| C03 | `book_order` setter, `next`, `prev` | invariant `order b = Some i <-> nth_error list i = Some b`, induction on the assigned list |
| C04-C06 | `add`, `subtract` loops | loop invariant relating (book, chapter, verse) to an index of the enumeration |
| C07 | `subtract(BibleVerse)` | via C11 |
| C08, C09 | `BibleRange.__init__` | case analysis on all `None` patterns |
| C10 | `__iter__` | induction on the enumeration between the ends |
| C11-C14 | `split`, counts | spec = chunking the list of verses of the range; induction |
| C15-C19 | range predicates and set operations | spec = sets of verses |
| C20-C26 | `BibleRangeList` operations | induction over lists, uniqueness of canonical forms |
| C27-C32, C44 | pointer-level `GroupedList` | refinement to `list (list A)` |
| C33 | operators | direct |
| C34 | `regroup` | simulation between `regroup`, printer and parser |
| C35, C36 | printer, grammar, transformer, names | simulation of printer state by transformer state; lexing lemmas |
| C37 | transformer singleton as explicit state | refutation by witness; positive part by simulation |
| C38 | grammar relation and deterministic reader | soundness, completeness, uniqueness |
| C39 | regexes | derivative matcher = language; pairwise disjointness decided by a verified procedure |
| C40-C43, C45, C46 | as named | case analysis and the enumeration lemmas |
| C47 | methods of a range on verses, ranges and lists | via C15-C25 |
| C48-C53 | `str`, `repr` of the three classes | independent relation on texts (SpecShow), simulation of the printer |
| C58 | operators (MOps) | unfolding, with the specifications of the methods |
| C59-C61 | in-place methods of `BibleRangeList` on nodes (MNode) | refinement to the functions of MList over histories; contents left by a broken-off call |
| C62-C68 | constructors, set operations and list methods on arguments of any class (MNew) | tests of classes, then the functions of the other files |
| C69 | transformer after any history | the context as a relation on readings (SpecRecall), induction over the history |
| C70 | `l -= l` on nodes (MSelf) | a step of the loop against the set of verses and an index of the runs |
| C71 | texts of `GroupedList` and its views (MText) | unfolding |
| C72 | `str` with flags arguments | equality with the texts of another environment, test by test |
| C73 | expressions of unions and intersections | uniqueness of canonical forms, induction over expressions |
| C74 | reader, transformer (SpecAlike: tokens with the same meaning) | simulation of the transformer on related trees, splitting of texts next to separators |
| C75 | merge sort of util.py with a comparison that may raise (MSort), on nodes | the links after an exception at any depth of the recursion |
| C76 | ranges with the exact comparisons of books (MOrder; SpecOrder) | equality with MRange where books can be compared; a book alone against a Bible of one book |
| C77 | list methods with the exact comparisons (MOrder2) | equality with MNode where ranges can be compared; the first pair that raises; a book alone |
| C78 | `alone` and `reorder` (SpecOrder): Bibles that differ in the order of the books | loops of `add` and `subtract` stop at the book; sorted lists of verses for iteration and split; texts and reading item by item |
| C79 | merge sort with a bound on nested calls (MStack); SpecStack: the least room, as a function of the list | induction on the merge; bounds by the lengths; the torn list as for C75 |
| C80 | the transformer with a limit on the digits of `int()` (MDigits; SpecDigits) | composition of parts whose tokens and errors are ordered by their ends |
| C81-C83 | iterators of lists, groups and views between which the list changes (MIter; SpecIter: the last place of every item) | an invariant of the links of removed nodes over all histories; induction on loops |
| C84 | counts of verses of lists, unions and intersections | counting duplicate-free lists of verses; the union laws of C73 |
| C85, C86 | positions of syntax errors (MPlace; SpecPlace: how far expected tokens reach) | an automaton for the beginnings of the rules; search of longest matches |
| C87 | texts that are beginnings of lists of references | cutting the tokens of the continued text |
| C88 | pieces of a range merged and counted | the partition of C12 and the uniqueness of the canonical form (C20) |
| C89 | reading of texts joined with a separator | cutting tokens and trees at the separator; the transformer on shifted tokens |
| C90 | `split` into pieces of equal size | lengths of the lists of the partition of C12 |
| C91 | `contains`, `is_disjoint`, `union`, `intersection`, `whole_bible` | C73: equal values for equal sets |
| C92 | `BibleRange` on numbers as strings, with the limit of `int()` | MDigits2 against MNew, call by call of `int()` |
| C93 | the generator of `BibleRange.__iter__` (MIter2) | induction along the list of C10; `add` with MULTIBOOK does not use the global flags |
| C94 | methods of books and verses with a chapter number or a book, on any argument (MArgs) | case analysis on the class, then C42 and C43 |
| C95 | setters of `BibleData` that store shared objects (MTables) | invariant over histories: the objects of the books are those of the tables |
| C96 | `==` between objects of any class (MEq) | induction over nested sequences |
| C97 | indexes of any class (MEq) | C28 for ints, C05 for a verse as limit of `index`, case analysis otherwise |
| C98 | `<`, `<=`, `>`, `>=` between objects of any class (MCmp) | orders of the classes, induction over nested sequences |
| C99 | `equals` with an argument of any class (MEq2) | C31 on nodes, C96 for the items |
| C100 | hashes and sets of references (MHash) | induction over the elements, C96 for equality |
| C54-C57 | `BibleData` setters, book attributes, cached parser, transformer | invariant `coherent` over histories of actions |

Where the faithful model contradicts an English property, the property is kept as written, the
contradiction is proved as a theorem with suffix `_refuted` with a concrete witness of the default table,
and the strongest positive statement found is proved with suffix `_partial`.

A theorem without a suffix proves the English statement, or is an exact statement about part of it.  In
`MANIFEST.json` a property is "proved" only if the theorems cover its statement and quantifier; any
hypothesis that the English does not have makes it "partial", and the note says what is missing.

## 3. Files

| Files | Contents |
|-------|----------|
| Base, Books, Chars, Regex, Data, DefaultData | results, books, characters, regexes, tables |
| MVerse, MRange, MSeq, MList, MGroup, MNode, MStr, MParse, MWorld, MOps, MNew, MSelf, MText, MSort, MOrder, MOrder2, MStack, MDigits, MDigits2, MIter, MIter2, MArgs, MTables, MEq, MEq2, MCmp, MHash, MPlace | the model |
| Spec, SpecList, SpecGroup, SpecParse, SpecName, SpecMean, SpecShow, SpecNode, SpecNew, SpecRecall, SpecAlike, SpecOrder, SpecStack, SpecDigits, SpecIter, SpecPlace | specifications, independent of the algorithms |
| other P*.v | lemmas |
| Prop*.v | the theorems named in MANIFEST.json, each with an Example |
| TestCode.v | the assertions of the project's tests and README, evaluated on the model |
| Assumptions.v | `Print Assumptions` for all of them, property by property |

## 4. Trusted base

* the Coq 8.16.1 kernel, with `vm_compute`;
* axioms: none.  `Assumptions.v` prints "Closed under the global context" for the theorems of every property
  (`coqchk` also lists seven parameters of `Coq.ssr.ssrunder`, loaded with the standard library; no theorem uses them);
* the correspondence between the model and the Python text, documented by the file/line comments
  (the code was read, not run).  As a check, TestCode.v evaluates on the model all assertions of test_reference.py,
  test_util.py, test_parser.py and test_bibleref.py, and the examples of README.md, against the values written there
  by the authors.  All hold, but for one README example (section 5);
* Lark's contract (C35-C38, C46, C55-C57): the parser returns the reading of SpecParse, or raises if there is none;
* for C85 and C86, the place where Lark's Earley parser (dynamic lexer) raises: SpecPlace.error_at.  `UnexpectedEOF` has
  `pos_in_stream` -1;
* for C80 and C92, the limit of `int()` as documented for Python 3.11 and later (requires-python is 3.7, where there is none);
* the tables of Latin-1 characters in PropChars.v, listed with Python's `re` and `str`.

Simplified in the model:

* outside MOrder, MOrder2 and MSort, comparisons of verses and ranges use a total order in which a book without a place in
  `book_order` comes first; Python raises `TypeError`.  Exact are also the operators on books and verses (`book_lt`...,
  `verse_lt`...) and the two range constructors (`new_range`, `new_range_pos`).  MOrder has the range methods, `sort`,
  `merge` and `union_update`, MOrder2 the other list methods with exact comparisons; C75-C77 say when they are equal to the
  others.  C77 and C78 cover counts and texts for ranges within a book, whether or not it is in the order;
* except in MNew, the arguments have the documented classes.  In MNew, constructors, set operations and list methods take
  values of any class, but there are no floats, bools or subclasses; lists and tuples are one class; other iterables can be
  iterated repeatedly; objects of other classes are equal to none and have no order.  Wrong flags are left out;
* separators are single characters; characters are the code points 0 to 255;
* dictionaries are functions; outside MTables, tables are not changed in place after being assigned; `re.compile` and `Lark` do not fail;
* `int()` has a limit on the number of digits only in MDigits (reading of texts) and MDigits2 (string arguments of `BibleRange`); the
  memory has none, and the stack only in MStack (the merge sort of
  util.py is recursive).  There the calls of the sort are counted, built-in functions not.
* outside MIter and MIter2, a loop over a list or range is one step.  In MIter the state of a generator is the node at which it stands.

Not modelled: messages of exceptions, pickling, threads, the texts of nodes
(util.py 69-74).

## 5. Where the code disagrees with the properties

* `subtract` and the difference of verses ignore parts of the flags (C05-C07, C41); an explicit NONE counts as no argument (C41).
* First verses of units need the global flags (C09, C42, C43).
* Iteration ignores VERSE_0 unless global (C10); `split` with sizes below 1 does not end or fails (C13).
* Adjacency stops at books without MULTIBOOK and passes over verse 0s (C15).
* The pieces of a range that begins with a verse 0 do not merge to the range, nor do their counts add up, without ALLOW_VERSE_0 (C88).
* Union and intersection raise across books (C16, C17, C45); difference raises at the ends of books (C18, C19).
* `a - a` and `a ^ a` on lists give `a` (C23, C24); `list.range()` can be too small (C26).
* GroupedList: indices below -len (C28), `insert_group_at` on the head of a group (C29), `extend(self)` (C32),
  views after `clear()` (C44); in-place operators return None (C33).
* Texts: nospace "SongofSongs", the empty list, other flags, forced starts at a verse 0 (C35, C36); the list printer never
  resets `force_dual_ref` (C52); a range printer stops after the separator for a book that begins with an unknown verse 0
  (C49); separators of white space are stripped (C50);
  `str` of a range passes its flags on only for the end, that of a list not for forced verses: with global VERSE_0 and the
  argument MULTIBOOK, Psalms 3:1-8 prints as "Psalms 3:1" (C72).
* The transformer keeps book and chapter of earlier parses, also of failed ones and of books dropped since (C37).
* Verse and range constructors raise InvalidReferenceError without a position (C46).
* A number of more than 4300 digits (Python's limit for `int()`) raises ValueError instead of BibleRefParsingError, and a
  legal one with leading zeros is not accepted (C46, C80).
* An iterator whose item was removed goes on with the item that followed it at that time, even if that was removed since
  (C81); a loop over `groups` ends early when the body removes the first item of the current group (C83).
* With flags that differ from the global flags about verse 0s, the counts of a union and an intersection do not add up to the
  counts of the two lists, since `verse_count` goes by the global flags (C84).
* The positions of the error for an unfinished text such as "Gen 1:" are -1 and 0, outside the text; the piece of the text
  shown in the message is empty (C86).
* A book without a table: TypeError (C01).  A repeated book in `book_order`: KeyError after a partial change (C54).
* A list is left sorted and partly merged, or partly subtracted, when `merge`, `union_update` or `difference_update`
  raises (C60); `l |= l` does not end (C61); `l -= l` keeps all verses (C70).
* A comparison that raises during `sort` (also in `merge` and `union_update`) leaves a list whose links are broken: it shows
  fewer items than it counts, and its groups cannot be read (C75); one in `difference_update` leaves it partly subtracted
  (C77).
* Sorting nests a call for every item that it merges: about 1000 to 2000 items exceed Python's usual limit, and `sort`,
  `merge`, `union_update` and `contains` raise RecursionError; the first two break the links as above (C79).
* A text or constructor that names a book outside `book_order` twice ("Exod 1:1-2") is rejected, though its parts are
  accepted (C78).
* Wrong arguments of `BibleRange` raise InvalidReferenceError, TypeError or AttributeError instead of ValueError (C63);
  numbers given as strings are compared as texts (C64); `BibleRange(start=3, end=4)` is accepted with MULTIBOOK (C65).
* `BibleRangeList.is_disjoint` and `contains` do not test the class of their argument (C67); `extend` and `append_group`
  keep the items before a wrong one (C68).
* `BibleVerse.max_verse_num()` raises TypeError, though its documentation makes the chapter optional; `chap_range(None)` of a
  book is the whole book; `is_first_in_book(v)` of a verse tests its chapter (C94).
* Entries put into `max_verses` or `verse_0s` do not count until the table is assigned again; every change inside the list
  `book_order` makes `next` and `prev` wrong (C95).
* A `BibleRangeList` compared by `==` with None, an int, a verse or a book raises TypeError (C96); `insert_group_at()` raises
  TypeError in spite of its default, and `del l[None]` deletes the last item (C97).
* `l.index(x, 0, limit)` with a range or list of ranges as limit raises ValueError, the answer for "not found" (C97).
* After a list of books with a repetition was assigned two books may have one position: neither is less (C98).
* `equals(x)` raises TypeError for `x` without a length, and with `compare_groups=False` if an item of `x` is a `BibleRangeList` (C99).
* A range minus a list raises AttributeError or TypeError (C47).
* README.md 65 and `__init__.py` 60 show the text of a split with `regroup=False`; the default is True (TestCode.v).
