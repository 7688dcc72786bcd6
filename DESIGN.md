# Formal model of oelint-parser (Rocq)

Model and proofs are in `rocq/theories` (logical name `Verif`).  The model is
a shallow embedding of `/repo/oelint_parser`, function by function; every
definition of the model cites the file and lines it models.  Nothing of /repo
is executed.

## Layers

| File | Models |
|------|--------|
| `PyStr.v` | Python `str` as list of code points and the `str` methods used |
| `Regex.v`, `UniTable.v` | backtracking regular expression matching (`regex` module): `match`, `search`, `sub`, `split`, `finditer` (rpl_regex.py), character classes |
| `PyPath.v` | `os.path` functions, the file system as a record of functions |
| `Res.v` | results: a value, a Python exception, or an exhausted loop bound |
| `Patterns.v` | every regular expression of the code, transcribed as syntax tree |
| `Inline.v` | inlinerep.py |
| `Const.v` | constants.py |
| `Item.v` | cls_item.py |
| `Lines.v` | parser.py:68-232 (chunking and inline preprocessing) |
| `Stash.v` | parser.py:235-470 and cls_stash.py without caches |
| `Cache.v` | the `functools.cache` tables of cls_stash.py and _clear_cached |
| `CacheHeap.v` | the same tables holding references to list objects, with callers that write into the lists they got |
| `ConstHeap.v` | AddConstants of constants.py with lists and dictionaries as objects at addresses |
| `Repr.v` | the text of an item (`__repr__`) and the text the fingerprint digests |
| `Timed.v` | AddFile once more with the time limits of RegexRpl: an arbitrary clock says which searches give up |
| `Memo.v` | the tables of FindLocalOrLayer and GetLayerRoot while the file system changes |
| `Setters.v` | the setters of items, used between the calls of `Cache.v` |
| `Default.v` | the literal database data/const-default.json, used where a theorem speaks of the constants that come with the package; `shipped_names` (Props_Mirror.v) shows that it has the shape that C64, C96, C99 and C131 ask for |
| `Shared.v` | several stashes that share one database of constants (CONSTANTS) |
| `Reconst.v` | AddConstants, RemoveConstants, OverrideConstants, used between the calls of `Cache.v` |
| `StashList.v` | the class StashList of cls_stash.py without the methods that only pass on to the inner list |
| `Spec_*.v` | the small vocabularies in which the properties are stated, independent of the model's helpers |
| `*Facts.v`, `Proofs_*.v`, `ExpandText.v` | lemmas and proofs |
| `Demo.v` | a small file system used by the examples |
| `Props_*.v` | the property theorems, each with `Print Assumptions` and a concrete case |

Conventions: exceptions are values; loops that Python may run forever carry a
bound, and termination is then a theorem (or a refutation) about the bound.
Python sets are lists up to an arbitrary iteration order given by an oracle, so
theorems hold for every hash seed.  Item identity is a number.

## How each property is modelled and proved

* C01-C04, C07, C08, C61: `prepare_lines`/`get_items`; invariants of the chunk loop by induction over the lines, relational induction for C08.
* C05: nested recursion on (number of `$`, length); the bound is never exhausted; exit condition.
* C06, C14: the iterate loop as function of the remaining lines; equivalence for the exception; induction on the body lines. For a function with inline code, its head is shown to have no part in the code and the texts around the blocks to stay (C16), so that the pattern for functions matches the evaluated text.
* C09-C13: matching lemmas for the regular expression engine, ordered classification.
* C15, C16: symbolic execution of the engine with lemmas on lazy/greedy stars.
* C17, C65: induction on blocks.
* C18-C22, C63, C67: direct induction.
* C23-C27, C73, C74: `os.path` lemmas, induction on the path.
* C28-C32, C34, C60, C62: membership, sorting and permutation of query results over all reachable states (`ReachFacts.reach`).
* C33: machine with the `functools.cache` tables, simulated by the machine without them for the calls in `served`; refuted for GetBBClasses.
* C35-C38, C41, C57, C64, C68-C70: invariants over histories of API calls.
* C39, C40: line arithmetic and termination of the recursive AddFile.
* C42-C45, C78: expansion with a termination measure on unseen names; ranked big-step specification `expands`.
* C46-C49, C75-C77: fold specification `assigned` of the operators over the history of a variable.
* C50-C52, C58, C66: set reasoning on query results, splitting lemmas.
* C53-C55, C71, C72: nested induction on dictionaries.
* C56: heap model of the dictionaries; footprints and framing, refinement of the merge of values; refuted for new paths.
* C59: the list class of query results; insert, remove and item assignment for all lists, extend, append and `+=` refuted.
* C79: splitting lemmas.
* C80: membership and sorting of the directory listings.
* C81, C82: matching lemmas for the built-in names and for the call of read_file.
* C83: a relation between lines and statements, shown total, functional and equal to the chunk loop.
* C84-C86: parts of a function header by matching lemmas; the body from the text of the item; refuted where braces or a word prefix mislead the expressions.
* C87-C91: methods of items as calls (Access.v). Words by the splitting lemma of C18, versions by following the scanner over a grammar of lists; lines from the chunk an item was made of (ChunkFacts.v); overrides from the parts of the name; links from the query lemmas. Refuted where the code falls short.
* C92-C95: loading of files (Spec_Load.v, Proofs_Load.v). C93 is an invariant over AddFile with the set of files being parsed as a parameter; C92 and C95 an invariant that every new item names what the lookup gives under unchanged ignore lists; C94 from the list of classes the parser makes (ClassFacts.v).
* C92 with references (Proofs_Named.v): the invariant of C92 once more, with the facts that no item assigns the names in question and that the base set stays; together with the meaning of expansion (C43-C45) the name is what it expands to.
* C96: exceptions tracked through the functions of AddFile together with the files they come from (fine and good in Proofs_Include.v); patterns of names without special characters always compile (Proofs_Total.v).
* C97: the tables hold references to list objects (CacheHeap.v); a simulation shows that they stand for the tables of Cache.v as long as nobody writes into lists that the queries use themselves, and that callers never get these (Proofs_Own.v). Missing: the lists of the five methods named in the refutation.
* C116: induction over the events; the table holds what the bodies gave at the first call with each key. Missing (false): that the answer is the one for the present files.
* C117: the machine of C33 with assignments to items between the calls; the entries of the attribute table that may be out of date are left out of the invariant (`keep`), and calls in `kept` never meet them. Missing (false): queries that compare an attribute which was compared before and changed since.
* C118: from the unique cut into statements of C83. Missing (false): lines with an empty pair of parentheses in front of a brace.
* C119: the values of C46 for an unknown file, which is that of a variable with the least line. Missing (false): stashes with several files.
* C120: by cases on the setter, over the list of items of the stash.
* C121, C122: induction over the meaning of a text (`expands` of C45): a result consists of characters and references that stay; definitions without spare names mean the same when these are hidden. Missing (false): several dollar signs in a row or one at the end, and definitions that refer to spare names.
* C123 (and C39 for any number of includes): induction over the statements of a file, the stash growing by the items of the added files; with C46 for the values. Missing (false): added files that add files themselves.
* C124: Lists.v models the lists a caller holds as objects with data; `list_step` is one call of GetItemsFor, StashList.reduce or Stash.Reduce. Proved by an invariant over any sequence of calls: each object holds the items that are selected by all the queries its content went through. C125: the two queries of the README over reachable stashes, by the exactness of Reduce (C28, C30) and what stripping takes off.
* C126 (Proofs_Causes.v): an invariant over AddFile, that every link is a path of steps each of which has a cause; while a file is parsed, its links are justified by the items it is going to add. Finalize only joins links (C41_sound). The patterns made from names are read back into `like`.
* C62: `C62_apart` replaces the conditions on the map of links by conditions on file names (`Spec_Apart.foreign`), by a relation that is carried through AddFile and lists the files read, the items added and what may have changed for f (`Proofs_Apart.touch`).
* C66 (patterns): `Spec_Pattern` writes patterns as rows of signs with a number of times and says independently of the matcher which names agree; `Proofs_Pattern` shows that the pattern compiler reads such a text as that row and that matching it is agreeing (soundness and completeness of the matcher from `ReFacts`).
* C127: `C10` speaks about the text of an item on one line; `Proofs_Backslash` computes that text from Raw, with `disguised` as the specification of what happens to backslashes; the witness of the refutation is a pattern with a quoted dot.
* C128: the origin of items (C10) gives the name of the file; which bbappends a query can show is C126.
* C37 in every stash: an invariant (`Proofs_After.inv`) over all lines, kept by AddFile by induction on the depth of includes (nested files are read with the line of the statement as offset, which is not negative: `chunks_clip`), by Remove and by Finalize.
* C129: the meaning `expands` of C45 is closed under concatenation (`expands_app`); `rewords` is the relation of C18 with every word replaced.
* C130: the answers of every query but IsImage do not depend on the constants; a query sees the same with the stale entries of the table of IsImage dropped (`query_drop`), so the invariant of C33 is kept for the tables without them. GetScrComponents, GetValidPackageNames, GetValidNamedResources and GetPackagesDynamic, which read constants and have tables too, are not among the calls.
* C131: a simulation between the run of AddFile with one database and with another (`Section Sim` of Proofs_Shared.v, for any relation of databases that keeps the values read and survives added distros and machines), instantiated with equality at the four places; the queries by rewriting with equal getters. `C131_each` shows by a witness for each of the four places that AddFile does read it. The places must not lie below a leaf, where the getters raise (C72) while the model takes the value as missing. GetScrComponents and the like without their caches.
* C132: the loop over the mirrors (Stash.v) against a replacement in one pass from left to right (`stands`), by induction over the mirrors: replacing one and then the others is replacing all of them at once, because what a mirror stands for has a character that no name has on the way in and on the way out (`stands_compose`). The mirrors of data/const-default.json (Default.v) are checked to be of that kind; the check is proved sound (`mirrors_okb_sound`).
* C133: the shape of what Finalize leaves (`finalize_shape`), the map of links only grows in every step of the loop (`link_all_grown`, also when a step raises), then C28 on both states.
* C134: a text without `.utils.` keeps this through every step of the inline loop (what replaces a block begins and ends with characters that the word lacks), so both settings evaluate every block alike and give the same chunks; then a simulation of AddFile and Finalize for stashes that differ in the switch.
* C135, C136: the three operations are instances of one merge (ConstFacts.v); its outcome for each key, and that it keeps the keys and their order, give equality of the databases by induction over the given dictionary.
* C137: Raw and the blocks are a function of RealRaw and the inline setting; the class and its fields are determined by the first pattern that matches, by induction over the list of patterns, where only an ignored include goes on to the next pattern.
* C138: by induction over the calls a list is the old one followed by what was given, or the old one without it; permutations of the calls permute what was given.
* C139: the statements of a text are unique (C83), so those of the longer text are the ones in front and then those of the rest; the rest follows from C137 and C02.
* C140: both names are split at their delimiter (C19, C89), which gives the parts they were made of; a part is told to be an override by its first character. Whether the statements do the same is a case distinction over what a statement does (C46).
* C141: a simulation of ExpandTerm in two stashes, by induction over the nesting of definitions and of read_file arguments (`Proofs_Local.expand_sim`); that both have enough fuel is C42, what a name stands for is C45. `matters` over-approximates the names in calls of getVar. `C141_values` joins this with C46.
* C98: `ExpandVar` on appended inline code; false, with the part for assignments that act at once proved as `C77_code_partial`.
* C99: several stashes with a set of tables each, where the calls that clear tables clear all of them (Many.v); a call that is served keeps the invariant of C33 whatever the other stashes do. Missing: what C33 misses. `C99_shared_partial` drops the simplification of Many.v that every stash has constants of its own (Shared.v): AddFile changes distros and machines only (C64), and no call reads these (`sim_add`, `call_alike`), so both models give the same answers step by step. Changes of the constants by the caller are the subject of C130.
* C100: statements as data (assignments, flags, exports, tasks, functions, def blocks, inherit, INHERIT, include, unset, pylib, fragments, comments), how they are written, and what is to be read (Spec_Recipe.v, without parser and patterns); shows that the groups of lines found by the parser are the statements, and that the patterns give their parts.
* C101: composition of C100, C03, C04, C45 and C46: the history of a variable and the first definitions are read off the statements (Proofs_Values.v).
* C102: the tables of the methods above those of C33 (Upper.v), simulated by the calls without tables; refuted for the two methods that are not cleared.
* C103: the inherited methods of the list class (StashList.v); indexing for all lists, the others refuted.
* C104: on top of C100; the parts of each kind of statement are listed in Spec_Recipe.v (`parts`), the words are those of the specification of C18.
* C105: on top of C100 and C28; the attributes each kind of statement shows are listed in Spec_Recipe.v (`shows`, `class_of`). The query result is compared with the statements by `picked`, so order and multiplicity are covered.
* C106: C100, C104, C105 and C101 on pairs of the lines in the file and the statement with the results of the inline code (`coded`, Spec_Recipe.v); what inline code evaluates to is the specification of C16, C17 and C65 (Spec_Inline.v).
* C107: C106 for two files joined: the lines of the items (C39), the links (C37, C38) and the order of the expansion (C33) give the list of both files; proved for one include or inherit of one file, refuted for two includes, for a bbappend after an include and for one inherit of two classes. `C107_several_partial` says what one statement with any number of files gives: all links are direct (`Proofs_Several.direct_links`) and every file read is linked (`Proofs_Apart.okF_add_file`), the lines are those of C39.
* C108: C106 for recipe and bbappend joined over the links (C37) and the line numbers that AddFile gives the items of the bbappend, in both orders of adding.
* C109: the getters as calls of GetByPath (Const.v); the table of README.md is the specification (`documented`).
* C110: os.path.abspath is modelled on components (PyPath.v); the specification walks from directory to directory (`walk`, `lies`, Spec_Where.v).
* C111: several bbappends. AddFile is run on the recipe and any number of bbappends, in any order (`added` in Spec_Appends.v). Invariant over the calls: the items of every file are those of its statements, in order of Line and InFileLine, and once the recipe is there its items have smaller lines and the bbappends are linked. Merging of the sorted lists gives the order that GetItemsFor shows. False in full (`C111_refuted`): lines of two bbappends overlap.
## Theorems

| Property | Status | Theorems | Remark |
|---|---|---|---|
| C01 Parsing is lossless | proved | `C01_lossless` |  |
| C02 InFileLine is the physical line number | proved | `C02_infileline` |  |
| C03 Items come back in file order | proved | `C03_order` |  |
| C04 Every item carries its file and some text | proved | `C04_origin` |  |
| C05 Inline preprocessing terminates and leaves no inline marker | proved | `C05_terminates`, `C05_no_marker` |  |
| C06 AddFile never leaks StopIteration | partial | `C06_stop_iff`, `C06_no_stop`, `C06_waiting`, `C06_refuted` | The title is false (witness in C06_refuted); the exact characterisation is proved, C06_waiting in terms of the statements of the file only. |
| C07 New override syntax is sticky within a file | proved | `C07_sticky` |  |
| C08 Configuration does not move text | proved | `C08_config` |  |
| C09 Comments are Comments | proved | `C09_comments` | both directions, for every item of every stash filled by the parser |
| C10 Assignments become Variables with exact parts | proved | `C10_assignment`, `C10_name` | names that are statement words excluded; the raw name, operator and value are those of the item made by the constructor; how the name is split into parts is C19/C20 |
| C11 Flag assignments become FlagAssignment with exact parts | proved | `C11_flags` |  |
| C12 Statements are recognised for all arguments | proved | `C12_inherit`, `C12_inherit_all`, `C12_functions`, `C12_deltask`, `C12_addtask`, `C12_export`, `C12_export_name`, `C12_addpylib`, `C12_addfragments`, `C12_include_all`, `C12_include`, `C12_def` | canonical spelling as defined in Spec_Parse.v; further statements (include, include_all, addfragments, def) beyond the ones named |
| C13 unset names the unset variable | partial | `C13_refuted`, `C13_first`, `C13_flag`, `C13_short_partial` | false of the code: only the first character is read; exact behaviour proved for all names and flags, the claim itself for names of one character |
| C14 A function ends at its closing brace | proved | `C14_cover`, `C14_function`, `C14_plain`, `C14_code_refuted` | C14_cover gives the lines of the item for every body; C14_function: it is a Function, and unless the name begins with python or fakeroot (C86) its parts are those written, with the results of inline code in the body. If results form further code, it is false: C14_code_refuted. |
| C15 bb.utils.contains takes the chosen branch | proved | `C15_contains` | Raw of an item; arguments without parentheses, commas and line feeds; the block may stand anywhere between texts without other blocks. |
| C16 The other inline helpers take the chosen branch | proved | `C16_helpers`, `C16_text` | C16_helpers: the evaluation of one block for every helper; C16_text: the text of an item with any number of blocks of any kind. |
| C17 Unknown inline code is restored | proved | `C17_restored`, `C17_expand`, `C17_twice_refuted` | One-line values; no block twice (with equal blocks it is false: C17_twice_refuted). |
| C18 safe_linesplit splits at white space only | proved | `C18_words`, `C18_lossless` |  |
| C19 Override splitting loses nothing | proved | `C19_split` |  |
| C20 VarNameComplete round trips | proved | `C20_complete`, `C20_refuted` | Round trip proved exactly under the stated proviso; the unconditional round trip is refuted by a witness. |
| C21 Operation predicates agree | proved | `C21_immediate`, `C21_append`, `C21_operator`, `C21_nomod` |  |
| C22 VarValueStripped only strips | proved | `C22_stripped` |  |
| C23 Recipe name and version from file names | proved | `C23_version`, `C23_plain`, `C23_hidden` | Any directory or none; the name may contain dots, the version underscores. Dots in front of the name do not begin an extension. |
| C24 Base recipe name drops the class affixes | proved | `C24_base`, `C24_all` | Exact description of the result; C24_all shows that every name has the form C24_base speaks about. The name has no newline. |
| C25 GetLayerRoot is the nearest layer | proved | `C25_nearest`, `C25_unique` | Exact for every file system; the path is absolute and normalised. |
| C26 FindLocalOrLayer looks locally first | proved | `C26_find` | Exact for every file system; the local directory is absolute and normalised. |
| C27 Layer search terminates | proved | `C27_ends`, `C27_fuel`, `C27_forever`, `C27_refuted`, `C27_add_refuted` | Ends for every path without two leading slashes, endless otherwise (also when adding such a file). |
| C28 GetItemsFor returns exactly the matching items | proved | `C28_exact`, `C28_reduce` | All states reachable by the API (steps), any query, any set order. |
| C29 Query results do not depend on hashing except for ties | proved | `C29_hash_order`, `C29_refuted` | Same items for any two set orders, same list if lines differ; C29_refuted shows that ties do depend on the order. |
| C30 Filters compose | proved | `C30_compose` | Membership of the composition, commutation up to order of ties, idempotence. |
| C31 An attribute value filter filters | partial | `C31_value`, `C31_refuted` | Holds for values that are not falsy; refuted for falsy ones (no filter at all). |
| C32 File listings are exact | proved | `C32_recipes`, `C32_classes`, `C32_conf`, `C32_lone` |  |
| C33 Caching is invisible | partial | `C33_cached_partial`, `C33_refuted` | false for GetBBClasses, for Finalize after a query and for updates that raise (C33_refuted); proved otherwise for the tables in Cache.v; for the other decorated methods see C102 |
| C34 Append and Remove are exact and Remove is all-or-nothing | partial | `C34_append`, `C34_remove`, `C34_remove_iff`, `C34_refuted` | Append and successful Remove are exact; all-or-nothing is refuted. |
| C35 Finalize cannot fail | proved | `C35_finalize` | For histories of AddFile, Remove, Finalize, constant changes, and Append of items of parsed files (see C68 for other items). |
| C36 bbappends and bbclasses are added once | proved | `C36_once` | For every API history in between and every spelling with the same absolute path. |
| C37 bbappends come after their recipe | proved | `C37_recipe_first`, `C37_append_first`, `C37_always`, `C37_order`, `C37_case_always` | For bbappends that apply by name (same name or percent wildcard) with names free of pattern characters; for other names see C38 and C70. C37_always and C37_order hold in every stash filled by AddFile with offsets that are not negative, with any links, after Remove, Finalize and changes of the constants, and after calls that raised. |
| C38 Linking does not depend on load order | partial | `C38_both_orders_partial`, `C38_refuted` | Both orders link for names without pattern characters; in general false: loaded first, bar.bbappend is linked to barbar.bb. |
| C39 Included items sort at the include | partial | `C39_between_partial`, `C39_before_partial`, `C39_refuted`, `C39_nested_refuted`, `C39_append_refuted` | Holds when one statement of the file adds files that add no further ones and no bbappend takes part. For any number of such statements the items of an included file lie before every statement behind the include, at a line given exactly (C39_before_partial). False for a second include (its items may lie before the include), for a file included by an included file and for includes of a bbappend (witnesses). |
| C40 Parsing terminates on cyclic inherits and includes | partial | `C40_ends`, `C40_refuted` | AddFile ends for every file system on which the .inc, .bb and .conf files that are pulled in can be numbered downwards; classes may inherit each other in any way. A file that requires itself is never done (witness, for every fuel). |
| C41 Finalize links transitively | partial | `C41_sound`, `C41_two_partial`, `C41_back_partial`, `C41_repeat_partial`, `C41_refuted`, `C41_class_refuted` | Only reached files are linked; up to two links, or all if links go to earlier files; n calls give 2^n links. False in general: three links, and a class inherited by two recipes. |
| C42 ExpandTerm terminates | proved | `C42_ends` | Termination of ExpandTerm for every stash and value; Python's recursion limit is not modelled. |
| C43 Text without references is unchanged | proved | `C43_plain` |  |
| C44 Unknown references are kept | proved | `C44_kept` |  |
| C45 Definitions take precedence | proved | `C45_expand`, `C45_exact`, `C45_refuted` | Holds for the first definition in the order of the query result; C45_refuted: with two definitions on the same line (for instance from two classes) the order, and so the value, depends on set iteration. |
| C46 ExpandVar applies operators in order | proved | `C46_assigned` |  |
| C47 append, prepend and remove are applied afterwards | proved | `C46_assigned`, `C47_refuted` | C46_assigned covers deferred operations; C47_refuted: for a variable without value a remove makes append and prepend come out in the wrong place. |
| C48 unset removes what was set before | proved | `C48_unset`, `C48_flag`, `C46_assigned` |  |
| C49 Whitespace around the operator does not matter | partial | `C49_ignored_partial`, `C49_refuted` | The claim is false: other spacing makes the assignment be ignored by ExpandVar. Proved: such a statement has no effect at all on the value. |
| C50 Package names contain the defaults | proved | `C50_packages`, `C50_ends` |  |
| C51 Named resources contain the recipe and every name option | proved | `C51_named`, `C58_options` |  |
| C52 IsImage and IsPackageGroup are exact | proved | `C52_image`, `C52_group` | For databases of the documented shape (lists of non-empty names) at images/known-classes and images/known-variables. |
| C53 Overriding constants sets exactly what is given | proved | `C53_path`, `C53_override`, `C53_fails` | Includes when it raises. The argument has unique keys, as every Python dict. |
| C54 Adding constants appends to lists | proved | `C54_add`, `C54_fails` | Also for strings (concatenated) and strings added to lists (character by character). |
| C55 Removing constants filters lists | partial | `C55_remove`, `C55_leaf`, `C55_ok`, `C55_refuted` | Lists and frame proved, and what becomes of every kind of value (C55_leaf); that other leaves keep their type is false: a string or dictionary becomes a list. |
| C56 Constants do not alias the caller's data | partial | `C56_call`, `C56_separate_partial`, `C56_refuted` | One call changes only objects of the database and equals the merge of values; sharing never arises while the dictionaries give no new path (any history of calls). With a new path the caller and the database share objects (C56_refuted). A dictionary changed while it is iterated is not modelled. |
| C57 Fingerprint is determined by what was parsed | proved | `C57_add`, `C57_other` | The hashed texts; SHA-1 itself is not modelled. e_repr (repr of an item) is any function of the item. |
| C58 Components of SRC_URI entries | partial | `C58_options`, `C58_source`, `C58_refuted` | Exact description of scheme, source and options; urlparse is an oracle. That values are complete is false: a value is cut at its second equals sign. |
| C59 StashList behaves like a list | partial | `C59_insert`, `C59_set`, `C59_remove`, `C59_remove_iff`, `C59_ends`, `C59_refuted` | insert, item assignment, remove and append of items and lists behave as on a list for all lists; += gives the elements in order but leaves a plain list; extend and append of a StashList do not work (C59_refuted). For slices, + and copy see C103. |
| C60 AddFile only adds | proved | `C60_only_adds` | Also if AddFile raises. |
| C61 Line offset shifts lines | proved | `C61_offset` |  |
| C62 Unrelated files do not disturb | proved | `C62_frame`, `C62_apart` | C62_apart speaks of file names only: none of the files the call may have read (the file itself and those that statements among the new items name) is shown for f, is a bbappend for f, or is a recipe that a bbappend shown for f is meant for. Which names fit is over-approximated for names with characters that are special in patterns. C62_frame holds for calls that raise, too. |
| C63 Function body lines | proved | `C63_lines`, `C63_stripped`, `C63_raw` |  |
| C64 Distro and machine names come from the layer | proved | `C64_names` | For databases of the documented shape at replacements/distros and replacements/machines. Names are added again for every file. |
| C65 Known inline blocks are restored | partial | `C65_known_partial`, `C65_refuted` | The text with evaluated blocks is the evaluated one, not the written one; beside an unknown block it is neither (C65_refuted). |
| C66 Dynamic packages match an entry | proved | `C66_dynamic`, `C66_text`, `C66_empty`, `C66_pattern`, `C66_unread` | Entries are regular expressions; C66_text and C66_pattern say what the common forms match (literal characters, quoted characters, dots, each with ?, *, + or their lazy forms, between ^ and $). |
| C67 FuncNameComplete is the written name | proved | `C67_funcname`, `C67_refuted` | Proved for pairwise different name parts; the unconditional claim is refuted by a witness. |
| C68 Finalize accepts appended items | partial | `C68_refuted`, `C35_finalize` | False: KeyError after appending an item of an unknown bbappend and then parsing its recipe. Holds for items of parsed files (C35). |
| C69 IncludedFrom after Finalize | partial | `C69_exact`, `C69_complete`, `C69_refuted` | Exact contents and completeness proved; not only including files: siblings are listed too. |
| C70 A bbappend with the recipe's name is linked | partial | `C70_refuted`, `C38_both_orders_partial` | False for names with pattern characters such as gtk+3_3.24; holds for names without. |
| C71 A failed update leaves the constants alone | partial | `C71_refuted`, `C53_fails`, `C54_fails` | False: earlier keys are already updated. When no exception can occur is characterised exactly. |
| C72 GetByPath always returns | partial | `C72_refuted`, `C53_path` | False for paths through a list or string (AttributeError); exact outcome in all cases in C53_path. |
| C73 The base recipe name carries no class affix | partial | `C73_prefix`, `C73_refuted` | True of the prefix, false of the suffixes (foo-native-cross). |
| C74 A file directly in a layer belongs to that layer | partial | `C74_deeper_partial`, `C74_refuted` | False for a file directly in the layer (the search starts one directory above the file's directory); proved for files in directories below the layer with no other layer in between. |
| C75 remove removes whole words | partial | `C75_words_partial`, `C75_refuted` | The claim is false: parts of words are removed. Proved for removals of one word when every word that contains the removed text is that text. |
| C76 The weak default is weaker than the default | partial | `C76_last_partial`, `C76_refuted` | The claim is false: ??= is treated like ?=. Proved for a weak default after all other statements. |
| C77 An assignment with inline code acts according to its operator | partial | `C77_code_partial`, `C77_refuted`, `C77_recipe_partial`, `C77_recipe_refuted` | The claim is false: inline code sets the value whatever the operator. Proved: it sets the value, which is right for = and :=; C77_recipe_partial and C77_recipe_refuted say the same from the text of the recipe. |
| C78 Expansion works part by part | proved | `C78_concat`, `C78_refuted` | C78_refuted shows that the restriction to non-cyclic definitions is needed. |
| C79 Stash.SafeLineSplit cuts at every blank | proved | `C79_split` |  |
| C80 GetFiles lists exactly the files beside the sources | proved | `C80_files` | glob itself is an arbitrary function of the pattern. |
| C81 Built-in values | proved | `C81_builtin` | Values without a dollar sign. |
| C82 read_file gives the text of the file | proved | `C82_read_file` | One call per value; two definitions of a name never share a line. |
| C83 The items of a file are its statements | proved | `C83_statements`, `C83_lines`, `C83_total`, `C83_unique` |  |
| C84 What a function item says | proved | `C84_parts` | for every item of every stash filled by the parser |
| C85 FuncBodyRaw is the body | partial | `C85_raw_partial`, `C85_refuted` | false for names with references and for bodies that end with a brace (C85_refuted); proved otherwise |
| C86 Function names that begin with python or fakeroot | partial | `C86_refuted`, `C84_parts` | false (C86_refuted); C84_parts is the part for other names |
| C87 get_items of a variable gives the words of its value | partial | `C87_words`, `C87_override`, `C87_versioned`, `C87_refuted` | proved for values in double quotes; false with blanks behind the closing quote and for single quotes (C87_refuted) |
| C88 IsMultiLine tells whether the assignment spans lines | partial | `C88_partial`, `C88_refuted` | proved for statements without inline code whose backslashes end the line; false otherwise (C88_refuted) |
| C89 Overrides of names are found | partial | `C89_variable`, `C89_function_partial`, `C89_function_refuted` | proved for variables, and for functions whose first override is append, prepend, remove, class-native, class-cross or class-target; false for other functions (C89_function_refuted) |
| C90 EXPORT_FUNCTIONS lists its functions | partial | `C90_exports_partial`, `C90_refuted` | proved for words separated by spaces; false for tabs and continued lines (C90_refuted) |
| C91 GetLinksForFile lists the linked files | partial | `C91_links_partial`, `C91_refuted` | one entry for each item of a linked file; so files are repeated or missing (C91_refuted) |
| C92 An inherit loads the classes it names, an include the file it names | partial | `C92_inherit`, `C92_include`, `C92_include_found`, `C92_inherit_found`, `C92_case_found`, `C92_include_named`, `C92_inherit_named`, `C92_tab_refuted`, `C92_reference_refuted` | Proved for every item that a call adds when the text has nothing to expand, or refers to names that no item assigns (they have the values of the base set, or the builtin ones such as PN and BPN); the words are separated by spaces, and the text is not on the ignore list. C92_include_found and C92_inherit_found spell out the search for files in absolute directories. Refuted for words separated by tabs and for references to variables that the same file assigns above the statement. |
| C93 Every file an item names is loaded | proved | `C93_named`, `C93_given`, `C93_error_refuted` | For all histories in which no AddFile raised and Remove was not used, with any cycle of inherits. After a call that raised it does not hold: a class that was being read counts as seen (C93_error_refuted). |
| C94 A missing file is reported | partial | `C94_never`, `C94_refuted`, `C94_empty_partial` | The parser never makes a MissingFile item, so the first half is refuted; the second half holds: FileIncluded is empty exactly if FindLocalOrLayer finds nothing. |
| C95 Ignored classes and includes are not loaded | partial | `C95_class_partial`, `C95_include`, `C95_refuted` | Proved for includes, and for an inherit whose whole text is on the list; refuted for an ignored class that is inherited beside another one, since the whole text is compared. |
| C96 AddFile raises only for three reasons, otherwise it returns | proved | `C96_raises`, `C96_completes` | RegexUnsupported stands for every pattern that Regex.v does not read, re.error among them. RecursionError and MemoryError are not modelled. |
| C97 Callers may change the lists they get | partial | `C97_owned_partial`, `C97_read_only`, `C97_refuted` | Proved for GetItemsFor, IsImage, IsPackageGroup and the updates with any writes, and for all methods without writes. Refuted for the five methods that return the cached list itself. |
| C98 ExpandVar shows inline code as written | partial | `C77_code_partial`, `C98_refuted` | The claim is false for append and prepend. Proved for assignments that act at once. |
| C99 Stashes do not disturb each other | partial | `C99_apart_partial`, `C99_shared_partial`, `C99_refuted`, `C99_distro_refuted` | Whatever other stashes do, also when they raise; C99_shared_partial with the one database of constants that all stashes share and extend, if it has the documented shape where distros and machines are kept. Missing: GetBBClasses, own updates that raise and Finalize after a query, as in C33. GetDistroEntry of an item changes when another stash reads a layer with further distros (C99_distro_refuted). |
| C100 A recipe of ordinary statements is read as written | proved | `C100_statements` | From the text of the file to the items; statements with inline code are not among those considered. Of the name of unset only the class is claimed if it is longer than one character (C13); an include that the constants say to ignore is an item of no class. |
| C101 The values of a recipe are those its assignments say | proved | `C101_values` | From the text of the file to the values; one file (statements that name other files find none), names without references, no inline code, unset of names of one character (C13). Removals from a variable without any value are excluded. |
| C102 Package names, files and named resources are never answered from an outdated table | partial | `C102_cached_partial`, `C102_refuted` | Proved with the restrictions of C33; for GetPackagesDynamic and IsDynamicPackage only if no update follows, since their tables are never cleared (C102_refuted). |
| C103 The results of queries can be indexed, sliced, added and copied like lists | partial | `C103_get_partial`, `C103_refuted` | Indexing works; every slice, +, * and copy raises TypeError (C103_refuted). |
| C104 get_items lists the parts of the statement | proved | `C104_parts` | For functions with a reference in the name or a brace at the end of the body see C85, for values of flags with quotes of their own C87, for unset of longer names C13. |
| C105 Attributes of an item are those its statement shows, and queries find them | proved | `C105_attributes`, `C105_queries`, `C106_position` | Origin, Line, InFileLine and IsFromClass in C106_position (recipes with and without inline code). Before, After, SubItems, FilePaths and InlineBlocks are lists, which no query value equals; FuncName and FuncNameComplete of functions: C67, C84. An include the constants say to ignore is an Item (C95), so queries for these two classes are left out when the recipe has includes. |
| C106 Recipes with inline code are read as with the results in place | proved | `C106_statements`, `C106_parts`, `C106_attributes`, `C106_position`, `C106_queries`, `C106_values` | For recipes made of the statements of Spec_Recipe.v (see C100), each line group being by itself one statement before and after the inline code is evaluated; Line for files that add no others; values by ExpandVar in a new stash, where values with code that is not evaluated are on one line. |
| C107 What an included file or inherited class says takes effect at its statement | partial | `C107_items_partial`, `C107_values_partial`, `C107_several_partial`, `C107_refuted`, `C107_append_refuted`, `C107_inherit_refuted` | Proved for one include or inherit that brings in one file that is not a bbappend and brings in no others; for one inherit with several classes their statements all lie at the statement, mixed by their lines in their own files (C107_several_partial), so that the class named first may win (C107_inherit_refuted). False for two includes (C107_refuted: the second one may take effect before the first) and together with a bbappend (C107_append_refuted: the include may win over the bbappend). |
| C108 A recipe and its bbappend read as one file, whichever is added first | proved | `C108_items`, `C108_values` | Recipe and bbappend of ordinary statements with inline code, no include or inherit in them (with those it is false, see C107_append_refuted). |
| C109 Getters of the constants give what the documentation says | proved | `C109_all`, `C109_getters`, `C109_base`, `C109_lists`, `C109_change` | All databases, also those of other shapes than documented. |
| C110 A file is where it lies, however its path is written | partial | `C110_lies`, `C110_same_partial`, `C110_place_partial`, `C110_apart_partial`, `C110_origin`, `C110_refuted` | Proved for paths that do not begin with exactly two slashes, and false for those (C110_refuted). Symbolic links are not modelled. The current directory is a normalised absolute path, as os.getcwd gives it. |
| C111 Several bbappends act one after the other, after their recipe | partial | `C111_items_partial`, `C111_values_partial`, `C111_refuted` | The items of the recipe come first and those of each bbappend keep their order, for any number of bbappends and any order of adding them (C111_items_partial); values accordingly if the lines of the assignments differ (C111_values_partial). False in full: the statements of two bbappends are mixed by their line numbers, so that the values are those of neither order (C111_refuted). |
| C112 The fingerprint identifies what was parsed | proved | `C112_identifies` | The digested text determines settings and items (SHA-1 itself and UTF-8 are not modelled); uniquely decodable texts of all values. |
| C113 The same files give the same fingerprint in every run | partial | `C113_same_partial`, `C113_refuted` | False: an inherit that finds several classes shows a set, whose order depends on the hash seed. Proved for items without such an inherit and without bbappends. |
| C114 Slow regular expressions lose no text | proved | `C114_lossless`, `C114_positions`, `C114_division`, `C114_handler`, `C114_in_time` | an arbitrary clock says which searches of the division into lines, the inline evaluators, the patterns and the linking of bbappends give up; what is done with a matching line is an arbitrary handler_ok function, which the handler of the model is |
| C115 The items do not depend on the speed of the machine | partial | `C115_refuted`, `C115_raises_refuted`, `C115_text_partial` | refuted: a search that gives up counts as no match; only the text of all items together is independent of the time |
| C116 A file lookup answers for the files that are there | partial | `C116_refuted`, `C116_first_partial`, `C116_same_partial` | refuted: the tables are never cleared; the answer is that of the first call with the same stash and arguments, hence right as long as the files stay as they are |
| C117 Queries see what was assigned to items | partial | `C117_refuted`, `C117_changed_partial` | refuted for attributes compared before the assignment; every other query, and after any update of the stash every query, answers for the items as they are |
| C118 A statement that is complete on its line ends there | partial | `C118_refuted`, `C118_swallow`, `C118_line_partial` | refuted for lines with an empty pair of parentheses in front of a brace, which take all that follows (C118_swallow); every other line that is no comment, definition or continued is an item of its own |
| C119 ExpandVar without a file name | partial | `C119_refuted`, `C119_values`, `C119_one_partial` | False for several files: the variables of all files are mixed by line, and the order of a set decides which file gives PN, PV and BPN (C119_refuted). Proved: what the result is in every case (C119_values), and that the file name may be left out if all that is found is from one file. |
| C120 An assignment to an item changes that item and that attribute only | proved | `C120_set` | Over the items of a stash as values with an identity; the setters mutate the object that the stash holds. |
| C121 Expansion is complete | partial | `C121_again_partial`, `C121_refuted` | Proved for texts where every dollar sign belongs to a reference or stands before another character than a brace or dollar sign, with definitions that are not cyclic and no inline code; false for a dollar sign in front of a value that begins with a brace (C121_refuted). |
| C122 Spare names stay unexpanded | partial | `C122_spare_partial`, `C122_refuted` | Proved if no definition refers to a spare name; false otherwise, since spare is not handed on to the expansion of definitions (C122_refuted). |
| C123 The recipe's last assignment has the last word | partial | `C123_last_partial`, `C123_refuted` | Proved if the added files add no further ones and no bbappend takes part, for any number of includes and inherits; false if an included file includes a file itself (C123_refuted). |
| C124 A list shows what passed every filter applied to it | proved | `C124_lists` | For all reachable stashes and all sequences of calls on any number of lists. |
| C125 Variables are found by their value as in the README | partial | `C125_value_partial`, `C125_refuted` | The filter of the README on VarValue finds only values written without quotes, so it misses the assignment that the README shows; and VarValueStripped misses values in single quotes (refuted). Proved: VarValueStripped finds every assignment of the value in double quotes, and nothing but assignments of the value within blanks and double quotes. |
| C126 A query for a file shows nothing foreign | partial | `C126_links`, `C126_partial`, `C126_refuted` | Proved with the rule the code has for names: the name of the recipe fits that of the bbappend as a whole, or, if the bbappend was added first, its begin does. Refuted for that second case, where bitbake would not apply the bbappend. |
| C127 A backslash in the middle of a line is part of the value | partial | `C127_shown_partial`, `C127_kept_partial`, `C127_refuted` | False: every backslash becomes an escape character, also in the middle of a line (parser.py:186); the part proved says exactly which value is shown for assignments on one line. |
| C128 IsFromAppend tells what a bbappend added | partial | `C128_file`, `C128_shown_partial`, `C128_refuted`, `C128_case` | False in full: an item that a recipe only has because its bbappend requires a file says that it is not from a bbappend. Proved: IsFromAppend tells exactly whether the file of the item is a bbappend, and every such item that a query for a file shows is of the file itself or of a bbappend for it or for a file that comes with it (if no statement names a bbappend). |
| C129 The words of a value can be expanded one by one | partial | `C129_each_partial`, `C129_case`, `C129_refuted` | False with inline code: the word that is inline code becomes the whole value of the variable (C129_refuted). Proved for values in double quotes without inline code, with the texts of C121 (every dollar sign belongs to a reference or stands before another character than a brace or dollar sign, definitions not cyclic). |
| C130 Changed constants count at once | partial | `C130_constants_partial`, `C130_refuted` | The claim is false for IsImage asked again for a file whose answer the new constants change; proved for all other histories, with the restrictions of C33. |
| C131 Constants matter only where they are meant to | proved | `C131_add`, `C131_values`, `C131_uri`, `C131_image`, `C131_each` | for databases whose places read are not below a leaf; without the caches of GetScrComponents and the like (see C130 for IsImage) |
| C132 Known mirrors are replaced at once, whatever their order | proved | `C132_stands`, `C132_order`, `C132_clean`, `C132_shipped`, `C132_nested_refuted` | for mirrors of the kind stated, those of the package among them; C132_nested_refuted shows why values with other mirrors are left out |
| C133 Finalize only adds | proved | `C133_items`, `C133_links`, `C133_queries`, `C133_files` | without the caches (see C33); the order of items on the same line is that of a set (C29) |
| C134 negative_inline matters only for the helpers the parser knows | proved | `C134_add`, `C134_history`, `C134_answers` | no_helpers is a condition on the raw text of every file that can be read. |
| C135 RemoveConstants takes back what AddConstants added | partial | `C135_back_partial`, `C135_left`, `C135_refuted` | Proved for entries that are new in existing lists, with equality of the whole database; false for entries that were there before, which are lost (C135_refuted). What is left in general is said by C135_left. |
| C136 Overriding or removing constants again changes nothing | proved | `C136_override`, `C136_remove` | Dictionaries have every key once, as in Python. |
| C137 A statement is read the same wherever it stands | proved | `C137_text`, `C137_same` | All classes of items; the split of function names, found files and ignored includes are left out as the statement says. |
| C138 The order in which constants are added or removed does not matter for what is known | proved | `C138_add`, `C138_remove`, `C138_mixed` | For the lists of the database; the calls succeed, which may itself depend on the order if a new path gets values of different kinds (see C54_fails). |
| C139 Statements in front only move what follows, statements behind change nothing | proved | `C139_front`, `C139_behind` | With the exceptions of C137 for function names, found files and ignored includes. |
| C140 A statement converted to the new override syntax says the same | partial | `C140_variable_partial`, `C140_function_partial`, `C140_history_partial`, `C140_refuted` | False in general: of a name in lower case with an underscore (systemd_unitdir_append) the old syntax takes only the first part as the name. Proved for variables whose name parts do not begin like overrides, and for functions whose override is told by a list or by the known functions. Values: the statements do the same if all overrides are operations; with other overrides the names in the result of ExpandVar are written with the delimiter. |
| C141 An expansion depends only on the variables it refers to | proved | `C141_agree`, `C141_items`, `C141_values` | Also for cyclic definitions, inline code and read_file; of a text that calls getVar every name that occurs in it counts as referred to. The two stashes may belong to runs with different orders of sets. C141_values is for plain names and, like C46, leaves out a remove on a variable that has no value. |

## Findings

Refuted properties; each has a witness theorem.

| Property | What happens |
|----------|--------------|
| C06 | A file ending in a continuation line or an open function header makes AddFile raise StopIteration |
| C20 | VarNameComplete moves name parts that follow an override part to the front |
| C27 | A path with two leading slashes outside a layer makes the layer search loop forever, also in AddFile |
| C29, C45 | Items with equal Line come in set order; ExpandTerm then depends on the hash seed |
| C31 | A falsy attributeValue (for instance the empty string) means no filter |
| C34 | Remove with an unknown item in the middle removes the ones before it |
| C38, C70 | bbappend names are used as regular expressions and unanchored: the link depends on load order, and fails for names with `+` |
| C41, C69 | Finalize closes links two levels per call only; IncludedFrom also lists siblings |
| C47 | A remove on a variable without value makes it defined and changes where a later prepend goes |
| C49 | ExpandVar ignores assignments whose operator is not surrounded by exactly one blank |
| C55 | RemoveConstants turns a string or dictionary leaf into a list |
| C67 | FuncNameComplete removes every occurrence of an override part |
| C68 | Finalize raises KeyError after appending an item of an unknown bbappend |
| C71 | A failed constants update is left half done |
| C72 | GetByPath raises AttributeError for a path through a leaf |
| C73 | foo-native-cross keeps `-native` |
| C74 | A file directly in a layer root does not find its own layer |
| C75 | remove works on substrings, not on words |
| C76 | `??=` is treated like `?=` |
| C77 | An assignment with inline code sets the value whatever its operator is |
| C78 | With variables defined through each other the expansion of a text depends on its neighbours |
| C14 | parser.py:175-182: the evaluated text is searched for code again, so a result that ends up as `${@` together with the text in front of it takes the closing brace of the function with it (`C14_code_refuted`). |
| C58 | An option value in SRC_URI is cut at its second equals sign |
| C66 | A blank at the end of PACKAGES_DYNAMIC makes every name a dynamic package |
| C39 | parser.py:285, 347, 374, 438: the Line of a statement includes the lines of files added before, but the offset passed to AddFile does not. Items of a second include lie before their include statement. |
| C39 | parser.py:350, 377, 441: the offset added for an included file is its largest InFileLine, so files it includes itself are not counted and overlap the following statements. |
| C39 | cls_stash.py:203-205: a bbappend's own items are moved behind the recipe, the items of files it includes are not. |
| C40 | cls_stash.py:172: a .inc, .bb or .conf file that requires itself (or a cycle of them) is read again and again; AddFile never ends (RecursionError in practice). |
| C13 | const_regex: the name group of `unset` is lazy and nothing anchors its end, so `unset ABC` names the variable `A`, and `unset ABC[f]` the variable `A` with the flag `BC[f`. |
| C12 | `addtask a before do_after_x`: the clause texts are split at the words before and after even inside a task name. |
| C12 | `require foo+bar.inc` is cut at characters outside letters, digits, `_-./${}`: the file name read is `foo`. |
| C12 | `def Foo(d):` with an upper case letter in the name is not a PythonBlock. |
| C10 | Assignments to variables named like a statement (`export = "1"`, `require .= "x"`) are read as that statement. |
| C17 | cls_stash.py:_ReverseInlineBlock: the same unknown inline block twice in a value is recorded once, so the second marker `!!!inlineblock!!!` stays in the expansion. |
| C65 | cls_stash.py:_ReverseInlineBlock: a value with both an evaluated and an unknown inline block is restored wrongly: `b ${@bb.utils.contains('M', 'f', 'b', 'n', d)} ${@u()}` gives `${@bb.utils.contains(…)} b ${@u()}`. |
| C16 | inlinerep.py:d.getVar strips quotes only at the ends of the argument list: `${@d.getVar('A', True)}` becomes `${A', True}`. |
| C82 | cls_stash.py:ExpandTerm: a value with `${@oe.utils.read_file(…)}` is replaced as a whole by the text of the file; what stands around the call is lost. A directory as argument raises IsADirectoryError. |
| C85 | cls_item.py:Function.__init__ searches Raw for the first brace: for `pkg_postinst:${PN}() {` FuncBodyRaw begins with `PN}() {`; a body that ends with a brace, as in `${B}}`, loses it. get_items of such functions is wrong too. |
| C86 | parser.py:__regex_func takes `python` and `fakeroot` as words without a boundary: `pythonize() {` is reported as python function `ize`. |
| C33 | cls_stash.py:_clear_cached does not clear GetBBClasses (nor GetPackagesDynamic, IsDynamicPackage and GetScrComponents): a call before AddFile of a class hides the class. Finalize queries through tables filled before it links the files, so a query before Finalize changes IncludedFrom. Remove raises before it clears, so GetLoneAppends then reports items that are gone. |
| C59 | cls_stash.py:StashList: extend tests the type of the class instead of the argument, so it never adds anything; append of a StashList adds the list as one element; `+=` leaves a plain list. Slices, `+` and the like: see C103. |
| C56 | constants.py:AddConstants stores the caller's own lists and dictionaries at new keys: a later AddConstants with another dictionary changes the first dictionary, and adding the same dictionary twice doubles the lists in it. |
| C87 | cls_item.py:Variable.get_items strips quotes at the ends of the value only: `B = "x" ` with a blank behind gives the word `x"`, and single quotes stay in the words. |
| C88 | cls_item.py:Variable.IsMultiLine looks for a backslash directly in front of a newline and for the four characters `\x1b`: it is false for a continued line with blanks behind the backslash, and true for a one line value with that text. |
| C89 | cls_item.py:Function.GetMachineEntry lacks class-nativesdk in its list and returns it as a machine; extract_sub_func keeps overrides of functions that are not known in FuncName (`do_x:qemux86`). |
| C90 | cls_item.py:FunctionExports.get_items splits at single spaces: names separated by a tab are one name, and the backslash of a continued line is returned as a name (an escape character). |
| C91 | cls_stash.py:GetLinksForFile goes through the items: a linked file is named once per item, and not at all if it has none. |
| C92 | `inherit a<TAB>b` loads neither class: the text is split at spaces only (parser.py:333), though get_items() of the same item lists both (`C92_tab_refuted`). |
| C92 | `A = "k"` followed by `inherit ${A}` in the same file does not load class k: the items of a file join the stash after it was parsed, so references to variables of the same file are not resolved while parsing (`C92_reference_refuted`); the same goes for `require ${A}.inc`. |
| C93 | After an AddFile that raised, classes that were being read stay in the list of seen classes; a later AddFile of a recipe that inherits one of them succeeds without its items (`C93_error_refuted`). |
| C94 | MissingFile items are documented but never created (`C94_never`, `C94_refuted`). |
| C95 | `inherit a b` loads class a although ClassIgnore lists it: parser.py:344 compares the whole text of the statement with the list (`C95_refuted`). |
| C96 | A bbappend whose name has characters such as plus signs or parentheses is compiled as a regular expression (cls_stash.py:199, 214): AddFile may raise, or a name such as gtk+3_%.bbappend does not link to its recipe. |
| C97 | GetRecipes, GetLoneAppends, GetConfFiles, GetBBClasses and GetLinksForFile return the cached list object itself: a caller that changes it changes later answers (`C97_refuted`). |
| C98 | cls_stash.py:ExpandVar does not put inline code back for append and prepend: `R_append = "${@b()}"` gives the value `!!!inlineblock!!!` (`C98_refuted`). |
| C99 | cls_stash.py:141-155: _clear_cached clears the tables of all stashes, so making a stash changes what another one answers from an outdated table (`C99_refuted`). |
| C99 | cls_item.py:428-435, cls_stash.py:270-283: the distros that AddFile finds in the layer of a file become known to all stashes, so GetDistroEntry of an item of one stash answers differently after another stash has read a file (`C99_distro_refuted`). |
| C102 | cls_stash.py:141-155: GetPackagesDynamic and IsDynamicPackage are cached but not cleared, so they do not see files added later (`C102_refuted`). |
| C103 | cls_stash.py:30: a slice, sum, product or copy of a query result raises TypeError, since UserList calls the constructor with one argument (`C103_refuted`). |
| C107 | parser.py:348, 375, 439, cls_stash.py:194-217: lines of included files are counted from the line of the statement in its own file, so of two includes the second may be expanded before the first (`C107_refuted`), and an assignment in an include may win over one in a bbappend (`C107_append_refuted`). parser.py:343-348: all classes of one inherit statement get the same line offset, so their statements are mixed by line and a class named first may win over one named later (`C107_inherit_refuted`). |
| C110 | cls_stash.py:170: a path with exactly two slashes in front stays different from the same path with one, so the same file is read as two (`C110_refuted`; see also C27). |
| C111 | cls_stash.py:200-205, 213-217: every bbappend is moved behind the last line of the recipe only, so the statements of two bbappends of one recipe are mixed by their line numbers; the values are then not those of either order (`C111_refuted`). |
| C113 | cls_item.py:1278-1288 and 260-261: FilePaths of an Inherit is a set and part of the text that is digested, so FingerPrint of the same files differs between processes with different hash seeds (`C113_refuted`). |
| C115 | rpl_regex.py:24-27, 63-66: a search that exceeds the limit counts as one without a match, so the items of a file depend on the time it takes: an assignment becomes a line without meaning and nothing is reported (`C115_refuted`), or a comment falls apart and AddFile raises StopIteration (`C115_raises_refuted`). |
| C116 | cls_stash.py:594, 613 and 141-155: the tables of GetLayerRoot and FindLocalOrLayer are never cleared, so a stash that looked for a file before it was written does not find it afterwards, and one that was removed is still found, also after AddFile or Finalize (`C116_refuted`). |
| C117 | cls_stash.py:361-374, cls_item.py:331-333: the table of __get_items_by_attribute is keyed by the item objects and not cleared by their setters, so after `item.VarValue = x` GetItemsFor still gives the item for its old value and not for its new one, until the next AddFile, Append, Remove or Finalize (`C117_refuted`). |
| C118 | parser.py:62-63 and 121-136: the expression for the beginning of a function starts with `.*` and the braces of that line are not counted. So any line with `() {`, also a comment, an assignment or a function that is closed on the same line, takes all following lines with it up to an unmatched closing brace: `do_x() { :; }` followed by assignments is one Function item, and the assignments are lost (`C118_refuted`, `C118_swallow`). |
| C119 | cls_stash.py:478-481: ExpandVar without a file name takes PN, PV, BPN and the file for references from the first item found. All files begin at line 1, so with several files the iteration order of a set decides; and the assignments of all files are mixed by line, so `.=` in one recipe appends to the value of another (`C119_refuted`). |
| C121 | cls_stash.py:795-798: references are replaced in a text where other values were put in already, so the `$` of `$${X}` and a value `{PN}` of X make a new reference, and expanding again gives another text (`C121_refuted`). |
| C122 | cls_stash.py:766, 774-775: the expansion of a definition is called without `spare`, so with P = "${PN}-p" `ExpandTerm(f, "${P}", spare=["PN"])` gives the name of the recipe, and GetValidPackageNames cannot strip it from such an entry of PACKAGES (`C122_refuted`). |
| C123 | parser.py:350, 377, 441: as included files count with their own lines only, `X = "last"` behind `require b.inc` is placed before the last statements of b.inc if b.inc requires a file itself, and ExpandVar gives the value of b.inc (`C123_refuted`). |
| C125 | README.md:86-92, cls_item.py:322-329, 372-378: VarValue includes the quotes, so the README's `reduce(attribute=Variable.ATTR_VARVAL, attributeValue=["1.0"])` finds nothing for `PV = "1.0"`; and VarValueStripped takes off double quotes only, so neither finds `BPV = '1.0'` (`C125_refuted`). |
| C126 | cls_stash.py:207-217: a bbappend that was added before the recipe is linked to every recipe whose name begins like it (bar.bbappend and barbar.bb), so queries for that recipe show the items of the bbappend of another one. |
| C127 | parser.py:186 replaces every backslash of a line by an escape character, not only one that continues the line: VarValue of `X = "a\.b"` contains an escape character instead, and because SafeLineSplit (cls_stash.py:16) divides at escape characters, the entry `^libx\.y` of PACKAGES_DYNAMIC is taken for the two patterns `^libx` and `.y`, so IsDynamicPackage says true for a package named `zy`. |
| C128 | cls_item.py:235-241: IsFromAppend looks at the name of the item's own file only, so the items of a file that a bbappend requires, which a recipe has only because of the bbappend, say that they are not from one (`C128_refuted`). |
| C129 | cls_stash.py:748-749: with objref, a word that contains inline code is replaced by the whole value of the variable, so the expansion word by word that the README shows gives `a`, `a ${@f()} b`, `b` for `C = "a ${@f()} b"` (`C129_refuted`). |
| C130 | cls_stash.py:860-882, constants.py:44-93: the table of IsImage is cleared by updates of the stash only, so after AddConstants made the class that a recipe inherits known as a class for images, IsImage still answers False for a recipe asked about before (`C130_refuted`). |
| C132 | cls_stash.py:638-644: the mirrors are replaced one after the other, so a mirror that stands for a text with another mirror is resolved only if the other one comes later in the dictionary (`C132_nested_refuted`); none of the mirrors that come with the package does. |
| C135 | constants.py:57, 74: adding appends an entry once more, removing drops all occurrences, so adding an entry that is there already and removing it again loses it (`C135_refuted`); at a place that did not exist an empty list stays (`C135_left`). |
| C140 | cls_item.py:176-205: in the old override syntax every part behind an underscore that begins with a lower case letter counts as override, so `systemd_unitdir_append` is the variable `systemd` with the overrides unitdir and append, while `systemd_unitdir:append` is `systemd_unitdir` with append (`C140_refuted`). |

Observed while modelling, without a property of its own: unset keeps earlier
append, prepend and remove operations; distro and machine names are added again
for every file; `spare` is not passed on to nested expansions; an assignment to
INHERIT in quotes is an Inherit item, so ExpandVar and queries for Variables do
not show it, while `INHERIT:append` is a Variable whose classes are not loaded
(parser.py:37-38, 357-380); addpylib keeps additional blanks in its path;
FunctionExports.ATTR_FUNCNAME names an attribute the class does not have;
FuncBodyStripped drops every brace, so `${D}` becomes `$D`; README.md calls
`sets/base` a list although it is a dictionary.

## Trusted base

* The Coq 8.16.1 kernel (with `vm_compute` for concrete examples).
* Axioms: none.  `Print Assumptions` is under every theorem of the table above
  and answers `Closed under the global context` for each of them.
* The transcription of the Python code into Gallina (cited per definition).

As a check of the transcription, `conformance/gen.py` writes 174 expectations of
the project's own tests (parser, classes, appends, expansion, includes, inline
code, line numbers, linking, packages, patterns, snippets, unset, versions,
images) as computations of the model; all of them hold.  The computation is too
long for the build and is not part of it.

Modelled: `parser.py`, `cls_item.py`, `cls_stash.py`, `inlinerep.py`,
`constants.py`, `data/const-default.json`, the part of `rpl_regex.py`
that calls the `regex` module.

Not modelled:

* time limits of regular expressions (rpl_regex.py `timeout`) except in C114 and C115, where an arbitrary clock says which searches of `Timed.v` give up and what is done with a matching line is arbitrary up to `handler_ok`; elsewhere every search is in time;
* Python's recursion limit;
* printing, logging, SHA-1 itself, JSON decoding, text decoding;
* regular expressions given by the user or built from names are modelled for the
  syntax `Regex.v` can read; others give `RegexUnsupported`;
* `urllib.parse` is an arbitrary function (`e_url`); so is the text of an item (`e_repr`) except in C112 and C113, where it is that of `Repr.v`, with `str.isprintable` beyond ASCII arbitrary;
* case folding beyond what the expressions of the code need.
