{"id": "C01", "title": "Parsing is lossless", "statement": "When Stash.AddFile returns for a file, the RealRaw texts of the returned items, joined in the order returned, are exactly the (newline translated) text of the file.", "quantifier": "every file content, every stash state, every configuration (new override syntax, negative inline, line offset)", "why_tests_cant": "A test file exercises a few chunk shapes; losing, duplicating or reordering text depends on how continuation, comment, def and function blocks follow each other, which is unbounded.", "anchors": ["oelint_parser/parser.py:prepare_lines", "oelint_parser/parser.py:prepare_lines_subparser", "oelint_parser/parser.py:get_items", "oelint_parser/cls_stash.py:Stash.AddFile"]}
{"id": "C02", "title": "InFileLine is the physical line number", "statement": "For every item returned by AddFile, InFileLine is one plus the number of newline characters of the file text in front of that item.", "quantifier": "every file content and every item of the result", "why_tests_cant": "Line bookkeeping errors show only for particular sequences of multi-line chunks.", "anchors": ["oelint_parser/parser.py:prepare_lines", "oelint_parser/cls_item.py:Item.InFileLine"]}
{"id": "C03", "title": "Items come back in file order", "statement": "The Line numbers (and the InFileLine numbers) of the items returned by AddFile are strictly increasing, whatever files the file includes or inherits.", "quantifier": "every file content, file system and include structure for which AddFile returns", "why_tests_cant": "Depends on the sizes of all included files; unbounded include trees.", "anchors": ["oelint_parser/parser.py:get_items", "oelint_parser/cls_stash.py:Stash.AddFile"]}
{"id": "C04", "title": "Every item carries its file and some text", "statement": "Every item returned by AddFile has the absolute, normalised path of the file as Origin and a non-empty RealRaw; an empty or missing file yields no item.", "quantifier": "every file content and path", "why_tests_cant": "Needs all contents and all spellings of the path.", "anchors": ["oelint_parser/parser.py:get_items", "oelint_parser/cls_item.py:Item.Origin", "oelint_parser/cls_item.py:Item.RealRaw"]}
{"id": "C05", "title": "Inline preprocessing terminates and leaves no inline marker", "statement": "Preprocessing a chunk always terminates, and the resulting Raw text of every item contains no '${@'.", "quantifier": "every text, both inline branches", "why_tests_cant": "The loop rewrites the text with values taken from the text itself, so termination is a statement over all texts, including adversarial ones.", "anchors": ["oelint_parser/parser.py:prepare_lines_subparser", "oelint_parser/parser.py:get_full_scope", "oelint_parser/inlinerep.py:inlinerep"]}
{"id": "C06", "title": "AddFile never leaks StopIteration", "statement": "AddFile raises StopIteration exactly when some chunk ends the file while a continuation line or a function header still waits for its next line; it never does so when the last line is neither a continuation line nor a function header.", "quantifier": "every file content", "why_tests_cant": "The failing shape is a property of the last line together with the chunking of everything before it.", "anchors": ["oelint_parser/parser.py:prepare_lines_subparser.iterate"]}
{"id": "C07", "title": "New override syntax is sticky within a file", "statement": "Once an item of a file uses the new override syntax (IsNewStyleOverrideSyntax), all later items of that file report it too; with new_style_override_syntax set all do.", "quantifier": "every file content and configuration", "why_tests_cant": "Flag propagation over arbitrary sequences of items.", "anchors": ["oelint_parser/parser.py:get_items", "oelint_parser/cls_item.py:Item.IsNewStyleOverrideSyntax"]}
{"id": "C08", "title": "Configuration does not move text", "statement": "RealRaw and InFileLine of the items of a file do not depend on negative_inline, on new_style_override_syntax or on the line offset: two runs on the same text with any two configurations give the same sequence of (RealRaw, InFileLine).", "quantifier": "every text and every pair of configurations", "why_tests_cant": "A relational property over pairs of runs.", "anchors": ["oelint_parser/parser.py:prepare_lines", "oelint_parser/cls_stash.py:Stash.__init__"]}
{"id": "C09", "title": "Comments are Comments", "statement": "A chunk whose first non-blank character is '#' always becomes a Comment item, whatever follows, and a chunk of any other shape never does.", "quantifier": "every chunk text", "why_tests_cant": "Classification goes through 17 regular expressions in order; tests cover a handful of bodies.", "anchors": ["oelint_parser/parser.py:get_items", "oelint_parser/parser.py:__regex_comments"]}
{"id": "C10", "title": "Assignments become Variables with exact parts", "statement": "A one-line assignment NAME OP VALUE with a plain variable name, a BitBake operator and any value becomes one Variable item whose raw name, operator and value are exactly the written ones.", "quantifier": "all names over letters, digits, underscore, dot, dash, colon, all operators, all spacings, all values on one line", "why_tests_cant": "The regular expression is lazy in the name, greedy in the operator and in competition with 16 earlier patterns.", "anchors": ["oelint_parser/parser.py:__regex_var", "oelint_parser/parser.py:get_items", "oelint_parser/cls_item.py:Variable"]}
{"id": "C11", "title": "Flag assignments become FlagAssignment with exact parts", "statement": "NAME[flag] OP VALUE becomes one FlagAssignment with exactly the written name, flag, operator and value.", "quantifier": "all names, flags, operators, values", "why_tests_cant": "Same regular expression competition as for variables.", "anchors": ["oelint_parser/parser.py:__regex_flagass", "oelint_parser/cls_item.py:FlagAssignment"]}
{"id": "C12", "title": "Statements are recognised for all arguments", "statement": "inherit, INHERIT assignments, EXPORT_FUNCTIONS, deltask, addtask, export, addpylib statements in canonical spelling become the corresponding item with exactly the written argument.", "quantifier": "all argument strings", "why_tests_cant": "Unbounded argument strings against overlapping patterns.", "anchors": ["oelint_parser/parser.py:get_items", "oelint_parser/cls_item.py:Inherit", "oelint_parser/cls_item.py:TaskDel", "oelint_parser/cls_item.py:Export"]}
{"id": "C13", "title": "unset names the unset variable", "statement": "'unset NAME' yields an Unset item whose VarName is NAME and whose Flag is empty; 'unset NAME[flag]' yields NAME and flag.", "quantifier": "all variable names and flags", "why_tests_cant": "The repository tests only use one-letter names, for which the lazy group happens to be right.", "anchors": ["oelint_parser/parser.py:__regex_unset", "oelint_parser/cls_item.py:Unset", "oelint_parser/cls_stash.py:Stash.ExpandVar"]}
{"id": "C14", "title": "A function ends at its closing brace", "statement": "A function definition in canonical layout (header line ending in '{', body lines with balanced braces, a closing '}' line) becomes one Function item that covers exactly these lines, whatever follows; inline code in the body may be evaluated, as long as its results do not form further inline code with the text in front of them.", "quantifier": "all bodies with balanced braces, all following text", "why_tests_cant": "Brace counting over unbounded bodies; what follows must not be swallowed.", "anchors": ["oelint_parser/parser.py:prepare_lines_subparser.iterate", "oelint_parser/parser.py:__func_start_regexp__", "oelint_parser/parser.py:__regex_func"]}
{"id": "C15", "title": "bb.utils.contains takes the chosen branch", "statement": "${@bb.utils.contains(VAR, ITEM, TRUE, FALSE, d)} is replaced by the quoted TRUE text, or by the FALSE text with negative_inline, for all quoted argument texts without quotes, commas or parentheses.", "quantifier": "all argument texts, both branches, any surrounding text", "why_tests_cant": "Nested lazy quantifiers with backtracking; only a few literals are tested.", "anchors": ["oelint_parser/inlinerep.py:bb_utils_contains", "oelint_parser/inlinerep.py:inlinerep"]}
{"id": "C16", "title": "The other inline helpers take the chosen branch", "statement": "contains_any, filter, conditional, ifelse, any/all_distro_features, vartrue, less_or_equal, version_less_or_equal and both_contain likewise evaluate to the written true or false argument.", "quantifier": "all argument texts, both branches", "why_tests_cant": "As C15.", "anchors": ["oelint_parser/inlinerep.py:inlinerep"]}
{"id": "C17", "title": "Unknown inline code is restored", "statement": "For a value in which every inline block is unknown to the evaluator and no two blocks are textually equal, expanding gives back the original inline code in its original places.", "quantifier": "all values with any number of inline blocks", "why_tests_cant": "Restoration is by first textual occurrence, so it depends on all surrounding text.", "anchors": ["oelint_parser/cls_stash.py:Stash._ReverseInlineBlock", "oelint_parser/parser.py:prepare_lines_subparser"]}
{"id": "C18", "title": "safe_linesplit splits at white space only", "statement": "The result of Item.safe_linesplit is the list of maximal runs of characters that are no separators (white space, or an escape character not followed by 'x'); in particular no empty strings, and joining the tokens gives the input without its separators.", "quantifier": "every string", "why_tests_cant": "A statement about all Unicode strings.", "anchors": ["oelint_parser/cls_item.py:Item.safe_linesplit", "oelint_parser/cls_item.py:__safeline_split_regex__"]}
{"id": "C19", "title": "Override splitting loses nothing", "statement": "Splitting a variable name into VarName and SubItems keeps every non-empty part of the name exactly once and keeps the order inside VarName and inside SubItems.", "quantifier": "every name and both delimiters", "why_tests_cant": "Unbounded number of parts; classification per part.", "anchors": ["oelint_parser/cls_item.py:Item.extract_sub", "oelint_parser/cls_item.py:Variable.SubItems"]}
{"id": "C20", "title": "VarNameComplete round trips", "statement": "VarNameComplete of a parsed variable is the name as written (without empty parts) provided no name part follows an override part; in general it is not.", "quantifier": "every name", "why_tests_cant": "Counterexamples need a specific order of parts.", "anchors": ["oelint_parser/cls_item.py:Variable.VarNameComplete", "oelint_parser/cls_item.py:Item.extract_sub"]}
{"id": "C21", "title": "Operation predicates agree", "statement": "IsImmediateModify is false exactly if append, prepend or remove is among the SubItems; IsAppend is true exactly if AppendOperation lists something other than only remove; AppendOperation is empty exactly for immediate, non-appending assignments; VarNameCompleteNoModifiers contains no append/prepend/remove part.", "quantifier": "every variable item", "why_tests_cant": "Agreement of four independent predicates on all items.", "anchors": ["oelint_parser/cls_item.py:Variable.IsAppend", "oelint_parser/cls_item.py:Variable.AppendOperation", "oelint_parser/cls_item.py:Variable.IsImmediateModify"]}
{"id": "C22", "title": "VarValueStripped only strips", "statement": "VarValueStripped is VarValue without surrounding white space and then without surrounding double quotes, it neither starts nor ends with a double quote and the removed parts consist of white space and double quotes only.", "quantifier": "every value", "why_tests_cant": "All strings.", "anchors": ["oelint_parser/cls_item.py:Variable.VarValueStripped"]}
{"id": "C23", "title": "Recipe name and version from file names", "statement": "For a path DIR/NAME_VERSION.EXT with an underscore free NAME, GuessRecipeName is NAME and GuessRecipeVersion is VERSION up to the next underscore; without an underscore the version is None.", "quantifier": "all directories, names, versions, extensions", "why_tests_cant": "Dots, leading dots and further underscores interact with the extension splitting.", "anchors": ["oelint_parser/cls_stash.py:Stash.GuessRecipeName", "oelint_parser/cls_stash.py:Stash.GuessRecipeVersion"]}
{"id": "C24", "title": "Base recipe name drops the class affixes", "statement": "GuessBaseRecipeName removes leading nativesdk- prefixes and one trailing -native and/or -cross suffix, and leaves all other names unchanged.", "quantifier": "all recipe names", "why_tests_cant": "Interplay of greedy and optional groups.", "anchors": ["oelint_parser/cls_stash.py:Stash.GuessBaseRecipeName"]}
{"id": "C25", "title": "GetLayerRoot is the nearest layer", "statement": "GetLayerRoot returns the nearest proper ancestor directory of the file's directory (or of the given directory) that contains conf/layer.conf, or the empty string.", "quantifier": "all paths and all file systems", "why_tests_cant": "Quantifies over directory trees of any depth.", "anchors": ["oelint_parser/cls_stash.py:Stash.GetLayerRoot"]}
{"id": "C26", "title": "FindLocalOrLayer looks locally first", "statement": "FindLocalOrLayer returns the file next to the including file if it exists; otherwise it looks in the nearest enclosing layer root only.", "quantifier": "all paths and file systems", "why_tests_cant": "As C25.", "anchors": ["oelint_parser/cls_stash.py:Stash.FindLocalOrLayer"]}
{"id": "C27", "title": "Layer search terminates", "statement": "GetLayerRoot and FindLocalOrLayer terminate on every absolute path with a single leading slash; a path with two leading slashes in a tree without a layer makes them loop forever.", "quantifier": "all paths and file systems", "why_tests_cant": "Non-termination cannot be observed by a test.", "anchors": ["oelint_parser/cls_stash.py:Stash.GetLayerRoot", "oelint_parser/cls_stash.py:Stash.FindLocalOrLayer"]}
{"id": "C28", "title": "GetItemsFor returns exactly the matching items", "statement": "GetItemsFor returns, sorted by Line and without duplicates, exactly the items of the stash that match file, classifier and attribute filters; an item matches a file if it comes from it or (unless nolink) from a linked file.", "quantifier": "every stash state and every filter combination, every set iteration order", "why_tests_cant": "All combinations of filters and stash contents.", "anchors": ["oelint_parser/cls_stash.py:Stash.GetItemsFor", "oelint_parser/cls_stash.py:Stash.Reduce"]}
{"id": "C29", "title": "Query results do not depend on hashing except for ties", "statement": "Two runs with different set iteration order return the same items, and the same order when Line numbers are pairwise different.", "quantifier": "every stash state, every pair of iteration orders", "why_tests_cant": "Hash seeds vary between processes; a relational property.", "anchors": ["oelint_parser/cls_stash.py:Stash.Reduce"]}
{"id": "C30", "title": "Filters compose", "statement": "Reducing a query result by a further filter gives the same as one query with both filters, in any order; reducing twice by the same filter changes nothing.", "quantifier": "every stash state and filters", "why_tests_cant": "Algebraic law over all states.", "anchors": ["oelint_parser/cls_stash.py:Stash.Reduce", "oelint_parser/cls_stash.py:Stash.StashList.reduce"]}
{"id": "C31", "title": "An attribute value filter filters", "statement": "GetItemsFor with an attribute and an attribute value returns only items that have that value.", "quantifier": "every attribute value", "why_tests_cant": "Falsy values take another branch.", "anchors": ["oelint_parser/cls_stash.py:Stash.Reduce"]}
{"id": "C32", "title": "File listings are exact", "statement": "GetRecipes lists exactly the known .bb files, sorted and without duplicates; GetBBClasses the origins ending in .bbclass, GetConfFiles those ending in .conf, GetLoneAppends exactly the .bbappend origins that no .bb is linked to.", "quantifier": "every stash state", "why_tests_cant": "All histories.", "anchors": ["oelint_parser/cls_stash.py:Stash.GetRecipes", "oelint_parser/cls_stash.py:Stash.GetLoneAppends", "oelint_parser/cls_stash.py:Stash.GetConfFiles", "oelint_parser/cls_stash.py:Stash.GetBBClasses"]}
{"id": "C33", "title": "Caching is invisible", "statement": "In every history of AddFile, Append, Remove, Finalize and queries, each query answers as if nothing were cached.", "quantifier": "every history of API calls", "why_tests_cant": "Staleness needs a specific interleaving of queries and updates.", "anchors": ["oelint_parser/cls_stash.py:Stash._clear_cached", "oelint_parser/cls_stash.py:Stash.GetItemsFor", "oelint_parser/cls_stash.py:Stash.GetBBClasses"]}
{"id": "C34", "title": "Append and Remove are exact and Remove is all-or-nothing", "statement": "Append adds exactly the given items at the end; Remove removes exactly the first occurrence of each given item; a Remove that fails leaves the stash unchanged.", "quantifier": "every stash state and argument list", "why_tests_cant": "Failure in the middle of the list.", "anchors": ["oelint_parser/cls_stash.py:Stash.Append", "oelint_parser/cls_stash.py:Stash.Remove"]}
{"id": "C35", "title": "Finalize cannot fail", "statement": "After any sequence of AddFile calls Finalize does not raise and every file is linked to itself.", "quantifier": "every history of AddFile calls on every file system", "why_tests_cant": "The link map must be closed under all histories.", "anchors": ["oelint_parser/cls_stash.py:Stash.Finalize", "oelint_parser/cls_stash.py:Stash.AddFile"]}
{"id": "C36", "title": "bbappends and bbclasses are added once", "statement": "Adding a .bbappend or .bbclass file again returns no items and changes nothing.", "quantifier": "every stash state and path spelling", "why_tests_cant": "All spellings of the same path, all histories.", "anchors": ["oelint_parser/cls_stash.py:Stash.AddFile"]}
{"id": "C37", "title": "bbappends come after their recipe", "statement": "In every Stash filled by AddFile, whatever was added, removed, linked and finalized in whatever order and even if calls raised, every own item of a bbappend has a Line greater than every own item of a recipe it applies to, so that no query lists an item of the recipe behind one of the bbappend.", "quantifier": "all recipes and bbappends that apply to them, all histories of AddFile with offsets that are not negative, Remove, Finalize and changes of constants, all queries", "why_tests_cant": "Depends on sizes and order.", "anchors": ["oelint_parser/cls_stash.py:Stash.AddFile"]}
{"id": "C38", "title": "Linking does not depend on load order", "statement": "Whether a bbappend is linked to a recipe does not depend on which of the two is added first.", "quantifier": "all pairs of file names, both orders", "why_tests_cant": "The two code paths use different patterns.", "anchors": ["oelint_parser/cls_stash.py:Stash.AddFile"]}
{"id": "C39", "title": "Included items sort at the include", "statement": "Items of an included file have Line numbers between the include statement and the following items of the including file.", "quantifier": "all file contents and include structures", "why_tests_cant": "Offsets accumulate over several and nested includes.", "anchors": ["oelint_parser/parser.py:get_items", "oelint_parser/cls_stash.py:Stash.AddFile"]}
{"id": "C40", "title": "Parsing terminates on cyclic inherits and includes", "statement": "AddFile terminates on every file system, also when classes inherit each other or files require each other in a cycle.", "quantifier": "every file system", "why_tests_cant": "Non-termination is not testable.", "anchors": ["oelint_parser/cls_stash.py:Stash.AddFile", "oelint_parser/parser.py:get_items"]}
{"id": "C41", "title": "Finalize links transitively", "statement": "After Finalize a file is linked with every file it directly or indirectly includes or inherits.", "quantifier": "all histories and include structures", "why_tests_cant": "Closure depends on the dictionary order.", "anchors": ["oelint_parser/cls_stash.py:Stash.Finalize"]}
{"id": "C42", "title": "ExpandTerm terminates", "statement": "ExpandTerm terminates for every value and every stash, also for variables that refer to themselves or to each other.", "quantifier": "every stash, every value, every base set", "why_tests_cant": "Cyclic definitions of any length.", "anchors": ["oelint_parser/cls_stash.py:Stash.ExpandTerm"]}
{"id": "C43", "title": "Text without references is unchanged", "statement": "ExpandTerm returns a value without '${', 'getVar(' and '{@' unchanged.", "quantifier": "every such value and stash", "why_tests_cant": "All strings.", "anchors": ["oelint_parser/cls_stash.py:Stash.ExpandTerm"]}
{"id": "C44", "title": "Unknown references are kept", "statement": "A reference ${NAME} to a name that is no variable of the file, no base variable and no built-in is left in the text; names listed in spare are left in the text.", "quantifier": "all names, values, stashes", "why_tests_cant": "All strings and states.", "anchors": ["oelint_parser/cls_stash.py:Stash.ExpandTerm"]}
{"id": "C45", "title": "Definitions take precedence", "statement": "${NAME} expands to the first non-append definition visible for the file if there is one, else to the base set value, else PN, BPN, PV, FILE and THISDIR to the values derived from the file name.", "quantifier": "all stashes, names, files", "why_tests_cant": "Priority over all combinations.", "anchors": ["oelint_parser/cls_stash.py:Stash.ExpandTerm"]}
{"id": "C46", "title": "ExpandVar applies operators in order", "statement": "For a variable set by a sequence of operators in canonical spacing and without inline code, ExpandVar yields the value obtained by folding the meaning of =, :=, ?=, ??=, +=, =+, .= and =. over the assignments in line order, where ?= and ??= both set the value only if there is none yet.", "quantifier": "all sequences of assignments", "why_tests_cant": "Unbounded sequences of operators.", "anchors": ["oelint_parser/cls_stash.py:Stash.ExpandVar"]}
{"id": "C47", "title": "append, prepend and remove are applied afterwards", "statement": "Deferred operations are applied after all immediate ones, first append and prepend in line order, then remove; this holds for every variable that has a value after the immediate statements or from which nothing is removed.", "quantifier": "all interleavings of immediate and deferred operations", "why_tests_cant": "Unbounded interleavings.", "anchors": ["oelint_parser/cls_stash.py:Stash.ExpandVar"]}
{"id": "C48", "title": "unset removes what was set before", "statement": "An Unset item removes the value collected so far for that variable, later assignments set it again, flag unsets change nothing.", "quantifier": "all sequences", "why_tests_cant": "Unbounded sequences.", "anchors": ["oelint_parser/cls_stash.py:Stash.ExpandVar"]}
{"id": "C49", "title": "Whitespace around the operator does not matter", "statement": "The result of ExpandVar does not depend on the white space around the operator.", "quantifier": "all assignments", "why_tests_cant": "Only the canonical spacing is tested.", "anchors": ["oelint_parser/cls_stash.py:Stash.ExpandVar", "oelint_parser/cls_item.py:Variable.VAR_VALID_OPERATOR"]}
{"id": "C50", "title": "Package names contain the defaults", "statement": "GetValidPackageNames contains exactly PN and ${PN}, their -ptest, -src, -dbg, -staticdev, -dev, -doc and -locale packages, and every entry of a visible PACKAGES or PACKAGE_BEFORE_PN with ${PN} replaced by each of the two (or removed with strippn).", "quantifier": "every stash and file", "why_tests_cant": "All stashes.", "anchors": ["oelint_parser/cls_stash.py:Stash.GetValidPackageNames"]}
{"id": "C51", "title": "Named resources contain the recipe and every name option", "statement": "GetValidNamedResources is exactly the recipe name plus the name= options of the SRC_URI entries.", "quantifier": "every stash and file", "why_tests_cant": "All stashes.", "anchors": ["oelint_parser/cls_stash.py:Stash.GetValidNamedResources", "oelint_parser/cls_stash.py:Stash.GetScrComponents"]}
{"id": "C52", "title": "IsImage and IsPackageGroup are exact", "statement": "IsImage holds exactly if a visible inherit names an image class or a visible variable is an image variable; IsPackageGroup exactly if a visible inherit names packagegroup.", "quantifier": "every stash, file, constant database", "why_tests_cant": "All stashes and databases.", "anchors": ["oelint_parser/cls_stash.py:Stash.IsImage", "oelint_parser/cls_stash.py:Stash.IsPackageGroup"]}
{"id": "C53", "title": "Overriding constants sets exactly what is given", "statement": "After OverrideConstants every given leaf is returned by GetByPath and every path outside is unchanged.", "quantifier": "all databases and dictionaries", "why_tests_cant": "Unbounded nested dictionaries.", "anchors": ["oelint_parser/constants.py:Constants.OverrideConstants", "oelint_parser/constants.py:Constants.GetByPath"]}
{"id": "C54", "title": "Adding constants appends to lists", "statement": "After AddConstants every given list is appended to the list at its path (or becomes it), everything else is unchanged.", "quantifier": "all databases and dictionaries", "why_tests_cant": "Unbounded nested dictionaries.", "anchors": ["oelint_parser/constants.py:Constants.AddConstants"]}
{"id": "C55", "title": "Removing constants filters lists", "statement": "After RemoveConstants a list at a given path has lost exactly the given members, everything else is unchanged; non-list leaves keep their type.", "quantifier": "all databases and dictionaries", "why_tests_cant": "Unbounded nested dictionaries.", "anchors": ["oelint_parser/constants.py:Constants.RemoveConstants"]}
{"id": "C56", "title": "Constants do not alias the caller's data", "statement": "Adding a dictionary to the constants neither changes the dictionary later on nor lets later changes of it change the constants.", "quantifier": "all histories of calls with shared dictionaries", "why_tests_cant": "Aliasing shows only in histories.", "anchors": ["oelint_parser/constants.py:Constants.AddConstants"]}
{"id": "C57", "title": "Fingerprint is determined by what was parsed", "statement": "The fingerprint is a function of the configuration and of the sequence of parsed items only; Append, Remove, Finalize and queries do not change it.", "quantifier": "all histories", "why_tests_cant": "All histories.", "anchors": ["oelint_parser/cls_stash.py:Stash.FingerPrint", "oelint_parser/cls_stash.py:Stash.AddFile"]}
{"id": "C58", "title": "Components of SRC_URI entries", "statement": "GetScrComponents replaces the known mirrors, returns scheme and place of the URL without the options, and returns for each option key=value of the entry the value of its last occurrence; values are complete.", "quantifier": "all SRC_URI strings", "why_tests_cant": "All strings.", "anchors": ["oelint_parser/cls_stash.py:Stash.GetScrComponents"]}
{"id": "C59", "title": "StashList behaves like a list", "statement": "append, extend, remove, insert, assignment to a position and += on a query result behave as on a list of items.", "quantifier": "all lists and arguments", "why_tests_cant": "Operations on all lists.", "anchors": ["oelint_parser/cls_stash.py:Stash.StashList"]}
{"id": "C60", "title": "AddFile only adds", "statement": "AddFile never removes items, keeps their order, and changes nothing of existing items but the Line of items from bbappends.", "quantifier": "every stash, file, file system", "why_tests_cant": "All histories.", "anchors": ["oelint_parser/cls_stash.py:Stash.AddFile"]}
{"id": "C61", "title": "Line offset shifts lines", "statement": "Adding a file without includes with line offset L gives the same items as with offset 0, with Line larger by L and equal InFileLine.", "quantifier": "all contents and offsets", "why_tests_cant": "Relational property.", "anchors": ["oelint_parser/parser.py:get_items", "oelint_parser/cls_stash.py:Stash.AddFile"]}
{"id": "C62", "title": "Unrelated files do not disturb", "statement": "Adding a file that is not linked with f does not change the answer of GetItemsFor(f).", "quantifier": "all stashes and files", "why_tests_cant": "Frame property over all states.", "anchors": ["oelint_parser/cls_stash.py:Stash.AddFile", "oelint_parser/cls_stash.py:Stash.GetItemsFor"]}
{"id": "C63", "title": "Function body lines", "statement": "The lines given by Function.get_items, joined by newlines, are FuncBodyRaw, and FuncBodyStripped contains no braces and no newlines.", "quantifier": "all function texts", "why_tests_cant": "All strings.", "anchors": ["oelint_parser/cls_item.py:Function.get_items", "oelint_parser/cls_item.py:Function.FuncBodyStripped"]}
{"id": "C64", "title": "Distro and machine names come from the layer", "statement": "AddFile adds exactly the names of the layer's conf/distro and conf/machine files to the known distros and machines and leaves all other constants alone.", "quantifier": "all file systems, all databases", "why_tests_cant": "All databases.", "anchors": ["oelint_parser/cls_stash.py:Stash.AddDistroMachineFromLayer", "oelint_parser/constants.py:Constants.AddConstants"]}
{"id": "C65", "title": "Known inline blocks are restored", "statement": "A value with inline python blocks is restored to its written text in the expansion; mixing a block the parser can evaluate with one it cannot corrupts the restored text.", "quantifier": "all values with inline blocks", "why_tests_cant": "Needs particular mixtures of blocks; tests use one block at a time.", "anchors": ["oelint_parser/cls_stash.py:Stash.ExpandVar", "oelint_parser/parser.py:prepare_lines_subparser"]}
{"id": "C66", "title": "Dynamic packages match an entry", "statement": "IsDynamicPackage(name) is true exactly if some entry of a visible PACKAGES_DYNAMIC matches the expanded name; entries that are rows of literal characters, characters behind a backslash and dots, each possibly with ?, * or + behind it, match the names that begin with a text of that form, with $ at the end nothing but a line end may follow; an empty entry, such as behind a trailing blank, makes it true for every name; with an entry that begins with ?, * or + it is never false.", "quantifier": "all package names and all PACKAGES_DYNAMIC values", "why_tests_cant": "Regular expression semantics on all names.", "anchors": ["oelint_parser/cls_stash.py:Stash.IsDynamicPackage", "oelint_parser/cls_stash.py:Stash.GetPackagesDynamic"]}
{"id": "C67", "title": "FuncNameComplete is the written name", "statement": "FuncNameComplete of a function is its written name if the parts of the name are pairwise different; with a repeated part it is not.", "quantifier": "every function name and both delimiters", "why_tests_cant": "Counterexamples need a repeated name part.", "anchors": ["oelint_parser/cls_item.py:Function.FuncNameComplete", "oelint_parser/cls_item.py:Item.extract_sub_func"]}
{"id": "C68", "title": "Finalize accepts appended items", "statement": "Finalize does not fail in any history of AddFile, Append, Remove and Finalize, also if items of other origins than the parsed files were appended.", "quantifier": "every history of calls and every appended item", "why_tests_cant": "Needs a particular combination of an appended item of unknown origin and a later parsed recipe.", "anchors": ["oelint_parser/cls_stash.py:Stash.Finalize", "oelint_parser/cls_stash.py:Stash.Append"]}
{"id": "C69", "title": "IncludedFrom after Finalize", "statement": "After Finalize IncludedFrom of an item contains every file that includes the item's file, and only files that directly or indirectly include it or the file itself.", "quantifier": "every history of parsing calls, every item", "why_tests_cant": "Quantifies over all include graphs; unwanted members show only for particular graphs.", "anchors": ["oelint_parser/cls_stash.py:Stash.Finalize", "oelint_parser/cls_item.py:Item.IncludedFrom"]}
{"id": "C70", "title": "A bbappend with the recipe's name is linked", "statement": "A bbappend whose name is that of a recipe plus 'append' is linked to that recipe, whatever characters the name has.", "quantifier": "every recipe name", "why_tests_cant": "Names with characters that are special in regular expressions are rare in tests.", "anchors": ["oelint_parser/cls_stash.py:Stash.AddFile"]}
{"id": "C71", "title": "A failed update leaves the constants alone", "statement": "If AddConstants, RemoveConstants or OverrideConstants raises, the constants are as before the call.", "quantifier": "every database and every given dictionary", "why_tests_cant": "Tests do not provoke failures in the middle of an update.", "anchors": ["oelint_parser/constants.py:Constants.AddConstants"]}
{"id": "C72", "title": "GetByPath always returns", "statement": "GetByPath returns the item in the structure or an empty dictionary for every path and never raises.", "quantifier": "every path and every database", "why_tests_cant": "The quantifier covers paths that lead through leaves.", "anchors": ["oelint_parser/constants.py:Constants.GetByPath"]}
{"id": "C73", "title": "The base recipe name carries no class affix", "statement": "GuessBaseRecipeName never returns a name that still carries a class affix: the result does not start with nativesdk- (unless it is exactly that) and does not end with -native or -cross.", "quantifier": "all file names", "why_tests_cant": "Affixes combine in any order and number.", "anchors": ["oelint_parser/cls_stash.py:Stash.GuessBaseRecipeName"]}
{"id": "C74", "title": "A file directly in a layer belongs to that layer", "statement": "For a file that lies directly in a directory with conf/layer.conf, GetLayerRoot returns this directory.", "quantifier": "all paths and file systems", "why_tests_cant": "Needs nested directory trees; the search starts one level too high.", "anchors": ["oelint_parser/cls_stash.py:Stash.GetLayerRoot"]}
{"id": "C75", "title": "remove removes whole words", "statement": "The remove operation takes away the whole words that equal its value, as in BitBake; a word that merely contains the value stays.", "quantifier": "all values and removals", "why_tests_cant": "A test picks words that do not contain each other.", "anchors": ["oelint_parser/cls_stash.py:Stash.ExpandVar"]}
{"id": "C76", "title": "The weak default is weaker than the default", "statement": "A variable set by ??= and then by ?= has the value of ?=, and among several ??= the last one counts.", "quantifier": "all sequences of assignments", "why_tests_cant": "Needs all orders of defaults.", "anchors": ["oelint_parser/cls_stash.py:Stash.ExpandVar"]}
{"id": "C77", "title": "An assignment with inline code acts according to its operator", "statement": "An assignment whose value comes from inline code appends, prepends or sets a default exactly like the same assignment with literal text.", "quantifier": "all operators and inline blocks", "why_tests_cant": "Combination of inline code with every operator.", "anchors": ["oelint_parser/cls_stash.py:Stash.ExpandVar"]}
{"id": "C78", "title": "Expansion works part by part", "statement": "Expanding a concatenation of two texts gives the concatenation of their expansions, when no reference is cut and no variable is defined through itself.", "quantifier": "all stashes without cyclic definitions, all texts", "why_tests_cant": "Unbounded nesting of references.", "anchors": ["oelint_parser/cls_stash.py:Stash.ExpandTerm"]}
{"id": "C79", "title": "Stash.SafeLineSplit cuts at every blank", "statement": "Stash.SafeLineSplit cuts a text at every single white space or escape character, keeps everything else, and keeps empty pieces.", "quantifier": "all strings", "why_tests_cant": "All strings, all Unicode white space.", "anchors": ["oelint_parser/cls_stash.py:Stash.SafeLineSplit"]}
{"id": "C80", "title": "GetFiles lists exactly the files beside the sources", "statement": "GetFiles returns, sorted and without duplicates, exactly the files matching DIR/*/PATTERN where DIR is the directory of a visible SRC_URI item or of any item visible from the file that sets SRC_URI.", "quantifier": "all stashes, file systems, patterns", "why_tests_cant": "All link structures and file systems.", "anchors": ["oelint_parser/cls_stash.py:Stash.GetFiles"]}
{"id": "C81", "title": "Built-in values", "statement": "If no assignment and no entry of the base set gives them a value, ${PN}, ${BPN}, ${PV}, ${FILE} and ${THISDIR} expand to the recipe name, base name, version (1.0 if the file name has none), path and directory of the file.", "quantifier": "all stashes, all files", "why_tests_cant": "Tests use a handful of file names and always define some of the variables.", "anchors": ["oelint_parser/cls_stash.py:Stash.ExpandTerm"]}
{"id": "C82", "title": "read_file gives the text of the file", "statement": "ExpandTerm of a value with a call of oe.utils.read_file gives the text of the file named by the expanded argument, the empty text if the file is missing or unreadable, and raises on other errors. The text around the call is dropped.", "quantifier": "all stashes, all texts around the call, all arguments with references", "why_tests_cant": "The argument is expanded with shared memory of the names already seen, and the result depends on the file system.", "anchors": ["oelint_parser/cls_stash.py:Stash.ExpandTerm", "oelint_parser/cls_stash.py:__oe_utils_read_file_regex__"]}
{"id": "C83", "title": "The items of a file are its statements", "statement": "After AddFile of a readable file the RealRaw texts of the returned items are the statements of the file in order: continued lines up to the first line that does not continue, functions up to the line that closes more braces than were opened, runs of comments in the first column, python definitions up to the next line with a letter, digit or hash in the first column, and single lines. Every text is cut into statements in exactly one way.", "quantifier": "all files, all prior stashes", "why_tests_cant": "The cut of each line depends on everything before it; existence and uniqueness range over all texts.", "anchors": ["oelint_parser/parser.py:prepare_lines_subparser", "oelint_parser/parser.py:prepare_lines"]}
{"id": "C84", "title": "What a function item says", "statement": "For a function whose name does not begin with python or fakeroot, IsPython and IsFakeroot say whether the word stands in front of the name, FuncBody is the text between the braces on one line, and FuncNameComplete is the name if its parts are different and not empty.", "quantifier": "all sequences of the words, all names, all bodies", "why_tests_cant": "The expression has nested optional repetition and a greedy body; its groups depend on backtracking over the whole text.", "anchors": ["oelint_parser/parser.py:__regex_func", "oelint_parser/cls_item.py:Function.__init__"]}
{"id": "C85", "title": "FuncBodyRaw is the body", "statement": "FuncBodyRaw is the text between the brace of the header and the last brace of the function, dedented.", "quantifier": "all function items", "why_tests_cant": "The body is found again by text search in Raw, so it depends on every character of name and body.", "anchors": ["oelint_parser/cls_item.py:Function.__init__", "oelint_parser/cls_item.py:Function.FuncBodyRaw"]}
{"id": "C86", "title": "Function names that begin with python or fakeroot", "statement": "IsPython, IsFakeroot and FuncNameComplete are right for every function name, also for names that begin with python or fakeroot.", "quantifier": "all function names", "why_tests_cant": "Ranges over all names; the expression prefers the words over the name.", "anchors": ["oelint_parser/parser.py:__regex_func"]}
{"id": "C87", "title": "get_items of a variable gives the words of its value", "statement": "get_items of a variable returns the words of its value, separated by white space or line continuations, without the quotes. A text given as override takes the place of the value. With versioned, version constraints in parentheses are left out and nothing else.", "quantifier": "all variable items and all override texts", "why_tests_cant": "Ranges over all values; words, quotes, continuations and parentheses combine freely.", "anchors": ["oelint_parser/cls_item.py:Variable.get_items", "oelint_parser/cls_item.py:Item._safe_linesplit"]}
{"id": "C88", "title": "IsMultiLine tells whether the assignment spans lines", "statement": "IsMultiLine of a variable is true exactly if its assignment is written on more than one line.", "quantifier": "all variable items", "why_tests_cant": "Ranges over all values and all ways to continue a line.", "anchors": ["oelint_parser/cls_item.py:Variable.IsMultiLine", "oelint_parser/parser.py:prepare_lines"]}
{"id": "C89", "title": "Overrides of names are found", "statement": "For a name written NAME:OVERRIDE:..., VarName or FuncName is NAME and SubItems are the overrides in order. GetClassOverride is the first class override, GetMachineEntry the first override that is neither an operation nor a class override, GetDistroEntry the first known distro. IsAppend of a function tells whether append or prepend is among them.", "quantifier": "all variable and function items with overrides, all lists of distros", "why_tests_cant": "Ranges over all names and sequences of overrides.", "anchors": ["oelint_parser/cls_item.py:Item.extract_sub", "oelint_parser/cls_item.py:Item.extract_sub_func", "oelint_parser/cls_item.py:Variable.GetMachineEntry", "oelint_parser/cls_item.py:Function.GetMachineEntry", "oelint_parser/cls_item.py:Variable.GetClassOverride", "oelint_parser/cls_item.py:Variable.GetDistroEntry"]}
{"id": "C90", "title": "EXPORT_FUNCTIONS lists its functions", "statement": "get_items of an EXPORT_FUNCTIONS item returns the words of the statement, and get_items_unaliased the same words with the name of the class file in front.", "quantifier": "all FunctionExports items, all class files", "why_tests_cant": "Ranges over all lists of names and spacing between them.", "anchors": ["oelint_parser/cls_item.py:FunctionExports.get_items", "oelint_parser/cls_item.py:FunctionExports.get_items_unaliased"]}
{"id": "C91", "title": "GetLinksForFile lists the linked files", "statement": "GetLinksForFile returns every file linked to the given one, once, and no other.", "quantifier": "all reachable stashes and files", "why_tests_cant": "Depends on all files added and on the links between them.", "anchors": ["oelint_parser/cls_stash.py:Stash.GetLinksForFile"]}
{"id": "C92", "title": "An inherit loads the classes it names, an include the file it names", "statement": "The FilePaths of an Inherit item are exactly the files found for the words of its text, each one in the first of the directories classes, classes-recipe and classes-global (for INHERIT: classes and classes-global) for which FindLocalOrLayer, started in the directory of the file with the statement, finds the word with .bbclass added. FileIncluded of an Include item is what FindLocalOrLayer finds for IncName from the directory of the including file.", "quantifier": "every call of AddFile in every history, every item it adds (those of included files too), every layout of directories and every statement text", "why_tests_cant": "The result depends on the directory layout, on the order of directories and on which file of an include tree has the statement; a test fixes one layout.", "anchors": ["oelint_parser/parser.py:get_items", "oelint_parser/cls_stash.py:Stash.FindLocalOrLayer", "oelint_parser/cls_item.py:Inherit.FilePaths", "oelint_parser/cls_item.py:Include.FileIncluded"]}
{"id": "C93", "title": "Every file an item names is loaded", "statement": "In a stash on which no AddFile raised and from which nothing was removed, for every path in FilePaths of an Inherit or FileIncluded of an Include the stash has items of that file: their texts in order are exactly the statements of the file. The same holds for every file given to AddFile.", "quantifier": "every sequence of AddFile, Finalize and constant changes, any include graph including classes that inherit each other", "why_tests_cant": "The seen-lists that stop repeated reads could drop a file for some order of calls or some cycle of inherits; a test visits a few graphs only.", "anchors": ["oelint_parser/cls_stash.py:Stash.AddFile", "oelint_parser/parser.py:get_items"]}
{"id": "C94", "title": "A missing file is reported", "statement": "When a require or include names a file that is not found, the stash has a MissingFile item for it, and FileIncluded of the Include item is empty exactly in this case.", "quantifier": "every parsed file and every include statement", "why_tests_cant": "That no input ever gives an item of a class is a statement about all inputs.", "anchors": ["oelint_parser/cls_item.py:MissingFile", "oelint_parser/parser.py:get_items"]}
{"id": "C95", "title": "Ignored classes and includes are not loaded", "statement": "No class that CONSTANTS.ClassIgnore lists and no file that CONSTANTS.IncludeIgnore lists is loaded by an inherit or an include that names it.", "quantifier": "every content of the two lists, every statement and every history of calls", "why_tests_cant": "Depends on the combination of list content and statement text; tests ignore one class inherited alone.", "anchors": ["oelint_parser/constants.py:Constants.ClassIgnore", "oelint_parser/constants.py:Constants.IncludeIgnore", "oelint_parser/parser.py:get_items"]}
{"id": "C96", "title": "AddFile raises only for three reasons, otherwise it returns", "statement": "AddFile raises StopIteration only if one of the files it reads (the given one, or one pulled in by inherit, INHERIT, require or include) ends within a continued line or right behind a function header, OSError only if a file is there but cannot be read as text, and a pattern error only if a bbappend has a character in its name that means something in a regular expression. If none of this is the case and the files that require each other can be numbered, AddFile returns, whatever the texts are.", "quantifier": "every file system, stash state and text; constants whose distro and machine names are lists", "why_tests_cant": "That no text whatsoever makes the parser raise is a statement over all texts and all graphs of files.", "anchors": ["oelint_parser/cls_stash.py:Stash.AddFile", "oelint_parser/parser.py:get_items", "oelint_parser/parser.py:prepare_lines"]}
{"id": "C97", "title": "Callers may change the lists they get", "statement": "Whatever a caller does to lists it got from a stash, such as removing from or adding to them, later answers of the stash are the same as if it had left them alone. In particular GetItemsFor, IsImage, IsPackageGroup, AddFile and Finalize never depend on it, and a caller that only reads gets every answer as if nothing were cached.", "quantifier": "every sequence of successful calls, interleaved with arbitrary writes into any list returned so far", "why_tests_cant": "Aliasing between cached and returned lists depends on the order of calls, cache hits and writes, of which there are unboundedly many.", "anchors": ["oelint_parser/cls_stash.py:Stash.GetItemsFor", "oelint_parser/cls_stash.py:Stash.GetRecipes", "oelint_parser/cls_stash.py:Stash.GetLoneAppends", "oelint_parser/cls_stash.py:Stash.GetLinksForFile"]}
{"id": "C98", "title": "ExpandVar shows inline code as written", "statement": "The values returned by ExpandVar show inline code as it is written in the file, never the internal text that stands for it.", "quantifier": "all assignments with inline code", "why_tests_cant": "Every combination of operators and overrides with inline code is needed.", "anchors": ["oelint_parser/cls_stash.py:Stash.ExpandVar", "oelint_parser/cls_stash.py:Stash._ReverseInlineBlock"]}
{"id": "C99", "title": "Stashes do not disturb each other", "statement": "A stash gives the same answers whatever other stashes are made and whatever files are added to them before and between its own calls.", "quantifier": "all interleavings of calls on any number of stashes", "why_tests_cant": "The caches belong to the class and are shared; all interleavings cannot be tried.", "anchors": ["oelint_parser/cls_stash.py:Stash._clear_cached", "oelint_parser/cls_stash.py:Stash.__init__"]}
{"id": "C100", "title": "A recipe of ordinary statements is read as written", "statement": "A file made of assignments (also over several lines), flag assignments, exports, EXPORT_FUNCTIONS, addtask, deltask, functions, def blocks, inherit, INHERIT assignments, include, require, include_all, addpylib, addfragments, unset, comments and empty lines, written in the usual way, is read as exactly one item for each statement, in order, of the right class and with the name, overrides, operator, value, flag, tasks, body and comment that were written, and InFileLine is the line on which the statement begins.", "quantifier": "all sequences of statements, all names, values and bodies of the described form, all states of the stash", "why_tests_cant": "A test reads a few files; which statement a line belongs to depends on all the lines before it.", "anchors": ["oelint_parser/parser.py:get_items", "oelint_parser/parser.py:prepare_lines_subparser"]}
{"id": "C101", "title": "The values of a recipe are those its assignments say", "statement": "After a new stash has read such a recipe, ExpandVar gives for every variable the words of the value that its assignments produce (immediate operators in order, then append and prepend, then remove, from the base set or the name of the file), with every reference replaced by the expanded first definition of its name, the base set or the built-in names, and no entry for variables without value.", "quantifier": "all recipes of the described form, all constants, all variables", "why_tests_cant": "Reading, selecting, sorting, applying and expanding are tested one by one; that they compose to the values of the text for every recipe is not.", "anchors": ["oelint_parser/cls_stash.py:Stash.ExpandVar", "oelint_parser/cls_stash.py:Stash.AddFile", "oelint_parser/parser.py:get_items"]}
{"id": "C102", "title": "Package names, files and named resources are never answered from an outdated table", "statement": "GetFiles, GetValidPackageNames, GetValidNamedResources, GetPackagesDynamic and IsDynamicPackage answer after every history of calls as they would without their tables.", "quantifier": "all histories of AddFile, Append, Remove, Finalize and queries, all file systems", "why_tests_cant": "The answer depends on which queries ran before which updates; a test tries a few orders.", "anchors": ["oelint_parser/cls_stash.py:Stash._clear_cached", "oelint_parser/cls_stash.py:Stash.GetFiles", "oelint_parser/cls_stash.py:Stash.GetValidPackageNames", "oelint_parser/cls_stash.py:Stash.GetPackagesDynamic"]}
{"id": "C103", "title": "The results of queries can be indexed, sliced, added and copied like lists", "statement": "For a list returned by a query, indexing, slices, +, * and copy give what they give on a list of the same items.", "quantifier": "all query results, all indices, slices and other operands", "why_tests_cant": "The methods are inherited, so no test of the project calls them; the claim is about every argument.", "anchors": ["oelint_parser/cls_stash.py:StashList"]}
{"id": "C104", "title": "get_items lists the parts of the statement", "statement": "For every statement of such a file, Raw is the text that was written, and get_items returns its parts: the words of the value of an assignment or of inherit, name, flag, operator and value of a flag assignment, name and value of an export, the names of EXPORT_FUNCTIONS, the task with the tasks it is before and after, the file and the keyword of an include, name and flag of unset, and the lines of a function body (without common margin), of a def block and of comments.", "quantifier": "all sequences of statements of the described form, all states of the stash", "why_tests_cant": "The lists depend on names and values of any text; tests look at a few of them and not at all classes.", "anchors": ["oelint_parser/cls_item.py:Item.get_items", "oelint_parser/cls_item.py:TaskAdd.get_items", "oelint_parser/cls_item.py:FlagAssignment.get_items"]}
{"id": "C105", "title": "Attributes of an item are those its statement shows, and queries find them", "statement": "For every recipe made of ordinary statements (see C100), GetItemsFor and the items AddFile returns agree with the text: each item has the CLASSIFIER of its statement; VarName, RawVarName, SubItem, VarNameComplete, VarNameCompleteNoModifiers, VarOp, VarValue, VarValueStripped of an assignment, Flag/Value/ValueStripped of a flag, Name/Value of export, FuncNames, FuncName and Comment of tasks, IsPython/IsFakeroot/FuncBody of functions, Class/Statement of inherit, IncName/Statement of include, File of include_all, Path/Namespace of addpylib, Path/Variable/Flagged of addfragments, VarName/Flag of unset, FuncName of def, and Raw and RealRaw of all are what is written. In a new Stash that has read one such recipe, GetItemsFor(filename, classifier=c) returns the items of exactly the statements of class c in their order, and GetItemsFor(filename, classifier=c, attribute=a, attributeValue=v) exactly those that show v.", "quantifier": "all recipes of ordinary statements, all files, stashes, classes, attributes and non-empty values", "why_tests_cant": "Tests look at some attributes of some hand-written items; the claim covers every attribute of every statement of every recipe and that no statement is missed or reported twice.", "anchors": ["oelint_parser/cls_item.py:Item.GetAttributes", "oelint_parser/cls_stash.py:Stash.GetItemsFor", "oelint_parser/parser.py:get_items"]}
{"id": "C106", "title": "Recipes with inline code are read as with the results in place", "statement": "For every recipe made of ordinary statements (see C100) with inline code ${@...} anywhere in them, AddFile returns one item for each statement in order; its parts (get_items), class and attributes are those of the statement with the result of each inline code in place (the known helpers evaluated per NegativeInline, d.getVar as reference, !!!inlineblock!!! else), RealRaw is the text in the file, InFileLine counts the lines of the file, and GetItemsFor finds exactly the items of the statements that show what is asked for. ExpandVar gives every variable the value that the assignments say, where code that cannot be evaluated is shown as it is written.", "quantifier": "all recipes of ordinary statements with inline code in them, both settings of NegativeInline, all file systems, constants and (for items) states of the stash", "why_tests_cant": "Tests replace a few inline expressions in isolation; the claim joins any inline code with any statement, line positions, attributes, queries and expansion.", "anchors": ["oelint_parser/parser.py:get_items", "oelint_parser/inlinerep.py:inlinerep", "oelint_parser/cls_stash.py:Stash.ExpandVar", "oelint_parser/cls_stash.py:Stash.GetItemsFor"]}
{"id": "C107", "title": "What an included file or inherited class says takes effect at its statement", "statement": "For every recipe of ordinary statements (see C106) that includes files or inherits classes of such statements, GetItemsFor(recipe) lists the items as if the statements of each file that is brought in stood right after the statement that brings it in, and ExpandVar(recipe) gives every variable the value of the assignments in that order; a bbappend comes after all of them. (It holds for one statement that brings in one file, and fails for two of them or with a bbappend.)", "quantifier": "all recipes, included files and classes of ordinary statements, all places of the statement, both settings of NegativeInline, all constants and file systems", "why_tests_cant": "Tests load a few fixed pairs of files; whether an included assignment wins depends on the line numbers of all files involved, so a wrong order shows only for certain lengths of the files.", "anchors": ["oelint_parser/cls_stash.py:Stash.AddFile", "oelint_parser/parser.py:get_items", "oelint_parser/cls_stash.py:Stash.ExpandVar", "oelint_parser/cls_stash.py:Stash.GetItemsFor"]}
{"id": "C108", "title": "A recipe and its bbappend read as one file, whichever is added first", "statement": "For every recipe and every bbappend that applies to it (see C37), both of ordinary statements without include and inherit, a new Stash to which both are added in either order lists with GetItemsFor(recipe) the items of the statements of the recipe followed by those of the bbappend, and ExpandVar(recipe) gives every variable the value of the assignments in that order.", "quantifier": "all recipes and bbappends of ordinary statements with inline code anywhere in them, both orders of adding, both settings of NegativeInline, all constants and file systems", "why_tests_cant": "Tests add one fixed pair of files in one order; the claim covers all texts, both orders, the line numbers that decide the order, and the values that follow from them.", "anchors": ["oelint_parser/cls_stash.py:Stash.AddFile", "oelint_parser/cls_stash.py:Stash.ExpandVar", "oelint_parser/cls_stash.py:Stash.GetItemsFor"]}
{"id": "C109", "title": "Getters of the constants give what the documentation says", "statement": "Each getter of CONSTANTS in the table of README.md exists and returns the value at its path (FunctionsKnown functions/known, MirrorsKnown replacements/mirrors, ...), an empty dictionary if the path is missing, and raises AttributeError only if a string or list is on the way. After OverrideConstants it returns the given leaf, after AddConstants the old list followed by the given one, after RemoveConstants the old list without the given entries, and it does not change if its path is not given.", "quantifier": "all databases, all getters, all dictionaries given to the three methods", "why_tests_cant": "Tests compare a few getters on the built-in database; a getter with the path of another one or a change that leaks into another path shows only for databases in which the values differ.", "anchors": ["oelint_parser/constants.py:Constants"]}
{"id": "C110", "title": "A file is where it lies, however its path is written", "statement": "AddFile does the same for every way to write the path of one place (relative to the current directory or absolute, with empty parts, . and ..), items of different places have different Origins, the Origin is the absolute path of the place, and no Origin, also of included files, has empty parts, . or .. in it. (It fails for paths with exactly two slashes in front.)", "quantifier": "all paths, current directories, files and states of the stash", "why_tests_cant": "There are unboundedly many ways to write a path; tests use one.", "anchors": ["oelint_parser/cls_stash.py:Stash.AddFile", "oelint_parser/cls_item.py:Item.Origin", "oelint_parser/parser.py:get_items"]}
{"id": "C111", "title": "Several bbappends act one after the other, after their recipe", "statement": "If a recipe and any number of bbappends that apply to it are added with AddFile, in any order, then GetItemsFor of the recipe gives the items of the recipe first and then those of the bbappends, those of each bbappend together and in the order of its statements, and ExpandVar gives the values that the statements give in that order.", "quantifier": "for all recipes, all finite lists of bbappends that apply to it, all orders in which the files are added, all texts of the files (ordinary statements that bring in no other files)", "why_tests_cant": "The result depends on how the lines of all files relate; tests with one bbappend, or with bbappends of one line each, see nothing wrong.", "anchors": ["oelint_parser/cls_stash.py:193-217", "oelint_parser/cls_stash.py:660-760"]}
{"id": "C112", "title": "The fingerprint identifies what was parsed", "statement": "If the fingerprints of two stashes that were filled by AddFile digest the same text, in the same run or in different ones, then both were made with the same settings and hold the same items in the same order: same class, same position in the same file, same raw texts, same inline blocks, same values of all properties of the class (sets compared by members); Line is the same too for items that are not from a bbappend.", "quantifier": "all settings, all files, all sequences of AddFile calls and changes of the constants, all orders of iteration of sets", "why_tests_cant": "A collision needs two different histories whose concatenated item texts coincide; tests compare a few fingerprints and cannot rule out texts that run into each other (quotes, commas, escapes, names of classes).", "anchors": ["oelint_parser/cls_stash.py:Stash.FingerPrint", "oelint_parser/cls_stash.py:Stash.AddFile", "oelint_parser/cls_item.py:Item.__repr__", "oelint_parser/cls_item.py:Item.GetAttributes"]}
{"id": "C113", "title": "The same files give the same fingerprint in every run", "statement": "Two runs that parse the same files with the same settings and end with the same items have the same FingerPrint.", "quantifier": "all files, settings and hash seeds", "why_tests_cant": "The order in which sets are iterated depends on the hash seed of the process, a test sees one seed.", "anchors": ["oelint_parser/cls_stash.py:Stash.FingerPrint", "oelint_parser/cls_item.py:Item.__repr__", "oelint_parser/cls_item.py:Inherit.FilePaths"]}
{"id": "C114", "title": "Slow regular expressions lose no text", "statement": "Whatever regular expressions run into the time limit of RegexRpl while a file is added, if AddFile returns, then the RealRaw texts of the returned items together are the text of the file, in order; InFileLine of every item is one more than the number of newlines before it, Origin is the file, Line and InFileLine increase, and no inline marker is left in Raw. The division of a text into items always ends, with all of the text or with StopIteration. If no search runs into the limit the result is the one without limits.", "quantifier": "all files, all sets of searches that exceed the limit, all settings and stashes, everything the parser may do with a line that matches as long as the item is made for that line", "why_tests_cant": "Timeouts depend on load and input; a test cannot make each of the searches of a run exceed the limit, let alone all combinations.", "anchors": ["oelint_parser/rpl_regex.py:RegexRpl", "oelint_parser/parser.py:prepare_lines", "oelint_parser/parser.py:prepare_lines_subparser", "oelint_parser/parser.py:get_items", "oelint_parser/inlinerep.py:inlinerep", "oelint_parser/cls_stash.py:Stash.AddFile"]}
{"id": "C115", "title": "The items do not depend on the speed of the machine", "statement": "Two runs of AddFile on the same file with the same settings give the same items, whatever time the searches take, or the one that could not finish a search says so.", "quantifier": "all files, all sets of searches that exceed the limit", "why_tests_cant": "A test sees one timing per run.", "anchors": ["oelint_parser/rpl_regex.py:RegexRpl.match", "oelint_parser/rpl_regex.py:RegexRpl.search", "oelint_parser/parser.py:get_items", "oelint_parser/parser.py:prepare_lines_subparser"]}
{"id": "C116", "title": "A file lookup answers for the files that are there", "statement": "FindLocalOrLayer and GetLayerRoot give the answer for the file system as it is at the time of the call, whatever was asked before and however the files changed in between.", "quantifier": "all sequences of lookups on any stashes, changes of the file system and calls that clear the caches", "why_tests_cant": "The answer depends on the history of all earlier lookups with the same arguments; tests look once, in a directory that stays as it is.", "anchors": ["oelint_parser/cls_stash.py:Stash.FindLocalOrLayer", "oelint_parser/cls_stash.py:Stash.GetLayerRoot", "oelint_parser/cls_stash.py:Stash._clear_cached"]}
{"id": "C117", "title": "Queries see what was assigned to items", "statement": "After a caller has assigned to Line, Raw, RealRaw, IncludedFrom, VarValue or FuncBody of an item, every query answers for the items as they are now, whatever was asked before.", "quantifier": "all sequences of calls and assignments, all items and values", "why_tests_cant": "The answer depends on which queries were made before the assignment; tests assign to an item and look at the item.", "anchors": ["oelint_parser/cls_item.py:Variable.VarValue", "oelint_parser/cls_item.py:Function.FuncBody", "oelint_parser/cls_item.py:Item.Line", "oelint_parser/cls_stash.py:Stash.GetItemsFor", "oelint_parser/cls_stash.py:Stash.Reduce"]}
{"id": "C118", "title": "A statement that is complete on its line ends there", "statement": "A comment, an assignment of a text in quotes or a function that is closed on the line it begins on, none of them continued by a backslash, does not become one item with statements on the following lines.", "quantifier": "all texts of such statements, all files around them", "why_tests_cant": "What a line takes with it depends on its text and on all braces behind it; tests write functions over several lines and comments without parentheses.", "anchors": ["oelint_parser/parser.py:prepare_lines_subparser.iterate", "oelint_parser/parser.py:__func_start_regexp__"]}
{"id": "C119", "title": "ExpandVar without a file name", "statement": "Without a file name ExpandVar answers for all files of the stash: the result is a function of the files added, and what it says for a variable is what it says for the file the variable is assigned in.", "quantifier": "all reachable stashes, all attribute filters, all iteration orders of sets", "why_tests_cant": "Which file lends its name and version depends on the iteration order of a set of objects among variables on the same line; tests have one recipe.", "anchors": ["oelint_parser/cls_stash.py:Stash.ExpandVar"]}
{"id": "C120", "title": "An assignment to an item changes that item and that attribute only", "statement": "After item.Line, Raw, RealRaw, VarValue or FuncBody = v for an item of a stash, the item reads v there (and VarValueStripped or FuncBodyStripped the stripped v); after item.IncludedFrom = v it has the files it had and those of v. Every other attribute of the item, its inline blocks, its class, all other items and their order are as before.", "quantifier": "all stashes, items and values", "why_tests_cant": "A test looks at one attribute of one item; a setter that also changes another attribute or another item would pass.", "anchors": ["oelint_parser/cls_item.py:Item.Line", "oelint_parser/cls_item.py:Item.Raw", "oelint_parser/cls_item.py:Item.RealRaw", "oelint_parser/cls_item.py:Item.IncludedFrom", "oelint_parser/cls_item.py:Variable.VarValue", "oelint_parser/cls_item.py:Function.FuncBody"]}
{"id": "C121", "title": "Expansion is complete", "statement": "Expanding the result of ExpandTerm again, with the same file, stash and spare names, changes nothing.", "quantifier": "all texts, files, stashes and lists of spare names", "why_tests_cant": "Values are put next to other text, so new references may arise for some combination of text and values; a test has fixed ones.", "anchors": ["oelint_parser/cls_stash.py:Stash.ExpandTerm"]}
{"id": "C122", "title": "Spare names stay unexpanded", "statement": "ExpandTerm(file, value, spare=names) gives what it would give if the variables in names had no value: references to them stay, wherever they come from.", "quantifier": "all texts, stashes and lists of spare names", "why_tests_cant": "The names may occur in any definition the text refers to, directly or through others.", "anchors": ["oelint_parser/cls_stash.py:Stash.ExpandTerm", "oelint_parser/cls_stash.py:Stash.GetValidPackageNames"]}
{"id": "C123", "title": "The recipe's last assignment has the last word", "statement": "An assignment X = \"v\" of a recipe behind all its require, include and inherit statements decides what ExpandVar gives for X, whatever the included files and inherited classes assign to X, if no _append, _prepend or _remove of X exists and no later statement of the recipe is about X.", "quantifier": "all recipes, included files and classes", "why_tests_cant": "Whether items of included files sort before the statement depends on the number of lines of every file involved; a test has one combination.", "anchors": ["oelint_parser/cls_stash.py:Stash.ExpandVar", "oelint_parser/cls_stash.py:Stash.AddFile", "oelint_parser/parser.py:get_items"]}
{"id": "C124", "title": "A list shows what passed every filter applied to it", "statement": "Whatever lists a caller gets by GetItemsFor, narrows by reduce (in place) or copies by Stash.Reduce, in any order, each list holds exactly the items of the stash that match all the filters its content went through, once each and sorted by Line; narrowing one list leaves the others, copies among them, and the stash as they are.", "quantifier": "all reachable stashes and sequences of GetItemsFor, reduce and Reduce calls on any number of lists", "why_tests_cant": "The combinations of filters and the order of calls on several lists are unbounded.", "anchors": ["oelint_parser/cls_stash.py:Stash.StashList.reduce", "oelint_parser/cls_stash.py:Stash.Reduce", "oelint_parser/cls_stash.py:Stash.GetItemsFor"]}
{"id": "C125", "title": "Variables are found by their value as in the README", "statement": "GetItemsFor(attribute=VarName, attributeValue=names).reduce(attribute=VarValue, attributeValue=[v]) with v written without quotes, as in the README, gives exactly the assignments of v to one of the names, whichever quotes the recipe uses.", "quantifier": "all reachable stashes, lists of names and values without double quotes", "why_tests_cant": "Any value and any layout of the assignment may occur; tests fix some.", "anchors": ["oelint_parser/cls_stash.py:Stash.StashList.reduce", "oelint_parser/cls_item.py:Variable.VarValue", "oelint_parser/cls_item.py:Variable.VarValueStripped", "README.md"]}
{"id": "C126", "title": "A query for a file shows nothing foreign", "statement": "Every item that GetItemsFor(filename=f) returns is of f itself, of a file that f or a file coming with it includes or inherits, or of a bbappend that applies to f or to such a file.", "quantifier": "every stash filled by AddFile calls that did not raise, with Finalize and changes of the constants in between, every file and filter", "why_tests_cant": "Links come from include trees, from file names and from Finalize, in any order; that nothing else is linked is a claim about all of them.", "anchors": ["oelint_parser/cls_stash.py:Stash.AddFile", "oelint_parser/cls_stash.py:Stash.Finalize", "oelint_parser/cls_stash.py:Stash.GetItemsFor"]}
{"id": "C127", "title": "A backslash in the middle of a line is part of the value", "statement": "VarValue of an assignment on one line is the text written behind the operator, backslashes included. (False: every backslash is shown as an escape character, at which SafeLineSplit divides words; a pattern such as ^libx\\.y in PACKAGES_DYNAMIC becomes the two patterns ^libx and .y.) VarValue is the written text with every backslash shown as an escape character, so it is the written text exactly if there is none in it.", "quantifier": "all names, operators and values of assignments on one line, all files around them", "why_tests_cant": "Tests use values without backslashes or continued lines only.", "anchors": ["oelint_parser/parser.py:prepare_lines_subparser", "oelint_parser/cls_stash.py:Stash.SafeLineSplit", "oelint_parser/cls_stash.py:Stash.IsDynamicPackage"]}
{"id": "C128", "title": "IsFromAppend tells what a bbappend added", "statement": "An item that a query for a recipe shows because of a bbappend says IsFromAppend. (False: the items of a file that the bbappend requires do not.) IsFromAppend is true exactly for the items of files whose name ends in .bbappend; if no statement names a bbappend, every such item that GetItemsFor(filename=f) returns is of f itself or of a bbappend that is matched to f or to a file that comes with it.", "quantifier": "all files, histories of AddFile and Finalize, and queries for a file", "why_tests_cant": "Depends on which files are linked in which history; tests look at single items.", "anchors": ["oelint_parser/cls_item.py:Item.IsFromAppend", "oelint_parser/cls_stash.py:Stash.GetItemsFor"]}
{"id": "C129", "title": "The words of a value can be expanded one by one", "statement": "[ExpandTerm(f, y, objref=x) for y in x.get_items()], the form the README gives, lists for every word of the value of x its expanded text: ExpandTerm(f, x.VarValueStripped, objref=x) is the value with every word replaced by the text at its position in that list. (False if a word is inline code: it becomes the whole value of x.)", "quantifier": "all variables, values, stashes, files and lists of spare names", "why_tests_cant": "References may depend on each other through the memory of one call; a test has fixed values.", "anchors": ["oelint_parser/cls_stash.py:Stash.ExpandTerm", "oelint_parser/cls_item.py:Variable.get_items"]}
{"id": "C130", "title": "Changed constants count at once", "statement": "Whatever calls of a stash, AddConstants, RemoveConstants and OverrideConstants were made before, GetItemsFor, GetRecipes, GetLoneAppends, GetConfFiles, GetLinksForFile, IsImage and IsPackageGroup answer as the items and the constants are now, under the restrictions of C33. (False for IsImage: a file asked about before the constants changed keeps its answer until the next update of the stash.)", "quantifier": "all sequences of calls and of changes of the constants, all databases", "why_tests_cant": "A wrong answer needs a certain order of queries and changes; a test runs few of them.", "anchors": ["oelint_parser/cls_stash.py:Stash.IsImage", "oelint_parser/cls_stash.py:Stash._clear_cached", "oelint_parser/constants.py:Constants.AddConstants"]}
{"id": "C131", "title": "Constants matter only where they are meant to", "statement": "AddFile returns the same items and leaves the same stash behind with any two constant databases that agree on FunctionsKnown, ClassIgnore, IncludeIgnore and SetsBase (and may differ elsewhere in anything); ExpandTerm, ExpandVar, GetValidPackageNames, GetPackagesDynamic and IsDynamicPackage depend on SetsBase only; GetScrComponents and GetValidNamedResources on MirrorsKnown only; IsImage on ImagesClasses and ImagesVariables only. Each of the four sets that AddFile reads does make a difference.", "quantifier": "all pairs of databases of the documented shape, all files, all stashes, all nestings of includes and inherits", "why_tests_cant": "That something is never read, however files include each other, is a statement about all runs under all databases; a test compares two databases on one file.", "anchors": ["oelint_parser/parser.py:get_items", "oelint_parser/constants.py:Constants", "oelint_parser/cls_stash.py:Stash.ExpandTerm", "oelint_parser/cls_stash.py:Stash.GetScrComponents", "oelint_parser/cls_stash.py:Stash.IsImage"]}
{"id": "C132", "title": "Known mirrors are replaced at once, whatever their order", "statement": "GetScrComponents replaces every occurrence of the name of a known mirror by what it stands for, and nothing else: the answer is that for the text read from left to right with the mirrors put in. The order of MirrorsKnown does not matter, and no name of a mirror is left, also none that the replacement itself brings about. This holds for the mirrors that come with the package and for all mirrors whose names are references like ${X} and whose values contain no name of a mirror and have, as every URL does, a character that no name has. (For values that refer to other mirrors it is false: the order decides.)", "quantifier": "all texts, all sets of mirrors of that kind in any order", "why_tests_cant": "Sequential replacement can go wrong where a replaced text and its surroundings together form another name; a test tries a few texts with one order.", "anchors": ["oelint_parser/cls_stash.py:Stash._replace_with_known_mirrors", "oelint_parser/cls_stash.py:Stash.GetScrComponents", "oelint_parser/data/const-default.json"]}
{"id": "C133", "title": "Finalize only adds", "statement": "Finalize, whether it succeeds or raises, keeps every item in its place with every attribute; only IncludedFrom grows. No known file and no link is lost. Every item that a query gave before is given after; a query without a file name or with nolink gives no other items than before. GetRecipes, GetConfFiles and GetBBClasses answer as before, and GetLoneAppends never gets longer.", "quantifier": "all stashes reached by any calls, all queries, also when Finalize fails", "why_tests_cant": "It relates two answers to every query on every stash, including states in which Finalize stops half way; tests look at a few links after Finalize.", "anchors": ["oelint_parser/cls_stash.py:Stash.Finalize", "oelint_parser/cls_stash.py:Stash.GetItemsFor", "oelint_parser/cls_stash.py:Stash.GetLoneAppends"]}
{"id": "C134", "title": "negative_inline matters only for the helpers the parser knows", "statement": "If no file contains a call of a helper of bb.utils or oe.utils (more exactly: the text .utils.), a Stash with negative_inline does the same as one without: AddFile returns the same items or raises the same exception, also for the files it pulls in and with any other inline code, Finalize likewise, and all queries and values are the same. Only the fingerprint differs, in the entry of the switch itself.", "quantifier": "all file systems without such texts, files, offsets, stashes that differ in the switch only, lists of added files, queries and terms", "why_tests_cant": "Tests compare the two settings on a few texts; the claim is that no other text, however it is nested, split or included, is read differently.", "anchors": ["oelint_parser/inlinerep.py:271-298", "oelint_parser/parser.py:173-187", "oelint_parser/cls_stash.py:157-229"]}
{"id": "C135", "title": "RemoveConstants takes back what AddConstants added", "statement": "AddConstants(d) followed by RemoveConstants(d) leaves the constants as they were: every getter and GetByPath answer as before.", "quantifier": "all databases and dictionaries of the documented shape", "why_tests_cant": "A test adds and removes one entry; whether nothing else is lost depends on all lists, nested dictionaries and entries that were there before.", "anchors": ["oelint_parser/constants.py:44-59", "oelint_parser/constants.py:61-76"]}
{"id": "C136", "title": "Overriding or removing constants again changes nothing", "statement": "OverrideConstants with a dictionary that was just applied, and RemoveConstants with one that was just removed, succeed and leave the constants exactly as they are.", "quantifier": "all databases and dictionaries, whatever kinds of values meet", "why_tests_cant": "Tests call each once on small dictionaries; the claim is about all nestings and mixtures of lists, texts and dictionaries.", "anchors": ["oelint_parser/constants.py:61-76", "oelint_parser/constants.py:78-93"]}
{"id": "C137", "title": "A statement is read the same wherever it stands", "statement": "Two items with the same RealRaw, from any two files, any two stashes with the same negative_inline setting and any file systems, have the same Raw and the same InlineBlocks. If they also have the same override syntax (IsNewStyleOverrideSyntax), they are of the same class and all their attributes that come from the statement are equal, whatever stands before or behind it, in whatever file, at whatever line. Left out are the split of a function name, which depends on the known functions in the constants, the files found for an inherit or include, and an include that one of the stashes ignores.", "quantifier": "all pairs of files, stashes, file systems, positions", "why_tests_cant": "Relates two readings in arbitrary surroundings.", "anchors": ["oelint_parser/parser.py:get_items", "oelint_parser/parser.py:prepare_lines_subparser", "oelint_parser/cls_item.py:Item.extract_sub"]}
{"id": "C138", "title": "The order in which constants are added or removed does not matter for what is known", "statement": "After any number of AddConstants calls every list of the database has the same entries, equally often, in whatever order the calls were made, the old entries first; after any number of RemoveConstants calls every list is the same in whatever order they were made. One AddConstants and one RemoveConstants give the same list in either order if no entry is given to both. The calls give lists where the database has lists.", "quantifier": "all databases, all sequences of calls and their permutations, all paths", "why_tests_cant": "Ranges over all permutations of call sequences.", "anchors": ["oelint_parser/constants.py:Constants.AddConstants", "oelint_parser/constants.py:Constants.RemoveConstants"]}
{"id": "C139", "title": "Statements in front only move what follows, statements behind change nothing", "statement": "If complete statements are put in front of the text of a file, AddFile returns their items and then the items of the text alone, each with the same RealRaw, Raw and InlineBlocks, with InFileLine larger by the number of lines put in front, and, as long as the override syntax is the same, of the same class with the same attributes (as in C137). If two files begin with the same statements, the items of these agree in the same way, with equal InFileLine, whatever is behind them. This holds in whatever files, stashes with the same negative_inline setting and file systems.", "quantifier": "all texts, all statements in front and behind, all pairs of stashes and file systems", "why_tests_cant": "Relational property over all pairs of texts.", "anchors": ["oelint_parser/parser.py:prepare_lines", "oelint_parser/parser.py:get_items", "oelint_parser/cls_stash.py:Stash.AddFile"]}
{"id": "C140", "title": "A statement converted to the new override syntax says the same", "statement": "An assignment or function whose name is written with underscores in front of its overrides (A_append) and the same one written with colons (A:append) have the same VarName or FuncName and the same SubItems, and do the same to the values of the variables.", "quantifier": "all names, overrides, operators and values, all files and stashes", "why_tests_cant": "Names have any number of parts; whether a part counts as name or override depends on its first character, on the parts before it and on the known functions.", "anchors": ["oelint_parser/cls_item.py:Item.extract_sub", "oelint_parser/cls_item.py:Item.extract_sub_func", "oelint_parser/cls_stash.py:Stash.ExpandVar"]}
{"id": "C141", "title": "An expansion depends only on the variables it refers to", "statement": "ExpandTerm of a text gives the same in two stashes (for instance before and after adding, removing or changing statements) if every variable that the text refers to, directly or through the definitions of such variables, has the same definitions in both; whatever else the stashes hold does not matter. The value that ExpandVar gives a variable is the same in both, too, if moreover the statements about the variable do the same in both.", "quantifier": "all texts, spare names, files and reachable stashes over the same file system", "why_tests_cant": "Ranges over all pairs of stashes and all chains of definitions, cyclic ones included.", "anchors": ["oelint_parser/cls_stash.py:Stash.ExpandTerm", "oelint_parser/cls_stash.py:Stash.ExpandVar"]}
