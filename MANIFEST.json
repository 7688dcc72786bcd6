{"claims": [
{"property":"C01","status":"proved","theorems":["C01_lossless"],"note":""},
{"property":"C02","status":"proved","theorems":["C02_infileline"],"note":""},
{"property":"C03","status":"proved","theorems":["C03_order"],"note":""},
{"property":"C04","status":"proved","theorems":["C04_origin"],"note":""},
{"property":"C05","status":"proved","theorems":["C05_terminates","C05_no_marker"],"note":""},
{"property":"C06","status":"partial","theorems":["C06_stop_iff","C06_no_stop","C06_waiting","C06_refuted"],"note":"The title is false (witness in C06_refuted); the exact characterisation is proved, C06_waiting in terms of the statements of the file only."},
{"property":"C07","status":"proved","theorems":["C07_sticky"],"note":""},
{"property":"C08","status":"proved","theorems":["C08_config"],"note":""},
{"property":"C09","status":"proved","theorems":["C09_comments"],"note":"both directions, for every item of every stash filled by the parser"},
{"property":"C10","status":"proved","theorems":["C10_assignment","C10_name"],"note":"names that are statement words excluded; the raw name, operator and value are those of the item made by the constructor; how the name is split into parts is C19/C20"},
{"property":"C100","status":"proved","theorems":["C100_statements"],"note":"From the text of the file to the items; statements with inline code are not among those considered. Of the name of unset only the class is claimed if it is longer than one character (C13); an include that the constants say to ignore is an item of no class."},
{"property":"C101","status":"proved","theorems":["C101_values"],"note":"From the text of the file to the values; one file (statements that name other files find none), names without references, no inline code, unset of names of one character (C13). Removals from a variable without any value are excluded."},
{"property":"C102","status":"partial","theorems":["C102_cached_partial","C102_refuted"],"note":"Proved with the restrictions of C33; for GetPackagesDynamic and IsDynamicPackage only if no update follows, since their tables are never cleared (C102_refuted)."},
{"property":"C103","status":"partial","theorems":["C103_get_partial","C103_refuted"],"note":"Indexing works; every slice, +, * and copy raises TypeError (C103_refuted)."},
{"property":"C104","status":"proved","theorems":["C104_parts"],"note":"For functions with a reference in the name or a brace at the end of the body see C85, for values of flags with quotes of their own C87, for unset of longer names C13."},
{"property":"C105","status":"proved","theorems":["C105_attributes","C105_queries","C106_position"],"note":"Origin, Line, InFileLine and IsFromClass in C106_position (recipes with and without inline code). Before, After, SubItems, FilePaths and InlineBlocks are lists, which no query value equals; FuncName and FuncNameComplete of functions: C67, C84. An include the constants say to ignore is an Item (C95), so queries for these two classes are left out when the recipe has includes."},
{"property":"C106","status":"proved","theorems":["C106_statements","C106_parts","C106_attributes","C106_position","C106_queries","C106_values"],"note":"For recipes made of the statements of Spec_Recipe.v (see C100), each line group being by itself one statement before and after the inline code is evaluated; Line for files that add no others; values by ExpandVar in a new stash, where values with code that is not evaluated are on one line."},
{"property":"C107","status":"partial","theorems":["C107_items_partial","C107_values_partial","C107_several_partial","C107_refuted","C107_append_refuted","C107_inherit_refuted"],"note":"Proved for one include or inherit that brings in one file that is not a bbappend and brings in no others; for one inherit with several classes their statements all lie at the statement, mixed by their lines in their own files (C107_several_partial), so that the class named first may win (C107_inherit_refuted). False for two includes (C107_refuted: the second one may take effect before the first) and together with a bbappend (C107_append_refuted: the include may win over the bbappend)."},
{"property":"C108","status":"proved","theorems":["C108_items","C108_values"],"note":"Recipe and bbappend of ordinary statements with inline code, no include or inherit in them (with those it is false, see C107_append_refuted)."},
{"property":"C109","status":"proved","theorems":["C109_all","C109_getters","C109_base","C109_lists","C109_change"],"note":"All databases, also those of other shapes than documented."},
{"property":"C11","status":"proved","theorems":["C11_flags"],"note":""},
{"property":"C110","status":"partial","theorems":["C110_lies","C110_same_partial","C110_place_partial","C110_apart_partial","C110_origin","C110_refuted"],"note":"Proved for paths that do not begin with exactly two slashes, and false for those (C110_refuted). Symbolic links are not modelled. The current directory is a normalised absolute path, as os.getcwd gives it."},
{"property":"C111","status":"partial","theorems":["C111_items_partial","C111_values_partial","C111_refuted"],"note":"The items of the recipe come first and those of each bbappend keep their order, for any number of bbappends and any order of adding them (C111_items_partial); values accordingly if the lines of the assignments differ (C111_values_partial). False in full: the statements of two bbappends are mixed by their line numbers, so that the values are those of neither order (C111_refuted)."},
{"property":"C112","status":"proved","theorems":["C112_identifies"],"note":"The digested text determines settings and items (SHA-1 itself and UTF-8 are not modelled); uniquely decodable texts of all values."},
{"property":"C113","status":"partial","theorems":["C113_same_partial","C113_refuted"],"note":"False: an inherit that finds several classes shows a set, whose order depends on the hash seed. Proved for items without such an inherit and without bbappends."},
{"property":"C114","status":"proved","theorems":["C114_lossless","C114_positions","C114_division","C114_handler","C114_in_time"],"note":"an arbitrary clock says which searches of the division into lines, the inline evaluators, the patterns and the linking of bbappends give up; what is done with a matching line is an arbitrary handler_ok function, which the handler of the model is"},
{"property":"C115","status":"partial","theorems":["C115_refuted","C115_raises_refuted","C115_text_partial"],"note":"refuted: a search that gives up counts as no match; only the text of all items together is independent of the time"},
{"property":"C116","status":"partial","theorems":["C116_refuted","C116_first_partial","C116_same_partial"],"note":"refuted: the tables are never cleared; the answer is that of the first call with the same stash and arguments, hence right as long as the files stay as they are"},
{"property":"C117","status":"partial","theorems":["C117_refuted","C117_changed_partial"],"note":"refuted for attributes compared before the assignment; every other query, and after any update of the stash every query, answers for the items as they are"},
{"property":"C118","status":"partial","theorems":["C118_refuted","C118_swallow","C118_line_partial"],"note":"refuted for lines with an empty pair of parentheses in front of a brace, which take all that follows (C118_swallow); every other line that is no comment, definition or continued is an item of its own"},
{"property":"C119","status":"partial","theorems":["C119_refuted","C119_values","C119_one_partial"],"note":"False for several files: the variables of all files are mixed by line, and the order of a set decides which file gives PN, PV and BPN (C119_refuted). Proved: what the result is in every case (C119_values), and that the file name may be left out if all that is found is from one file."},
{"property":"C12","status":"proved","theorems":["C12_inherit","C12_inherit_all","C12_functions","C12_deltask","C12_addtask","C12_export","C12_export_name","C12_addpylib","C12_addfragments","C12_include_all","C12_include","C12_def"],"note":"canonical spelling as defined in Spec_Parse.v; further statements (include, include_all, addfragments, def) beyond the ones named"},
{"property":"C120","status":"proved","theorems":["C120_set"],"note":"Over the items of a stash as values with an identity; the setters mutate the object that the stash holds."},
{"property":"C121","status":"partial","theorems":["C121_again_partial","C121_refuted"],"note":"Proved for texts where every dollar sign belongs to a reference or stands before another character than a brace or dollar sign, with definitions that are not cyclic and no inline code; false for a dollar sign in front of a value that begins with a brace (C121_refuted)."},
{"property":"C122","status":"partial","theorems":["C122_spare_partial","C122_refuted"],"note":"Proved if no definition refers to a spare name; false otherwise, since spare is not handed on to the expansion of definitions (C122_refuted)."},
{"property":"C123","status":"partial","theorems":["C123_last_partial","C123_refuted"],"note":"Proved if the added files add no further ones and no bbappend takes part, for any number of includes and inherits; false if an included file includes a file itself (C123_refuted)."},
{"property":"C124","status":"proved","theorems":["C124_lists"],"note":"For all reachable stashes and all sequences of calls on any number of lists."},
{"property":"C125","status":"partial","theorems":["C125_value_partial","C125_refuted"],"note":"The filter of the README on VarValue finds only values written without quotes, so it misses the assignment that the README shows; and VarValueStripped misses values in single quotes (refuted). Proved: VarValueStripped finds every assignment of the value in double quotes, and nothing but assignments of the value within blanks and double quotes."},
{"property":"C126","status":"partial","theorems":["C126_links","C126_partial","C126_refuted"],"note":"Proved with the rule the code has for names: the name of the recipe fits that of the bbappend as a whole, or, if the bbappend was added first, its begin does. Refuted for that second case, where bitbake would not apply the bbappend."},
{"property":"C127","status":"partial","theorems":["C127_shown_partial","C127_kept_partial","C127_refuted"],"note":"False: every backslash becomes an escape character, also in the middle of a line (parser.py:186); the part proved says exactly which value is shown for assignments on one line."},
{"property":"C128","status":"partial","theorems":["C128_file","C128_shown_partial","C128_refuted","C128_case"],"note":"False in full: an item that a recipe only has because its bbappend requires a file says that it is not from a bbappend. Proved: IsFromAppend tells exactly whether the file of the item is a bbappend, and every such item that a query for a file shows is of the file itself or of a bbappend for it or for a file that comes with it (if no statement names a bbappend)."},
{"property":"C129","status":"partial","theorems":["C129_each_partial","C129_case","C129_refuted"],"note":"False with inline code: the word that is inline code becomes the whole value of the variable (C129_refuted). Proved for values in double quotes without inline code, with the texts of C121 (every dollar sign belongs to a reference or stands before another character than a brace or dollar sign, definitions not cyclic)."},
{"property":"C13","status":"partial","theorems":["C13_refuted","C13_first","C13_flag","C13_short_partial"],"note":"false of the code: only the first character is read; exact behaviour proved for all names and flags, the claim itself for names of one character"},
{"property":"C130","status":"partial","theorems":["C130_constants_partial","C130_refuted"],"note":"The claim is false for IsImage asked again for a file whose answer the new constants change; proved for all other histories, with the restrictions of C33."},
{"property":"C131","status":"proved","theorems":["C131_add","C131_values","C131_uri","C131_image","C131_each"],"note":"for databases whose places read are not below a leaf; without the caches of GetScrComponents and the like (see C130 for IsImage)"},
{"property":"C132","status":"proved","theorems":["C132_stands","C132_order","C132_clean","C132_shipped","C132_nested_refuted"],"note":"for mirrors of the kind stated, those of the package among them; C132_nested_refuted shows why values with other mirrors are left out"},
{"property":"C133","status":"proved","theorems":["C133_items","C133_links","C133_queries","C133_files"],"note":"without the caches (see C33); the order of items on the same line is that of a set (C29)"},
{"property":"C134","status":"proved","theorems":["C134_add","C134_history","C134_answers"],"note":"no_helpers is a condition on the raw text of every file that can be read."},
{"property":"C135","status":"partial","theorems":["C135_back_partial","C135_left","C135_refuted"],"note":"Proved for entries that are new in existing lists, with equality of the whole database; false for entries that were there before, which are lost (C135_refuted). What is left in general is said by C135_left."},
{"property":"C136","status":"proved","theorems":["C136_override","C136_remove"],"note":"Dictionaries have every key once, as in Python."},
{"property":"C137","status":"proved","theorems":["C137_text","C137_same"],"note":"All classes of items; the split of function names, found files and ignored includes are left out as the statement says."},
{"property":"C138","status":"proved","theorems":["C138_add","C138_remove","C138_mixed"],"note":"For the lists of the database; the calls succeed, which may itself depend on the order if a new path gets values of different kinds (see C54_fails)."},
{"property":"C139","status":"proved","theorems":["C139_front","C139_behind"],"note":"With the exceptions of C137 for function names, found files and ignored includes."},
{"property":"C14","status":"proved","theorems":["C14_cover","C14_function","C14_plain","C14_code_refuted"],"note":"C14_cover gives the lines of the item for every body; C14_function: it is a Function, and unless the name begins with python or fakeroot (C86) its parts are those written, with the results of inline code in the body. If results form further code, it is false: C14_code_refuted."},
{"property":"C140","status":"partial","theorems":["C140_variable_partial","C140_function_partial","C140_history_partial","C140_refuted"],"note":"False in general: of a name in lower case with an underscore (systemd_unitdir_append) the old syntax takes only the first part as the name. Proved for variables whose name parts do not begin like overrides, and for functions whose override is told by a list or by the known functions. Values: the statements do the same if all overrides are operations; with other overrides the names in the result of ExpandVar are written with the delimiter."},
{"property":"C141","status":"proved","theorems":["C141_agree","C141_items","C141_values"],"note":"Also for cyclic definitions, inline code and read_file; of a text that calls getVar every name that occurs in it counts as referred to. The two stashes may belong to runs with different orders of sets. C141_values is for plain names and, like C46, leaves out a remove on a variable that has no value."},
{"property":"C15","status":"proved","theorems":["C15_contains"],"note":"Raw of an item; arguments without parentheses, commas and line feeds; the block may stand anywhere between texts without other blocks."},
{"property":"C16","status":"proved","theorems":["C16_helpers","C16_text"],"note":"C16_helpers: the evaluation of one block for every helper; C16_text: the text of an item with any number of blocks of any kind."},
{"property":"C17","status":"proved","theorems":["C17_restored","C17_expand","C17_twice_refuted"],"note":"One-line values; no block twice (with equal blocks it is false: C17_twice_refuted)."},
{"property":"C18","status":"proved","theorems":["C18_words","C18_lossless"],"note":""},
{"property":"C19","status":"proved","theorems":["C19_split"],"note":""},
{"property":"C20","status":"proved","theorems":["C20_complete","C20_refuted"],"note":"Round trip proved exactly under the stated proviso; the unconditional round trip is refuted by a witness."},
{"property":"C21","status":"proved","theorems":["C21_immediate","C21_append","C21_operator","C21_nomod"],"note":""},
{"property":"C22","status":"proved","theorems":["C22_stripped"],"note":""},
{"property":"C23","status":"proved","theorems":["C23_version","C23_plain","C23_hidden"],"note":"Any directory or none; the name may contain dots, the version underscores. Dots in front of the name do not begin an extension."},
{"property":"C24","status":"proved","theorems":["C24_base","C24_all"],"note":"Exact description of the result; C24_all shows that every name has the form C24_base speaks about. The name has no newline."},
{"property":"C25","status":"proved","theorems":["C25_nearest","C25_unique"],"note":"Exact for every file system; the path is absolute and normalised."},
{"property":"C26","status":"proved","theorems":["C26_find"],"note":"Exact for every file system; the local directory is absolute and normalised."},
{"property":"C27","status":"proved","theorems":["C27_ends","C27_fuel","C27_forever","C27_refuted","C27_add_refuted"],"note":"Ends for every path without two leading slashes, endless otherwise (also when adding such a file)."},
{"property":"C28","status":"proved","theorems":["C28_exact","C28_reduce"],"note":"All states reachable by the API (steps), any query, any set order."},
{"property":"C29","status":"proved","theorems":["C29_hash_order","C29_refuted"],"note":"Same items for any two set orders, same list if lines differ; C29_refuted shows that ties do depend on the order."},
{"property":"C30","status":"proved","theorems":["C30_compose"],"note":"Membership of the composition, commutation up to order of ties, idempotence."},
{"property":"C31","status":"partial","theorems":["C31_value","C31_refuted"],"note":"Holds for values that are not falsy; refuted for falsy ones (no filter at all)."},
{"property":"C32","status":"proved","theorems":["C32_recipes","C32_classes","C32_conf","C32_lone"],"note":""},
{"property":"C33","status":"partial","theorems":["C33_cached_partial","C33_refuted"],"note":"false for GetBBClasses, for Finalize after a query and for updates that raise (C33_refuted); proved otherwise for the tables in Cache.v; for the other decorated methods see C102"},
{"property":"C34","status":"partial","theorems":["C34_append","C34_remove","C34_remove_iff","C34_refuted"],"note":"Append and successful Remove are exact; all-or-nothing is refuted."},
{"property":"C35","status":"proved","theorems":["C35_finalize"],"note":"For histories of AddFile, Remove, Finalize, constant changes, and Append of items of parsed files (see C68 for other items)."},
{"property":"C36","status":"proved","theorems":["C36_once"],"note":"For every API history in between and every spelling with the same absolute path."},
{"property":"C37","status":"proved","theorems":["C37_recipe_first","C37_append_first","C37_always","C37_order","C37_case_always"],"note":"For bbappends that apply by name (same name or percent wildcard) with names free of pattern characters; for other names see C38 and C70. C37_always and C37_order hold in every stash filled by AddFile with offsets that are not negative, with any links, after Remove, Finalize and changes of the constants, and after calls that raised."},
{"property":"C38","status":"partial","theorems":["C38_both_orders_partial","C38_refuted"],"note":"Both orders link for names without pattern characters; in general false: loaded first, bar.bbappend is linked to barbar.bb."},
{"property":"C39","status":"partial","theorems":["C39_between_partial","C39_before_partial","C39_refuted","C39_nested_refuted","C39_append_refuted"],"note":"Holds when one statement of the file adds files that add no further ones and no bbappend takes part. For any number of such statements the items of an included file lie before every statement behind the include, at a line given exactly (C39_before_partial). False for a second include (its items may lie before the include), for a file included by an included file and for includes of a bbappend (witnesses)."},
{"property":"C40","status":"partial","theorems":["C40_ends","C40_refuted"],"note":"AddFile ends for every file system on which the .inc, .bb and .conf files that are pulled in can be numbered downwards; classes may inherit each other in any way. A file that requires itself is never done (witness, for every fuel)."},
{"property":"C41","status":"partial","theorems":["C41_sound","C41_two_partial","C41_back_partial","C41_repeat_partial","C41_refuted","C41_class_refuted"],"note":"Only reached files are linked; up to two links, or all if links go to earlier files; n calls give 2^n links. False in general: three links, and a class inherited by two recipes."},
{"property":"C42","status":"proved","theorems":["C42_ends"],"note":"Termination of ExpandTerm for every stash and value; Python's recursion limit is not modelled."},
{"property":"C43","status":"proved","theorems":["C43_plain"],"note":""},
{"property":"C44","status":"proved","theorems":["C44_kept"],"note":""},
{"property":"C45","status":"proved","theorems":["C45_expand","C45_exact","C45_refuted"],"note":"Holds for the first definition in the order of the query result; C45_refuted: with two definitions on the same line (for instance from two classes) the order, and so the value, depends on set iteration."},
{"property":"C46","status":"proved","theorems":["C46_assigned"],"note":""},
{"property":"C47","status":"proved","theorems":["C46_assigned","C47_refuted"],"note":"C46_assigned covers deferred operations; C47_refuted: for a variable without value a remove makes append and prepend come out in the wrong place."},
{"property":"C48","status":"proved","theorems":["C48_unset","C48_flag","C46_assigned"],"note":""},
{"property":"C49","status":"partial","theorems":["C49_ignored_partial","C49_refuted"],"note":"The claim is false: other spacing makes the assignment be ignored by ExpandVar. Proved: such a statement has no effect at all on the value."},
{"property":"C50","status":"proved","theorems":["C50_packages","C50_ends"],"note":""},
{"property":"C51","status":"proved","theorems":["C51_named","C58_options"],"note":""},
{"property":"C52","status":"proved","theorems":["C52_image","C52_group"],"note":"For databases of the documented shape (lists of non-empty names) at images/known-classes and images/known-variables."},
{"property":"C53","status":"proved","theorems":["C53_path","C53_override","C53_fails"],"note":"Includes when it raises. The argument has unique keys, as every Python dict."},
{"property":"C54","status":"proved","theorems":["C54_add","C54_fails"],"note":"Also for strings (concatenated) and strings added to lists (character by character)."},
{"property":"C55","status":"partial","theorems":["C55_remove","C55_leaf","C55_ok","C55_refuted"],"note":"Lists and frame proved, and what becomes of every kind of value (C55_leaf); that other leaves keep their type is false: a string or dictionary becomes a list."},
{"property":"C56","status":"partial","theorems":["C56_call","C56_separate_partial","C56_refuted"],"note":"One call changes only objects of the database and equals the merge of values; sharing never arises while the dictionaries give no new path (any history of calls). With a new path the caller and the database share objects (C56_refuted). A dictionary changed while it is iterated is not modelled."},
{"property":"C57","status":"proved","theorems":["C57_add","C57_other"],"note":"The hashed texts; SHA-1 itself is not modelled. e_repr (repr of an item) is any function of the item."},
{"property":"C58","status":"partial","theorems":["C58_options","C58_source","C58_refuted"],"note":"Exact description of scheme, source and options; urlparse is an oracle. That values are complete is false: a value is cut at its second equals sign."},
{"property":"C59","status":"partial","theorems":["C59_insert","C59_set","C59_remove","C59_remove_iff","C59_ends","C59_refuted"],"note":"insert, item assignment, remove and append of items and lists behave as on a list for all lists; += gives the elements in order but leaves a plain list; extend and append of a StashList do not work (C59_refuted). For slices, + and copy see C103."},
{"property":"C60","status":"proved","theorems":["C60_only_adds"],"note":"Also if AddFile raises."},
{"property":"C61","status":"proved","theorems":["C61_offset"],"note":""},
{"property":"C62","status":"proved","theorems":["C62_frame","C62_apart"],"note":"C62_apart speaks of file names only: none of the files the call may have read (the file itself and those that statements among the new items name) is shown for f, is a bbappend for f, or is a recipe that a bbappend shown for f is meant for. Which names fit is over-approximated for names with characters that are special in patterns. C62_frame holds for calls that raise, too."},
{"property":"C63","status":"proved","theorems":["C63_lines","C63_stripped","C63_raw"],"note":""},
{"property":"C64","status":"proved","theorems":["C64_names"],"note":"For databases of the documented shape at replacements/distros and replacements/machines. Names are added again for every file."},
{"property":"C65","status":"partial","theorems":["C65_known_partial","C65_refuted"],"note":"The text with evaluated blocks is the evaluated one, not the written one; beside an unknown block it is neither (C65_refuted)."},
{"property":"C66","status":"proved","theorems":["C66_dynamic","C66_text","C66_empty","C66_pattern","C66_unread"],"note":"Entries are regular expressions; C66_text and C66_pattern say what the common forms match (literal characters, quoted characters, dots, each with ?, *, + or their lazy forms, between ^ and $)."},
{"property":"C67","status":"proved","theorems":["C67_funcname","C67_refuted"],"note":"Proved for pairwise different name parts; the unconditional claim is refuted by a witness."},
{"property":"C68","status":"partial","theorems":["C68_refuted","C35_finalize"],"note":"False: KeyError after appending an item of an unknown bbappend and then parsing its recipe. Holds for items of parsed files (C35)."},
{"property":"C69","status":"partial","theorems":["C69_exact","C69_complete","C69_refuted"],"note":"Exact contents and completeness proved; not only including files: siblings are listed too."},
{"property":"C70","status":"partial","theorems":["C70_refuted","C38_both_orders_partial"],"note":"False for names with pattern characters such as gtk+3_3.24; holds for names without."},
{"property":"C71","status":"partial","theorems":["C71_refuted","C53_fails","C54_fails"],"note":"False: earlier keys are already updated. When no exception can occur is characterised exactly."},
{"property":"C72","status":"partial","theorems":["C72_refuted","C53_path"],"note":"False for paths through a list or string (AttributeError); exact outcome in all cases in C53_path."},
{"property":"C73","status":"partial","theorems":["C73_prefix","C73_refuted"],"note":"True of the prefix, false of the suffixes (foo-native-cross)."},
{"property":"C74","status":"partial","theorems":["C74_deeper_partial","C74_refuted"],"note":"False for a file directly in the layer (the search starts one directory above the file's directory); proved for files in directories below the layer with no other layer in between."},
{"property":"C75","status":"partial","theorems":["C75_words_partial","C75_refuted"],"note":"The claim is false: parts of words are removed. Proved for removals of one word when every word that contains the removed text is that text."},
{"property":"C76","status":"partial","theorems":["C76_last_partial","C76_refuted"],"note":"The claim is false: ??= is treated like ?=. Proved for a weak default after all other statements."},
{"property":"C77","status":"partial","theorems":["C77_code_partial","C77_refuted","C77_recipe_partial","C77_recipe_refuted"],"note":"The claim is false: inline code sets the value whatever the operator. Proved: it sets the value, which is right for = and :=; C77_recipe_partial and C77_recipe_refuted say the same from the text of the recipe."},
{"property":"C78","status":"proved","theorems":["C78_concat","C78_refuted"],"note":"C78_refuted shows that the restriction to non-cyclic definitions is needed."},
{"property":"C79","status":"proved","theorems":["C79_split"],"note":""},
{"property":"C80","status":"proved","theorems":["C80_files"],"note":"glob itself is an arbitrary function of the pattern."},
{"property":"C81","status":"proved","theorems":["C81_builtin"],"note":"Values without a dollar sign."},
{"property":"C82","status":"proved","theorems":["C82_read_file"],"note":"One call per value; two definitions of a name never share a line."},
{"property":"C83","status":"proved","theorems":["C83_statements","C83_lines","C83_total","C83_unique"],"note":""},
{"property":"C84","status":"proved","theorems":["C84_parts"],"note":"for every item of every stash filled by the parser"},
{"property":"C85","status":"partial","theorems":["C85_raw_partial","C85_refuted"],"note":"false for names with references and for bodies that end with a brace (C85_refuted); proved otherwise"},
{"property":"C86","status":"partial","theorems":["C86_refuted","C84_parts"],"note":"false (C86_refuted); C84_parts is the part for other names"},
{"property":"C87","status":"partial","theorems":["C87_words","C87_override","C87_versioned","C87_refuted"],"note":"proved for values in double quotes; false with blanks behind the closing quote and for single quotes (C87_refuted)"},
{"property":"C88","status":"partial","theorems":["C88_partial","C88_refuted"],"note":"proved for statements without inline code whose backslashes end the line; false otherwise (C88_refuted)"},
{"property":"C89","status":"partial","theorems":["C89_variable","C89_function_partial","C89_function_refuted"],"note":"proved for variables, and for functions whose first override is append, prepend, remove, class-native, class-cross or class-target; false for other functions (C89_function_refuted)"},
{"property":"C90","status":"partial","theorems":["C90_exports_partial","C90_refuted"],"note":"proved for words separated by spaces; false for tabs and continued lines (C90_refuted)"},
{"property":"C91","status":"partial","theorems":["C91_links_partial","C91_refuted"],"note":"one entry for each item of a linked file; so files are repeated or missing (C91_refuted)"},
{"property":"C92","status":"partial","theorems":["C92_inherit","C92_include","C92_include_found","C92_inherit_found","C92_case_found","C92_include_named","C92_inherit_named","C92_tab_refuted","C92_reference_refuted"],"note":"Proved for every item that a call adds when the text has nothing to expand, or refers to names that no item assigns (they have the values of the base set, or the builtin ones such as PN and BPN); the words are separated by spaces, and the text is not on the ignore list. C92_include_found and C92_inherit_found spell out the search for files in absolute directories. Refuted for words separated by tabs and for references to variables that the same file assigns above the statement."},
{"property":"C93","status":"proved","theorems":["C93_named","C93_given","C93_error_refuted"],"note":"For all histories in which no AddFile raised and Remove was not used, with any cycle of inherits. After a call that raised it does not hold: a class that was being read counts as seen (C93_error_refuted)."},
{"property":"C94","status":"partial","theorems":["C94_never","C94_refuted","C94_empty_partial"],"note":"The parser never makes a MissingFile item, so the first half is refuted; the second half holds: FileIncluded is empty exactly if FindLocalOrLayer finds nothing."},
{"property":"C95","status":"partial","theorems":["C95_class_partial","C95_include","C95_refuted"],"note":"Proved for includes, and for an inherit whose whole text is on the list; refuted for an ignored class that is inherited beside another one, since the whole text is compared."},
{"property":"C96","status":"proved","theorems":["C96_raises","C96_completes"],"note":"RegexUnsupported stands for every pattern that Regex.v does not read, re.error among them. RecursionError and MemoryError are not modelled."},
{"property":"C97","status":"partial","theorems":["C97_owned_partial","C97_read_only","C97_refuted"],"note":"Proved for GetItemsFor, IsImage, IsPackageGroup and the updates with any writes, and for all methods without writes. Refuted for the five methods that return the cached list itself."},
{"property":"C98","status":"partial","theorems":["C77_code_partial","C98_refuted"],"note":"The claim is false for append and prepend. Proved for assignments that act at once."},
{"property":"C99","status":"partial","theorems":["C99_apart_partial","C99_shared_partial","C99_refuted","C99_distro_refuted"],"note":"Whatever other stashes do, also when they raise; C99_shared_partial with the one database of constants that all stashes share and extend, if it has the documented shape where distros and machines are kept. Missing: GetBBClasses, own updates that raise and Finalize after a query, as in C33. GetDistroEntry of an item changes when another stash reads a layer with further distros (C99_distro_refuted)."}
]}
