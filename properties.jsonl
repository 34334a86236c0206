{"id": "C01", "title": "Records saved under a `name*` path are appended, nothing else moves", "statement": "Saving a non-empty group record under a path that ends in a single asterisk appends exactly that record to the list found at that path (creating the missing keys of the path and the list if they do not exist); every other value of the results tree is unchanged.", "quantifier": "every results tree, every path of plain keys ending in `*`, every non-empty record", "why_tests_cant": "results trees and paths are unbounded; a test only sees one shape of pre-existing tree", "anchors": ["ttp/ttp.py:_results_class.save_curelements", "ttp/ttp.py:_results_class.dict_by_path", "ttp/ttp.py:_results_class.list_to_dict_fwd"]}
{"id": "C02", "title": "A second record on a plain path turns the dictionary into a two-item list", "statement": "Saving to a plain (no asterisk) path: if nothing is stored there the record becomes the dictionary at that path; if a non-empty dictionary is stored there it is replaced by the list [old, new]; if a list is there the record is appended.  So n saves of non-empty records on one plain path read back as the record itself (n=1) or as the list of the n records in order (n>=2).", "quantifier": "every results tree, plain path, and every sequence of non-empty records", "why_tests_cant": "the claim is about every length of the save history and every surrounding tree", "anchors": ["ttp/ttp.py:_results_class.save_curelements", "ttp/ttp.py:_results_class.value_to_list", "ttp/ttp.py:_results_class.dict_by_path"]}
{"id": "C03", "title": "`**` keeps a dictionary and the first value of each key", "statement": "After saving any sequence of records to a path that ends in `**`, the value there is one dictionary holding, for every key that occurs in any record, the value from the earliest record that contains it.", "quantifier": "every results tree, every path ending in `**`, every sequence of records", "why_tests_cant": "quantifies over all record sequences and all key collisions", "anchors": ["ttp/ttp.py:_results_class.save_curelements"]}
{"id": "C04", "title": "Saving disturbs nothing outside the addressed element", "statement": "A save changes the results tree only at the element its path addresses: everything readable at an address not at or above and not below it stays readable there with the same value and no key is removed, along every history of saves starting from empty results whose records hold no list directly inside a list; for trees with a list directly inside a list this can fail.", "quantifier": "every history of saves under paths of ordinary keys, every further path and record, with and without merge", "why_tests_cant": "frame conditions quantify over all addresses that must not change", "anchors": ["ttp/ttp.py:_results_class.save_curelements", "ttp/ttp.py:_results_class.dict_by_path", "ttp/ttp.py:_results_class._merge_recursively"]}
{"id": "C05", "title": "Within one record the first match of a variable wins; defaults only fill gaps", "statement": "For matches of one group between its start and its next start, the value saved for a variable is the one from the earliest match that produced it; a default value is used exactly for the variables that no match produced.", "quantifier": "every sequence of matches inside a group record and every defaults dictionary", "why_tests_cant": "any number and order of matching lines", "anchors": ["ttp/ttp.py:_results_class.add", "ttp/ttp.py:_results_class.processgrp"]}
{"id": "C06", "title": "A rejected start line mutes its group until the next accepted start", "statement": "If a start line fails its match-variable checks, no later non-start match of that group and no match of a child group is saved until an accepted start line of that group is processed; groups that are not descendants are not affected.", "quantifier": "every sequence of matches over every set of groups", "why_tests_cant": "histories of matches are unbounded; the bookkeeping is a state machine", "anchors": ["ttp/ttp.py:_results_class.make_results"]}
{"id": "C07", "title": "`_end_` closes the group until its next start", "statement": "After an accepted `_end_` match of the group being recorded, later normal matches of that group are ignored until a start of that group is seen; the record accumulated before `_end_` is still saved.", "quantifier": "every sequence of matches after the end line", "why_tests_cant": "unbounded match histories", "anchors": ["ttp/ttp.py:_results_class.end", "ttp/ttp.py:_results_class.make_results"]}
{"id": "C08", "title": "A group function that returns False discards the whole record and only that record", "statement": "When any function in a group's function chain returns False the record is not saved and the results tree is exactly what it was; functions after it are not run; otherwise every function is applied in the order written, each to the previous one's output.", "quantifier": "every chain of group functions, every record, every results tree", "why_tests_cant": "quantifies over arbitrary user-supplied functions (macros)", "anchors": ["ttp/ttp.py:_results_class.processgrp"]}
{"id": "C09", "title": "Dynamic path lookup order", "statement": "In a group name, a placeholder {{ name }} is replaced by the value this record captured for that name; if this record has none, by the last value an earlier record of the same run captured for it, else by the template variable of that name. If no value is found for some placeholder, the record is not saved and the rest of the results is unchanged. A remembered value or variable that is not a string raises TypeError where a value of this record is written with its text.", "quantifier": "every path item, record, history and variables dictionary", "why_tests_cant": "depends on the whole history of earlier records", "anchors": ["ttp/ttp.py:_results_class.form_path"]}
{"id": "C10", "title": "What a value writes into a dynamic path", "statement": "A captured value that contains no backslash is written verbatim into the dynamic path. A value with backslashes is read as replacement text of re.sub: where it is valid replacement text, what it stands for is written; where it is not, a value captured by this record is written verbatim, while a remembered value or a template variable raises re.error. Without a dot in the written text one placeholder makes one key.", "quantifier": "every string V", "why_tests_cant": "holds or fails per value; re.sub treats V as a template, so only unusual values fail", "anchors": ["ttp/ttp.py:_results_class.form_path"]}
{"id": "C11", "title": "What the null path item `_` does", "statement": "A path item `_` between keys adds no level where the keys in front of it lead to a dictionary; at the end of a path it merges the record into the dictionary, or into the last item of the list, that the path leads to. Where the keys in front of it do not exist yet, `_` is first created like any other key, so `_` can appear in the results.", "quantifier": "every tree and every path with one `_` item", "why_tests_cant": "the failing case depends on which prefix of the path already exists", "anchors": ["ttp/ttp.py:_results_class.dict_by_path", "ttp/ttp.py:_results_class.list_to_dict_fwd", "ttp/ttp.py:_results_class.value_to_list"]}
{"id": "C12", "title": "What dynamic_path_key_to_int changes", "statement": "With dynamic_path_key_to_int enabled a save does what it does with it disabled, except that path keys consisting of digits are integers, as long as no second record is saved next to a first one on a plain path; in that case, if the path has a digit key, what the keys in front of it lead to becomes None. A path without digit keys is not affected by the option.", "quantifier": "every tree, record and path whose digit keys are written without leading zeros, with and without merge", "why_tests_cant": "fails only from the second record on, or for unusual digit characters", "anchors": ["ttp/ttp.py:_results_class.dict_by_path", "ttp/ttp.py:_results_class.list_to_dict_fwd", "ttp/ttp.py:_results_class.value_to_list"]}
{"id": "C13", "title": "Joining several values of one match variable", "statement": "The values of a joinmatches variable within one record are joined in input order: strings are concatenated with the separator between them; if the first value is a list, lists are concatenated and other values appended; other first values become a list together with what follows. A string followed by a value that is not a string raises TypeError.", "quantifier": "every n and all match values (strings, lists, other)", "why_tests_cant": "unbounded number of matches and mixes of types", "anchors": ["ttp/ttp.py:_results_class.join"]}
{"id": "C14", "title": "Where matches after the end of their group go", "statement": "A match that belongs to a group that is already saved is merged into the last element the group's path leads to: dictionaries recursively, every other field is replaced, and all other elements stay unchanged. If the path leads to an empty or missing list, IndexError is raised; if a dictionary meets a value that is not a dictionary, AttributeError.", "quantifier": "every tree, every started group and every tail match", "why_tests_cant": "depends on the saved history", "anchors": ["ttp/ttp.py:_results_class.add", "ttp/ttp.py:_results_class._merge_recursively", "ttp/ttp.py:_results_class.reconstruct_last_element"]}
{"id": "C15", "title": "One flat list group: output is exactly the sequence of records", "statement": "For a single top group `name*` without functions and any sequence of its match events, the results equal {name: [r1..rk]} where the ri are computed by reading the event list left to right: one record per accepted start, with first-match-wins contents, muted after a rejected start or an end; empty records are not listed.", "quantifier": "every sequence of start/startempty/add/end/rejected events", "why_tests_cant": "refinement against an independent specification over all event histories", "anchors": ["ttp/ttp.py:_results_class.make_results", "ttp/ttp.py:_results_class.start", "ttp/ttp.py:_results_class.startempty", "ttp/ttp.py:_results_class.add", "ttp/ttp.py:_results_class.end"]}
{"id": "C16", "title": "Choosing between several regexes that match at one place", "statement": "When several lines of the template match at the same position exactly one of them is used; a `_start_` line is preferred to a start line, that to a normal line, that to a `_line_` line; within a class a candidate of the group currently being recorded is preferred, and a rejected candidate is never used while a candidate of the same class that is preferred exists.", "quantifier": "every candidate set and every parser state", "why_tests_cant": "combinatorial candidate sets and states", "anchors": ["ttp/ttp.py:_results_class.make_results"]}
{"id": "C17", "title": "Match function chain semantics", "statement": "A variable's value is the result of applying its functions left to right; the first function that reports False stops the chain: the whole line match is dropped if the line is not a start line, and kept as a rejected start otherwise; values of the other variables are unaffected.", "quantifier": "every function chain (arbitrary functions), every match and every position", "why_tests_cant": "quantifies over arbitrary functions", "anchors": ["ttp/ttp.py:_parser_class.parse (check_matches)"]}
{"id": "C18", "title": "Results are processed in text order", "statement": "Whatever the order in which template lines are tried, matches are handed to the results builder in increasing order of their position in the text, and matches at the same position are grouped in one candidate set.", "quantifier": "every regex engine outcome, every group tree", "why_tests_cant": "all match sets", "anchors": ["ttp/ttp.py:_parser_class.parse (check_matches, run_re)"]}
{"id": "C19", "title": "Nothing before the first start line is used", "statement": "No match of a group's normal or end lines, nor of its children, has a position before the first match of one of that group's start lines; if no start line matches, the group contributes nothing unless its start line has defaults.", "quantifier": "every text, regex engine and group tree", "why_tests_cant": "all texts and group trees", "anchors": ["ttp/ttp.py:_parser_class.parse (run_re)"]}
{"id": "C20", "title": "Default-only groups come last", "statement": "A group whose start line has default values but never matches contributes exactly one record, holding the defaults (with values that name template or global variables replaced by those variables), and for texts of at most ten million characters it is processed after all records that were matched in the text.", "quantifier": "every text length", "why_tests_cant": "all texts, regexes and group trees", "anchors": ["ttp/ttp.py:_parser_class.parse (run_re)"]}
{"id": "C21", "title": "Matches after the `_end_` line are discarded", "statement": "Let a group's end line match after the group's last start line. If the start lines match at different places and the end line, counted from the first start line of the group, ends further in than every start line counted from the beginning of the text, then no match of the group that begins on a line after the one directly following the end line is kept. Each of these conditions is needed: without it a match after the end line can be kept, and a match on the line directly after the end line is kept.", "quantifier": "every match set", "why_tests_cant": "list mutated while it is iterated: only particular coincidences fail", "anchors": ["ttp/ttp.py:_parser_class.parse (run_re)"]}
{"id": "C22", "title": "Variables recorded while parsing one input do not leak into the next", "statement": "Template variables seen by an input are the template's own variables plus those computed for that input; what one input sets is not visible to the next except through global variables.", "quantifier": "every sequence of inputs and variable operations", "why_tests_cant": "histories", "anchors": ["ttp/ttp.py:_parser_class.set_data", "ttp/ttp.py:_group_class.set_runs"]}
{"id": "C23", "title": "per_input: one result per datum, in order", "statement": "With results='per_input' a parse in one process appends exactly one result item per datum to the template's results, in the order inputs were defined and data was added, each obtained by parsing that datum alone (starting from an empty structure); parse() succeeds exactly when every datum parses. Records of unnamed groups form the item's list, followed by one item for everything else. Nothing but the results of the templates changes, and templates are processed in order.", "quantifier": "every list of templates, inputs and data; every parse function", "why_tests_cant": "unbounded numbers of inputs", "anchors": ["ttp/ttp.py:ttp.__parse_in_one_process", "ttp/ttp.py:_template_class.form_results"]}
{"id": "C24", "title": "per_template: results of all inputs combined in one structure", "statement": "With results='per_template' the template's result is the structure obtained by parsing every datum in order into the same results tree.", "quantifier": "every list of inputs and data", "why_tests_cant": "unbounded", "anchors": ["ttp/ttp.py:ttp.__parse_in_one_process", "ttp/ttp.py:_template_class.form_results"]}
{"id": "C25", "title": "Repeated parse() and clear_result()", "statement": "For templates without output tags and data whose parsing does not depend on earlier parsing: after every history of add_input/set_input/clear_input/parse/clear_result calls, parse() appends to the old results what a first parse of the same inputs returns (per_input) or replaces them by it (per_template); after clear_result() it returns what a first parse returns; clear_result(names) empties exactly the named templates.", "quantifier": "every history of add_input/parse/clear_result calls", "why_tests_cant": "histories of API calls", "anchors": ["ttp/ttp.py:ttp.parse", "ttp/ttp.py:ttp.clear_result", "ttp/ttp.py:_template_class.form_results"]}
{"id": "C26", "title": "result() structures agree with each other", "statement": "When the selected templates have distinct non-empty names: list has one item per template in order; dictionary maps each template name, in order, to that template's results; flat_list is the concatenation of the lists with one level of nesting removed. The selected templates are those named, or all.", "quantifier": "every list of templates and results", "why_tests_cant": "name collisions and nesting", "anchors": ["ttp/ttp.py:ttp.result"]}
{"id": "C27", "title": "Adding the same input twice is the same as adding it once", "statement": "For every sequence of add_input calls each input of each template holds its previous data followed by the new items addressed to it, in order, leaving out every item equal to one already there (text and file names compared as strings, structures up to dictionary order); repeating an earlier call changes no input's data.", "quantifier": "every sequence of add_input calls", "why_tests_cant": "histories", "anchors": ["ttp/ttp.py:ttp.add_input", "ttp/ttp.py:_template_class.update_input", "ttp/ttp.py:_input_class.load_data"]}
{"id": "C28", "title": "Choice of process mode", "statement": "parse() runs multi-process exactly when multi=True, or neither flag is set, the overall data size exceeds 5 MB and there are at least two data items; one and multi together abort.", "quantifier": "all sizes and flags", "why_tests_cant": "boundary conditions over all integers", "anchors": ["ttp/ttp.py:ttp.parse", "ttp/ttp.py:ttp._calculate_overall_data_size"]}
{"id": "C29", "title": "Multiprocess parsing returns every result exactly once", "statement": "With results='per_input' and data whose parsing does not depend on earlier parsing: for every number of worker processes and every schedule, multiprocess parsing appends to the results a permutation of the items single-process parsing appends; the two modes succeed for the same inputs; nothing else of the template changes.", "quantifier": "every number of workers, every interleaving", "why_tests_cant": "interleavings cannot be enumerated by tests", "anchors": ["ttp/ttp.py:ttp.__parse_in_multiprocess", "ttp/ttp.py:_worker.run"]}
{"id": "C30", "title": "Multiprocess parsing always terminates once every task has been processed", "statement": "In every reachable state in which no worker has crashed some step is possible until all results are collected; every run has at most 2+7*(data+workers) steps; when no datum makes the parser raise, a run that cannot go on has collected one result per datum.", "quantifier": "every interleaving, every number of workers and tasks", "why_tests_cant": "deadlock freedom over all schedules", "anchors": ["ttp/ttp.py:ttp.__parse_in_multiprocess", "ttp/ttp.py:_worker.run"]}
{"id": "C31", "title": "per_template results under multiprocessing", "statement": "With results='per_template' and at least two worker processes, the structure that remains after parsing several data items is the structure of exactly one of them, and it can be that of any of them; with one worker process it is that of the last item. Only with a single data item is it always the same as in single-process mode.", "quantifier": "every list of data items, every number of workers, every schedule", "why_tests_cant": "only visible with several data items and multiprocess", "anchors": ["ttp/ttp.py:ttp.__parse_in_multiprocess", "ttp/ttp.py:_template_class.form_results"]}
{"id": "C32", "title": "Custom functions are available to the parser and to its workers", "statement": "After any sequence of add_function calls, the function called under a scope and name is the last one given for them, in the parent and in every worker; in the parent every other function is unchanged, and in workers every function of the scopes without custom functions is; add_function succeeds iff the scope exists.", "quantifier": "every set of custom functions and scopes", "why_tests_cant": "visible only in multiprocess runs that mix built-in and custom functions", "anchors": ["ttp/ttp.py:_worker.load_functions", "ttp/ttp.py:ttp.add_function"]}
{"id": "C33", "title": "Group paths compose", "statement": "The path of a group is: the items of the last absolute name on the way from its top group down to it (a name starting with `/`), followed by the items of the relative names below; without absolute names, the items of all names, after `_anonymous_*` when the top group has no name; a child group without a name adds nothing. (Names consist of more than slashes and no ancestor's item is literally `_anonymous_`.)", "quantifier": "every group tree and every name", "why_tests_cant": "arbitrary nesting", "anchors": ["ttp/ttp.py:_group_class.get_attributes", "ttp/ttp.py:_group_class.set_anonymous_path", "ttp/ttp.py:_group_class.get_children"]}
{"id": "C34", "title": "Every template line becomes exactly one regex of the right kind", "statement": "Each line of a group that holds a variable is exactly one of start, end or normal line and is put in that list, in order: marked end lines are end lines; lines after a child group are otherwise normal; the first line, every line of method=table and lines with a start variable are start lines. The last function of a variable that says so decides its action; a line starts with its first start variable, else its last variable other than `ignore` decides.", "quantifier": "every list of template lines", "why_tests_cant": "arbitrary templates", "anchors": ["ttp/ttp.py:_group_class.get_regexes"]}
{"id": "C35", "title": "Group identifiers", "statement": "The identifier of a group is its path joined by dots (with '._anonymous_' added when the group has no name) and its place among its siblings. So groups with one parent (or without parent) always have different identifiers, and named groups with different parents share an identifier exactly when their joined paths and their places are the same. Each child refers to its parent's identifier.", "quantifier": "every group tree whose groups have at most one name each, not made of slashes only", "why_tests_cant": "needs a particular pair of names and indices to fail", "anchors": ["ttp/ttp.py:_group_class.get_attributes", "ttp/ttp.py:_template_class.parse_group"]}
{"id": "C36", "title": "Outputs of groups", "statement": "Every name in a group's output list is replaced by the template's output of that name, in order; a name without output is dropped, and the name directly after a dropped one stays unresolved. If only the last name of a list can be unknown, the group gets exactly the outputs of the known names. The template keeps, in order, the outputs that no group got.", "quantifier": "every list of outputs with distinct names, every list of groups and output names", "why_tests_cant": "list modified while enumerated: fails only for adjacent unknown names", "anchors": ["ttp/ttp.py:_template_class.update_groups_with_outputs"]}
{"id": "C37", "title": "Inputs are parsed with the right groups", "statement": "The groups of an input created by add_input are, in template order: if some group names this input in its `input` attribute, exactly those groups; otherwise the groups without `input` attribute that are listed in the call's groups, or all of those when the list is 'all'. A later add_input for the same input adds that call's groups, each group used once.", "quantifier": "every set of groups, every input name, every groups list, every sequence of calls", "why_tests_cant": "combinatorial", "anchors": ["ttp/ttp.py:_template_class.update_inputs_with_groups"]}
{"id": "C38", "title": "Literal template text matches itself", "statement": "For a template line with variables, the generated regular expression matches at a newline iff the text line that starts there has the template's indentation, then its literal fragments up to: any run of spaces/tabs in the template matches any non-empty run, any run of digits matches any non-empty run of digits (with a text allowed by the variable's patterns in place of each variable), then blanks to the end of the line. Searching a text finds every such line exactly once, in order.", "quantifier": "every template line whose text uses no double braces, every set of variables and every text", "why_tests_cant": "quantifies over all texts and all templates", "anchors": ["ttp/ttp.py:_variable_class.form_regex"]}
{"id": "C39", "title": "What `_exact_` and `_exact_space_` make literal", "statement": "A line with `_exact_` and without `_exact_space_` matches its digits literally and its blanks loosely. A line with `_exact_space_` matches both blanks and digits literally, whether or not `_exact_` is there (the attribute's name contains `_exact_`, so blanks alone cannot be made literal).", "quantifier": "every line", "why_tests_cant": "substring test on the attribute name", "anchors": ["ttp/ttp.py:_variable_class.form_regex"]}
{"id": "C40", "title": "extend filters", "statement": "An extend tag with vars/groups/inputs/lookups/outputs filters inserts exactly the elements of the extended template whose kind is not filtered or whose names (or, for groups, position) are listed, in their original order; without filters everything is inserted; inside a group only groups and extend tags are.", "quantifier": "every template and filter list", "why_tests_cant": "index-based removal while iterating", "anchors": ["ttp/ttp.py:_template_class.filter_extend", "ttp/ttp.py:_template_class.handle_extend"]}
{"id": "C41", "title": "unrange expands every range", "statement": "For a field made of plain items and ranges a<rangechar>b of integers, separated by joinchar, unrange returns the same items in order with each range written out as a, a+1, .., b; a field without the range character is returned unchanged.", "quantifier": "every list of items and ranges", "why_tests_cant": "all ranges", "anchors": ["ttp/match/unrange.py:unrange"]}
{"id": "C42", "title": "mac_eui is canonical and idempotent", "statement": "mac_eui maps every notation (any case, any of the separators . : -) of the same twelve hex digits to the same aa:bb:cc:dd:ee:ff text; applying it twice is the same as applying it once, for every value; text with characters other than letters, digits and separators is returned unchanged.", "quantifier": "every string", "why_tests_cant": "all notations", "anchors": ["ttp/match/mac_eui.py:mac_eui"]}
{"id": "C43", "title": "to_cidr converts a netmask to its prefix length", "statement": "For every prefix length n from 0 to 32 the dotted mask of n converts to the integer n; for any dotted numbers 0..255 the number of one bits is returned; text with a part that is not an integer is returned unchanged.", "quantifier": "all masks", "why_tests_cant": "2^32 masks", "anchors": ["ttp/match/ip.py:to_cidr"]}
{"id": "C44", "title": "item() clamps the index", "statement": "For every non-empty list or string and every integer i, item(i) returns the i-th item counted as in Python, the last item if i is beyond the end and the first if it is before the start.", "quantifier": "every list and index", "why_tests_cant": "all indices", "anchors": ["ttp/match/item.py:item"]}
{"id": "C45", "title": "truncate keeps the first n words", "statement": "truncate(n) returns the first n blank-separated words joined with single spaces, and the data itself if it has at most n words.", "quantifier": "every string and n", "why_tests_cant": "all strings", "anchors": ["ttp/match/string.py:truncate"]}
{"id": "C46", "title": "Numeric and membership tests decide what they say", "statement": "greaterthan/lessthan accept exactly when both sides are decimal numbers (after stripping blanks) that compare so, and reject non-digits; isdigit/notdigit, equal/notequal, startswith_re/notstartswith_re, endswith_re/notendswith_re, contains_re/exclude_re are complementary; contains accepts iff one of the patterns occurs in the text, exclude iff the pattern does not; none of them changes the data.", "quantifier": "every string", "why_tests_cant": "all strings, including digits that int() refuses", "anchors": ["ttp/match/string.py"]}
{"id": "C47", "title": "append / prepend / print family", "statement": "append(x) adds at the end, and prepend(x) at the beginning, of a string or list the text that x stands for: the value of the template variable x if there is one, else x itself; join glues a list of strings.", "quantifier": "every value and variables dictionary", "why_tests_cant": "all variable environments", "anchors": ["ttp/match/string.py:append", "ttp/match/string.py:prepend"]}
{"id": "C48", "title": "replaceall", "statement": "replaceall(new, v1..vn) replaces every occurrence of every v in turn by new (by nothing when only one argument is given), where a v that names a template variable holding a list or a dictionary stands for the listed strings, with the dictionary's key as the new text.", "quantifier": "every string and variable environment", "why_tests_cant": "all environments", "anchors": ["ttp/match/string.py:replaceall", "ttp/match/re_.py:resuball"]}
{"id": "C49", "title": "Lookups return the table's entry or leave the data alone", "statement": "lookup/gpvlookup/rlookup with add_field never change the matched value; without add_field the value becomes the table's entry when there is one and stays the same otherwise.", "quantifier": "every table and value", "why_tests_cant": "all tables", "anchors": ["ttp/match/lookup.py"]}
{"id": "C50", "title": "record/set/count write exactly one variable", "statement": "record(name) stores the matched value in the variable `name` (input and global) and changes no other variable; set reads it back; count increments per input and globally.", "quantifier": "every history of calls", "why_tests_cant": "histories", "anchors": ["ttp/match/record.py", "ttp/match/set_.py", "ttp/match/count.py"]}
{"id": "C51", "title": "contains/containsall/exclude/excludeall decide on presence of matched variables", "statement": "For variables that have no default value: contains accepts iff at least one named variable was matched, exclude iff none was, excludeall iff not all were. containsall accepts iff every named variable has a matched (non-default) value, whatever the defaults. None changes the record; in a run the rejected records are not saved and the others are saved unchanged in order.", "quantifier": "every record, defaults and argument list", "why_tests_cant": "argument order and defaults combinations", "anchors": ["ttp/group/contains.py", "ttp/group/containsall.py", "ttp/group/exclude.py", "ttp/group/excludeall.py"]}
{"id": "C52", "title": "equal / contains_val / exclude_val", "statement": "equal accepts iff the record's value of the key equals the (variable-resolved) value; exclude_val is its complement for a present key and accepts a missing one; contains_val on a text value accepts iff it contains the given text, on a list iff it has an equal item, on a missing key only the empty text. None changes the record.", "quantifier": "every record and value", "why_tests_cant": "types of values", "anchors": ["ttp/group/equal.py", "ttp/group/exclude_val.py", "ttp/group/contains_val.py"]}
{"id": "C53", "title": "del, items2dict, set, record, to_int touch only the named keys", "statement": "Each of these functions changes only the keys it names: del removes exactly the listed keys keeping the order of the others; items2dict replaces the two named entries by one key-value pair and rejects records lacking either; set stores the template variable, else the global variable, else the default, else the name; record leaves the record alone and stores the value in both variable scopes; to_int turns text accepted by int() into that integer, other numeric text into a float, and leaves the rest.", "quantifier": "every record", "why_tests_cant": "frame property", "anchors": ["ttp/group/delete.py", "ttp/group/items2dict.py", "ttp/group/to_converters.py", "ttp/group/set_.py", "ttp/group/record.py"]}
{"id": "C54", "title": "expand is the inverse of dotted flattening", "statement": "When no key is a dotted prefix of another, expand turns every key a.b.c into nested dictionaries so that reading the path a,b,c gives the original value, and nothing else can be read from the result.", "quantifier": "every record with string keys", "why_tests_cant": "prefix conflicts between keys", "anchors": ["ttp/group/expand.py"]}
{"id": "C55", "title": "itemize", "statement": "itemize(key) turns a group's records into the list, at the group's path with one asterisk, of their non-empty `key` values in order; records without the key are dropped and nothing else in the results changes.", "quantifier": "every sequence of records", "why_tests_cant": "histories", "anchors": ["ttp/group/itemize.py"]}
{"id": "C56", "title": "table output is rectangular and complete", "statement": "The table formatter gives one row per record selected by path and key, plus a header row; every row has as many cells as there are headers; the cell in the first column headed h of a record's row is the record's value for h, or the missing value; without explicit headers they are the sorted set of all the records' keys.", "quantifier": "every list of records, headers and path", "why_tests_cant": "unbounded", "anchors": ["ttp/formatters/table_formatter.py"]}
{"id": "C57", "title": "csv output can be read back", "statement": "For a table with at least one header, whose headers are strings, whose rows are as long as the headers and whose headers and cells contain no quote and no line break, reading the text of the csv formatter (default separator and quote) gives back the headers and the rows as text, and loading it gives the table's dictionary. Quotes inside cells, tables without headers and headers that are not strings break this.", "quantifier": "every table", "why_tests_cant": "special characters inside cells", "anchors": ["ttp/formatters/csv_formatter.py", "ttp/utils/loaders.py:load_csv"]}
{"id": "C58", "title": "traverse and path selection", "statement": "traverse with a path returns the value found by following the path through dictionaries (in a list, for every item); with strict=False an empty dictionary when a key of the path is missing; values that are neither dictionaries nor lists are returned as they are.", "quantifier": "every structure and path", "why_tests_cant": "all structures", "anchors": ["ttp/output/transform.py:traverse"]}
{"id": "C59", "title": "dict_to_list turns entries into records", "statement": "dict_to_list turns {k1: v1, ...} whose values are dictionaries into [{**v1, key_name: k1}, ...] in order; a list is converted item by item; with a path, what the path selects is converted.", "quantifier": "every dictionary", "why_tests_cant": "all structures", "anchors": ["ttp/output/transform.py:dict_to_list"]}
{"id": "C60", "title": "Outputs run in order, and only when their condition holds", "statement": "An output applies its functions in order to the results, then its formatter, then its returners in order; unsupported returners are skipped; the formatted results come back if one of the returners is self, otherwise the data given; when a condition is given and not met the results are returned unchanged and nothing else happens.", "quantifier": "every function list (arbitrary functions) and results", "why_tests_cant": "arbitrary functions", "anchors": ["ttp/ttp.py:_outputter_class.run"]}
{"id": "C61", "title": "is_equal reports equality", "statement": "is_equal's is_equal field is True iff the results (those under _anonymous_ if there is such a key) equal the loaded data, the order of dictionary keys being ignored.", "quantifier": "every pair of structures", "why_tests_cant": "all structures", "anchors": ["ttp/output/is_equal.py"]}
{"id": "C62", "title": "load_csv with key builds the right table", "statement": "Loading csv text with key k gives a dictionary mapping the k cell of every row to the row's other cells by header (the last row with a key wins); without key the first column is used; a key that is not a header gives an empty dictionary. Cells may be written plain or between quotes with quotes doubled.", "quantifier": "every csv table with distinct headers whose cells contain no line breaks and whose rows have a cell under the key and no more cells than there are headers; lines ended by any line break or CR LF, the last one possibly not", "why_tests_cant": "unbounded", "anchors": ["ttp/utils/loaders.py:load_csv"]}
{"id": "C63", "title": "The function cache never changes which functions are available", "statement": "Whatever processes (of any ttp and Python versions) started before or run at the same time, and wherever they were killed while writing the cache file, a starting process does not fail and the functions available to it are exactly those offered by the modules of its own package - provided the files of a given version do not change.", "quantifier": "every interleaving of starts, cache writes, failures and kills of any number of processes", "why_tests_cant": "crash points and file contents", "anchors": ["ttp/ttp.py:lazy_import_functions"]}
{"id": "C64", "title": "Every saved value comes from the text, a default, a variable or a function", "statement": "For groups without functions, every scalar other than None that can be read anywhere in the produced results is a scalar of some match result, default value or template variable of the run, or of the results started from: the results builder invents no data. (None can be invented: a saved group whose path is a number becomes None.)", "quantifier": "every match history", "why_tests_cant": "histories", "anchors": ["ttp/ttp.py:_results_class.make_results"]}
{"id": "C65", "title": "A rejected start removes exactly its group's and its direct children's matches", "statement": "After a rejected start line of a group, and up to the group's next accepted start, the results are those of the same matches without the group's own matches and without the matches of groups directly inside it, as if the rejected line were not there; matches of more deeply nested groups are still saved.", "quantifier": "every group nesting depth", "why_tests_cant": "needs three levels of nesting and a particular input", "anchors": ["ttp/ttp.py:_results_class.make_results"]}
{"id": "C66", "title": "When unrange raises", "statement": "unrange raises exactly when the text contains the range character and, expanding from left to right, it meets a range whose start is not a number (ValueError) or which nothing follows (IndexError); in every other case it returns a value, and a range whose end is not a number gives the text back.", "quantifier": "every data text, range character and join character", "why_tests_cant": "unit tests try a handful of literals; the claim is about every string", "anchors": ["ttp/match/unrange.py:unrange"]}
{"id": "C67", "title": "mac_eui on any value", "statement": "For every value, mac_eui writes its letters and digits (separators dropped, lower case, filled up with zeros to twelve) as colon separated pairs, exactly if there is nothing but letters and digits besides the separators; text is unchanged exactly if it contains other characters or is already in that form - whether it is a MAC address or not.", "quantifier": "every text", "why_tests_cant": "unit tests try a handful of literals; the claim is about every string", "anchors": ["ttp/match/mac_eui.py:mac_eui"]}
{"id": "C68", "title": "to_cidr on any value", "statement": "to_cidr returns text unchanged exactly if one of the dot separated parts is not an integer, and any other text becomes the number of one bits of its parts, also if it is not one of the 33 netmasks; what is not text is returned unchanged.", "quantifier": "every text", "why_tests_cant": "unit tests try a handful of literals; the claim is about every string", "anchors": ["ttp/match/ip.py:to_cidr"]}
{"id": "C69", "title": "When item() fails", "statement": "item(i) returns a value for every non-empty list or string and every integer i; it raises IndexError for an empty one, TypeError for what is neither a list, a string nor a dictionary; on a dictionary it looks up the clamped number as a key and raises KeyError if it is missing.", "quantifier": "every list, string and integer", "why_tests_cant": "unit tests try a handful of literals; the claim is about every string", "anchors": ["ttp/match/item.py:item"]}
{"id": "C70", "title": "When numeric comparisons raise", "statement": "greaterthan and lessthan return a verdict for every pair of strings unless both consist of characters that count as digits and one of them is not the text of an integer (as a superscript digit): then, and only then, they raise ValueError.", "quantifier": "every pair of strings", "why_tests_cant": "unit tests try a handful of literals; the claim is about every string", "anchors": ["ttp/match/string.py:greaterthan,lessthan"]}
{"id": "C71", "title": "append/prepend resolve template variables only", "statement": "append(x) and prepend(x) never depend on the global variables: when x is not a template variable the name x itself is added to the text, even if a global variable of that name exists.", "quantifier": "every variable environment", "why_tests_cant": "unit tests try a handful of literals; the claim is about every string", "anchors": ["ttp/match/string.py:append,prepend"]}
{"id": "C72", "title": "replaceall ignores string variables", "statement": "An argument of replaceall that names a template variable holding a string is ignored at any position: the outcome is that of the call without that argument, and the text is unchanged if it is the only one. In particular the string it holds is not replaced.", "quantifier": "every text and variable", "why_tests_cant": "unit tests try a handful of literals; the claim is about every string", "anchors": ["ttp/match/string.py:replaceall"]}
{"id": "C73", "title": "Where the record of a default-only group is processed, for texts of any length", "statement": "The record of defaults of a group that never matched is numbered with the first free number from 10000000 on, and is processed between the matches that start before that position and those that start after it; so it comes last for every text of up to ten million characters and not necessarily for longer ones.", "quantifier": "every text, of any length", "why_tests_cant": "fails only for texts longer than ten million characters", "anchors": ["ttp/ttp.py:_parser_class.parse (run_re)"]}
{"id": "C74", "title": "contains/exclude/excludeall with default values", "statement": "For variables that may have a default: contains accepts iff the first named variable that is present has a value different from its default; exclude rejects iff a named variable without default is present; excludeall rejects iff all named variables are present without default.", "quantifier": "every record, defaults and argument list", "why_tests_cant": "only particular combinations of argument order and defaults show it", "anchors": ["ttp/group/contains.py", "ttp/group/exclude.py", "ttp/group/excludeall.py"]}
{"id": "C75", "title": "When value tests raise", "statement": "equal and exclude_val return a verdict for every record whatever the type of the value; contains_val returns one exactly if the given value can be searched in the value of the record (text in text, anything in a list, text or number as key of a dictionary), and raises TypeError otherwise.", "quantifier": "every record and value", "why_tests_cant": "types of values", "anchors": ["ttp/group/contains_val.py"]}
{"id": "C76", "title": "When expand keeps every value", "statement": "For a record with distinct string keys whose values are not dictionaries, expand succeeds and lets every original value be read back under its dotted name exactly if no key is a dotted prefix of another one.", "quantifier": "every record", "why_tests_cant": "needs conflicting keys", "anchors": ["ttp/group/expand.py"]}
{"id": "C77", "title": "Group lookup", "statement": "When the record's value of the key is in the lookup table reached by the dotted name, the found value is stored in add_field, or merged into the record (update), or replaces the value; when key or value is missing the record is unchanged.", "quantifier": "every table, dotted name and record", "why_tests_cant": "unbounded tables and options", "anchors": ["ttp/group/lookup.py"]}
{"id": "C78", "title": "Group lookups whose name leads to no table", "statement": "If the dotted name of a group lookup leads nowhere, the record is returned unchanged; if it leads to a value that is not a dictionary, None is stored in the record (under the added field or in place of the value); if it goes through a value that is not a dictionary, AttributeError is raised.", "quantifier": "every table and dotted name", "why_tests_cant": "needs a dotted name leading to a non-dictionary", "anchors": ["ttp/group/lookup.py"]}
{"id": "C79", "title": "Group sformat", "statement": "sformat stores in add_field the text formatted with the record, or if names are missing with the record, then template variables, then global variables; if names are still missing the record is unchanged; no other key changes.", "quantifier": "every record, variables and format text", "why_tests_cant": "precedence between three scopes", "anchors": ["ttp/group/sformat.py"]}
{"id": "C80", "title": "Group macros run in order", "statement": "The macros named (comma separated, over all arguments) run left to right, each on the previous one's output; unknown names are skipped; True/None continue with the data unchanged; the first False rejects the record.", "quantifier": "every list of macros and data", "why_tests_cant": "all sequences", "anchors": ["ttp/group/macro.py"]}
{"id": "C81", "title": "When a session with output tags can be parsed again", "statement": "parse() can be called again, directly or after clear_result(), and so on for every further call, when the template's output functions do not fail and turn a list of results into a list; an output that turns the list into something else can make the next parse() or clear_result() raise.", "quantifier": "every template whose outputs map lists to lists, every history of parse, clear_result and add_input calls", "why_tests_cant": "needs an output that changes the type of the results and a second call", "anchors": ["ttp/ttp.py:ttp.clear_result", "ttp/ttp.py:_template_class.form_results"]}
{"id": "C82", "title": "What result() returned is the parser's own list", "statement": "The list returned by result() keeps following the parser: after a later parse() in per_input mode it also holds the new results, after clear_result() it is empty, and with per_template a later parse() leaves the object returned before as it was.", "quantifier": "every history of calls after result()", "why_tests_cant": "aliasing shows only when the caller keeps the object", "anchors": ["ttp/ttp.py:ttp.result", "ttp/ttp.py:ttp.clear_result", "ttp/ttp.py:_template_class.form_results"]}
{"id": "C83", "title": "What structure=dictionary contains", "statement": "result(structure='dictionary') has one entry per template name, in order of first appearance, and each entry is the results of the last template of that name.", "quantifier": "every list of templates", "why_tests_cant": "two templates loaded with the default name", "anchors": ["ttp/ttp.py:ttp.result", "ttp/ttp.py:ttp.add_template"]}
{"id": "C84", "title": "Results method spellings other than the two documented ones", "statement": "A template whose results attribute is spelled in any other way than exactly 'per_input' or 'per_template' (also in another case) gets nothing from parse(): its results stay as they were.", "quantifier": "every spelling", "why_tests_cant": "spelling variants", "anchors": ["ttp/ttp.py:ttp.__parse_in_one_process", "ttp/ttp.py:_template_class.form_results"]}
{"id": "C85", "title": "When adding data to an existing input keeps the template order of its groups", "statement": "However many times add_input is called for an input, its groups are run in template order as long as the groups' numbers are below the bound under which Python lists a set of small integers in increasing order; above it the order may change.", "quantifier": "every sequence of add_input calls, every order in which Python lists a set", "why_tests_cant": "set order is not visible for small consecutive indexes", "anchors": ["ttp/ttp.py:_template_class.update_input"]}
{"id": "C86", "title": "When a multi-process parse ends", "statement": "A multi-process parse() that can go no further has ended if and only if no worker died while parsing; when what a worker makes of a datum does not depend on its history, it ends under every schedule if no datum makes the parser raise, and under every schedule waits forever if one does.", "quantifier": "every exception, every schedule", "why_tests_cant": "needs a crash in a worker process", "anchors": ["ttp/ttp.py:ttp.__parse_in_multiprocess", "ttp/ttp.py:_worker.run"]}
{"id": "C87", "title": "Which functions workers have when custom functions were added", "statement": "In worker processes a scope to which add_function() added anything holds exactly the added functions, and every other scope holds exactly its built-in functions.", "quantifier": "every set of custom functions and scopes", "why_tests_cant": "visible only in multiprocess runs that mix built-in and custom functions", "anchors": ["ttp/ttp.py:_worker.__init__", "ttp/ttp.py:ttp.add_function"]}
{"id": "C88", "title": "Which extend tags are expanded", "statement": "After loading an orderly template (one in which what directly follows an extend that brings only text or nothing has nothing to expand itself) no extend tag is left in it: each was replaced by the content it names, in place and in order.", "quantifier": "every template and every extended content", "why_tests_cant": "depends on how many extend tags there are and on what they load", "anchors": ["ttp/ttp.py:_template_class.handle_extend"]}
{"id": "C89", "title": "What was written into a line is read back", "statement": "If the variables of a template line are words set off by blanks, then for a text line made by putting words in their places, the search finds that line and the captured values are exactly those words, in the right variables, whatever text comes before and after.", "quantifier": "every template line of this form, all words, all surrounding text", "why_tests_cant": "backtracking could split the text differently for some words", "anchors": ["ttp/ttp.py:_variable_class.form_regex", "ttp/ttp.py:_parser_class"]}
{"id": "C90", "title": "A line with two variables of one name is rejected at load", "statement": "The expression of a template line compiles iff its captured variables have different names (after characters that are not word characters became `_`).", "quantifier": "every template line whose text uses no double braces", "why_tests_cant": "names only collide for some lines, after sanitizing", "anchors": ["ttp/ttp.py:_variable_class.form_regex"]}
{"id": "C91", "title": "Which groups are open", "statement": "At any point of an input the open groups are the group recorded last, its parent, that one's parent and so on, up to where a parent was not open when its child started; starting a group closes everything that is not on that line. A normal line of a group that is neither the one being recorded nor one of its ancestors is dropped: the results are as if the line were not there. (`_line_` groups close nothing.)", "quantifier": "every history of matches over every tree of groups", "why_tests_cant": "depends on the whole history of starts", "anchors": ["ttp/ttp.py:_results_class.start", "ttp/ttp.py:_results_class.add", "ttp/ttp.py:_results_class.join"]}
{"id": "C92", "title": "Lines of enclosing groups", "statement": "A normal line of a group whose record is not the current one becomes that group's current record if the group is open, and changes nothing otherwise. When a group starts, exactly that group and the groups that were open from its parent outwards are open afterwards; a start by a `_line_` variable closes nothing. So a line of an enclosing group can be lost once a nested group was opened again.", "quantifier": "every history of matches over every tree of groups", "why_tests_cant": "needs a particular order of nested starts and tail lines", "anchors": ["ttp/ttp.py:_results_class.start", "ttp/ttp.py:_results_class.add"]}
{"id": "C93", "title": "When non-strict path selection raises", "statement": "traverse (and the path of table, csv and dict_to_list) with strict=False raises (AttributeError) exactly when a dictionary among the data has something else than a dictionary in the way of the path, and returns a structure otherwise.", "quantifier": "every structure and path", "why_tests_cant": "every structure has to be covered, and the failing shapes (a scalar in the path's way, a key already there, a mixed dictionary) do not occur in the documentation's examples", "anchors": ["ttp/output/transform.py:traverse"]}
{"id": "C94", "title": "What dict_to_list gives", "statement": "The entries of the dictionary before the first one that is not a dictionary get their key stored under the key name, which overwrites only a value already stored under that name. If all entries are dictionaries the result is the list of the entries in order, otherwise the dictionary itself (with the marked entries). A value that is neither list nor dictionary becomes an empty list.", "quantifier": "every dictionary and key name", "why_tests_cant": "every structure has to be covered, and the failing shapes (a scalar in the path's way, a key already there, a mixed dictionary) do not occur in the documentation's examples", "anchors": ["ttp/output/transform.py:dict_to_list"]}
{"id": "C95", "title": "What an output without the self returner does to the results", "statement": "An output without the self returner gives back the data it was given, but dict_to_list marks it in place: exactly the entries (before the first non-dictionary) of the dictionaries that are converted get the key; nothing else of the data changes, and nothing at all if the first entry is not a dictionary.", "quantifier": "every output function list and results", "why_tests_cant": "depends on every function leaving its argument alone", "anchors": ["ttp/ttp.py:_outputter_class.run", "ttp/output/transform.py:dict_to_list"]}
{"id": "C96", "title": "What is_equal compares", "statement": "is_equal gives a verdict exactly when the results are a dictionary, a list without the text '_anonymous_' as an item, or a text that does not contain it; otherwise it raises TypeError. It compares the value under '_anonymous_' of a dictionary that has one (ignoring the rest), else the results themselves; each results value determines one compared value.", "quantifier": "every pair of structures", "why_tests_cant": "every structure has to be covered, and the failing shapes (a scalar in the path's way, a key already there, a mixed dictionary) do not occur in the documentation's examples", "anchors": ["ttp/output/is_equal.py:is_equal"]}
{"id": "C97", "title": "When a csv table loads", "statement": "csv text with distinct headers, among them the key, loads exactly when every row fits: it has no more cells than the header row and has a cell under the key.", "quantifier": "every csv text", "why_tests_cant": "ragged rows are needed, with the key column among the missing ones", "anchors": ["ttp/utils/loaders.py:load_csv"]}
{"id": "C98", "title": "Which cache file contents are survived", "statement": "Start-up succeeds with exactly the functions of the package iff the cache file does not hold a foreign pickled object and, if it holds a cache of this version and Python, that cache lists the functions of the package.", "quantifier": "every cache file content", "why_tests_cant": "the content of the file is arbitrary: unpickled to something else, stale under the same version", "anchors": ["ttp/ttp.py:lazy_import_functions"]}
{"id": "C99", "title": "When the cache that was written is used", "statement": "After a run that wrote the cache, the next run of the same version and Python uses it instead of scanning the package again exactly when the first run had found a readable cache (of another version); a cache written when none could be read is not used by the next run, which writes it again, and the run after that uses it. The functions are the same in all these runs.", "quantifier": "every cache content before the first run", "why_tests_cant": "depends on the content before the run that wrote it", "anchors": ["ttp/ttp.py:lazy_import_functions"]}
{"id": "C100", "title": "Every function name runs its own function", "statement": "After any history of creating parsers, calling functions and adding custom functions, calling a function a parser did not replace runs the function the package offers under that name (with the name map applied); a name nobody offers or added is an error.", "quantifier": "every package without name clashes, every history, every number of parsers", "why_tests_cant": "functions are imported lazily, a module at a time, in whatever order they are first called", "anchors": ["ttp/ttp.py:lazy_import_functions", "ttp/ttp.py:CachedModule"]}
{"id": "C101", "title": "When a custom function stays in place", "statement": "A function registered with add_function under a new name runs under that name from then on. One that replaces a package function stays as long as the parser has not used the module (called a function of it that was not replaced), and forever if the parser had used the module before the registration; if the parser first uses the module after the registration, the package's function is back.", "quantifier": "every history of parsers, calls and registrations", "why_tests_cant": "only some orders of first calls replace it again", "anchors": ["ttp/ttp.py:ttp.add_function", "ttp/ttp.py:CachedModule"]}
{"id": "C102", "title": "Whose state a function works on", "statement": "A function called by a parser works on the variables, lookups and results of the parser whose first call of the function's module came last among all parsers of the process; so it is the calling parser when the process has only one parser, and can be another one otherwise.", "quantifier": "every history of parsers and calls", "why_tests_cant": "needs two parsers whose first uses of a module interleave", "anchors": ["ttp/ttp.py:CachedModule"]}
{"id": "C103", "title": "The record of a matched line", "statement": "The record of a matched line holds, under each variable's name, the captured value after all its functions, plus the fields the functions add; written variable by variable in line order, a variable's value before the fields its functions add, later writes winning. If a function of any variable rejects its value, there is no record: a start line counts as a rejected start, any other line as no match.", "quantifier": "every line, every match of it, every list of functions that leave the variables alone", "why_tests_cant": "quantifies over all captured values, all functions and all orders of variables", "anchors": ["ttp/ttp.py:_parser_class.parse"]}
{"id": "C104", "title": "let, copy and void", "statement": "let with one argument replaces the value and goes on with the other functions; let with two arguments keeps the value and adds the named field with the given value; copy keeps the value and adds it under the given name; void rejects the line.", "quantifier": "every value, name, list of further functions and record", "why_tests_cant": "must hold for every value and every position in the list of functions", "anchors": ["ttp/match/let.py:let", "ttp/match/copy_.py:copy_func", "ttp/match/void.py:void"]}
{"id": "C105", "title": "macro as a match function", "statement": "A macro that answers True or False accepts or rejects the value; None keeps it; a pair of a value and a dictionary replaces the value and adds the dictionary's fields to the record; any other answer that is not a tuple replaces the value. A macro name that is not defined keeps the value, and what a macro raises is raised.", "quantifier": "every macro, value and answer", "why_tests_cant": "the user's macro is an arbitrary function", "anchors": ["ttp/match/macro.py:macro"]}
{"id": "C106", "title": "Function names that are not match functions", "statement": "A name that is not a match function is looked up as an attribute or method of the value: a bool answer accepts or rejects, any other answer replaces the value, and without such an attribute the value is kept. The same happens if a match function itself raises KeyError; no other exception is handled.", "quantifier": "every function name, value and answer", "why_tests_cant": "quantifies over all functions, values and exceptions", "anchors": ["ttp/ttp.py:_parser_class.parse"]}
{"id": "C107", "title": "to_int, to_str, to_list, resub and resuball", "statement": "to_int turns the text of a whole number (blanks around, optional sign, digits with single underscores) into that number and keeps every other text; it raises TypeError for None, lists and dictionaries. to_str gives the text of a value, to_list a list of it. resub replaces a pattern, or the literal text of the template variable its name stands for; resuball applies in order every pattern its arguments and the variables they name stand for.", "quantifier": "every text and value; every pattern, replacement and set of variables, re.sub being arbitrary", "why_tests_cant": "infinitely many texts, patterns and variables", "anchors": ["ttp/match/to.py:to_int", "ttp/match/re_.py:resub", "ttp/match/re_.py:resuball"]}
{"id": "C108", "title": "Which templates and inputs add_input, clear_input and set_input touch", "statement": "add_input, clear_input and set_input act on exactly the template of the given name, or on all templates for '_all_'; other templates, all results, groups and outputs stay as they were. add_input changes only the named input, creating it after the existing ones; data that loads to nothing changes nothing. clear_input removes all inputs. After set_input an addressed template has exactly the named input with exactly the given items, each once, in order, or no input when there are none.", "quantifier": "every session, every call", "why_tests_cant": "all combinations of templates, inputs and calls", "anchors": ["ttp/ttp.py:ttp.add_input", "ttp/ttp.py:ttp.clear_input", "ttp/ttp.py:ttp.set_input"]}
{"id": "C109", "title": "What the built-in patterns match", "statement": "WORD matches non-empty text without white space; DIGIT non-empty digits; _line_ non-empty text within one line; PHRASE two or more words with single spaces, ORPHRASE one or more, ROW two or more words with any number of spaces between them; IP four numbers of one to three digits (any value), PREFIX the same with /n; IPV6 two to eight fields of up to four hexadecimal digits (nine when it ends in ::), PREFIXV6 the same with /n; MAC six pairs or three quadruples of hexadecimal digits with any of : . - between them. They match nothing else and capture nothing.", "quantifier": "every text, anywhere in the data", "why_tests_cant": "infinite languages", "anchors": ["ttp/patterns/get_pattern.py"]}
{"id": "C110", "title": "User-written character classes", "statement": "re(\"[parts]+\") with single characters and ranges matches exactly the non-empty texts all of whose characters are among the parts, re(\"[^parts]+\") those none of whose characters is.", "quantifier": "every list of parts made of characters without a special meaning in a class", "why_tests_cant": "infinite languages", "anchors": ["ttp/ttp.py:_variable_class.form_regex"]}
{"id": "C111", "title": "Orders of per_input results under multiprocessing", "statement": "With n worker processes the results of per_input mode come in exactly the orders in which n workers can deliver them: every order in which each worker's results keep the order of the items it took, and no other; with one worker the order of the items. With at least two workers any item can come last.", "quantifier": "every list of data items, every number of workers, every schedule", "why_tests_cant": "schedules", "anchors": ["ttp/ttp.py:ttp.parse", "ttp/ttp.py:ttp.__parse_in_multiprocess"]}
{"id": "C112", "title": "The template's XML reaches the parser as written", "statement": "For a template without extend tags, the element tree that groups, variables, inputs and lookups are made of is the tree of the template's text: the same elements with the same attributes, texts and tails in the same order, although the library writes the tree out and reads it again. The only change is that carriage returns given as character references become line feeds; a text without '&' is unchanged.", "quantifier": "every template text", "why_tests_cant": "the set of well-formed documents with entities, comments, CDATA and nesting is infinite", "anchors": ["ttp/ttp.py:_template_class.construct_etree", "ttp/ttp.py:_template_class.handle_extend", "ttp/ttp.py:_template_class.load_template_xml"]}
{"id": "C113", "title": "Template and group tags are optional", "statement": "A template text without tags means one group named _anonymous_ that contains the text between two line breaks. A text with tags but without an enclosing template element means the same as the text between template tags; an enclosing template element with tags inside is taken as it is. A text that is not well-formed even between template tags is refused with ParseError.", "quantifier": "every template text", "why_tests_cant": "ranges over all texts", "anchors": ["ttp/ttp.py:_template_class.construct_etree"]}
{"id": "C114", "title": "A template of plain lines extracts exactly the words its lines describe", "statement": "Let a template be lines of literal text with {{ name }} variables separated by blanks, given as bare text or inside a group with a name. For any texts added as inputs, parsing succeeds and the results are, for each different text in the order of first appearance, the records of that text: every line of the text that is the first template line - same literal text, runs of blanks and digits of any length, one word without blanks for each variable, blanks or a carriage return at the end allowed - starts a record with its words; every other line that is one of the further template lines (the first that fits) adds its words to the open record; all other lines change nothing. No record gives an empty dictionary, one record itself, several a list; a group's name is the key they are saved under. The structures list, dictionary and flat_list show the same results. Variables, files, clock and the order of sets do not matter.", "quantifier": "every list of template lines of this form, every list of input texts", "why_tests_cant": "template lines, texts and their numbers are unbounded, and the result depends on all parts of the program at once", "anchors": ["ttp/ttp.py:ttp.parse", "ttp/ttp.py:_template_class", "ttp/ttp.py:_group_class", "ttp/ttp.py:_variable_class.form_regex", "ttp/ttp.py:_parser_class.parse", "ttp/ttp.py:_results_class.make_results", "ttp/ttp.py:ttp.result"]}
{"id": "C115", "title": "Texts are parsed independently unless a function records", "statement": "Take any template text, with any groups, child templates and functions, that has no input tags, uses results=per_input, and in which no match variable uses record, count or gpvlookup and no group uses record. Then parsing texts together succeeds exactly when parsing each by itself succeeds, and the results are, template by template, the results of the texts by themselves, one per different text in the order of first addition. So no text can influence the result of another, whatever the regular expressions, defaults and functions are. With a recording function this fails: a later text sees what an earlier one recorded.", "quantifier": "every template text that loads, every list of input texts, any variables, files, clock", "why_tests_cant": "the number and contents of the texts are unbounded, and every function and every state of the parser could leak from one text to the next", "anchors": ["ttp/ttp.py:ttp.parse", "ttp/ttp.py:_parser_class.set_data", "ttp/ttp.py:_parser_class.parse", "ttp/ttp.py:_results_class.make_results", "ttp/match/record.py", "ttp/match/count.py", "ttp/group/record.py", "ttp/match/lookup.py"]}
{"id": "C116", "title": "A match function either tests the value or changes it, never both", "statement": "The functions startswith_re, endswith_re, contains_re, notstartswith_re, notendswith_re, exclude_re, exclude, equal, notequal, contains, isdigit, notdigit, greaterthan, lessthan, is_ip and void, with whatever arguments, never change the value or a variable and answer True or False; so a match variable with only such functions is saved exactly as matched when all of them accept it, and its line is dropped exactly when one rejects it after those before accepted. The functions copy, count, item, joinmatches, let, lookup, rlookup, gpvlookup, mac_eui, resub, resuball, record, sformat, join, append, prepend, print, replaceall, truncate, to_str, to_list, to_int, to_unicode, to_cidr, unrange and uptimeparse never reject: a match variable with only such functions loses no line, unless a function raises. (set and macro do both, raise always raises; cidr_match is C136; to_float, to_ip, to_net, ip_info, dns, geoip and sprintf are not modelled in the table.)", "quantifier": "every function call in a template: all names of the two lists, all arguments, all values and variables, chains of any length", "why_tests_cant": "the argument lists, the values and the chains are unbounded", "anchors": ["ttp/match/string.py", "ttp/match/re_.py", "ttp/match/void.py", "ttp/match/to.py", "ttp/match/lookup.py", "ttp/match/let.py", "ttp/ttp.py:_parser_class.parse"]}
{"id": "C117", "title": "What vars tags with a name put into the results", "statement": "The variables of all <vars> tags that carry name=path are saved in the results at that path, with the values the variables have when the results are made, each name once and in the order of first mention; variables that do not exist are left out. The paths are handled in ascending string order, whatever the order of the tags, each exactly as a record of a group with that path would be saved, and all of them before any group's matches. They are saved only if some group matched something in the text: otherwise the result stays as it was. Tags of the same path add up, tags without a name save nothing, and the template's variables are those of all tags with later values replacing earlier ones.", "quantifier": "every list of vars tags, all values, all static paths, every list of group matches, any result tree to start from", "why_tests_cant": "the number of tags, variables and paths is unbounded, and the order depends on all of them", "anchors": ["ttp/ttp.py:_results_class.save_vars", "ttp/ttp.py:_results_class.make_results", "ttp/ttp.py:_template_class.parse_vars"]}
{"id": "C118", "title": "What the attributes of a group tag mean", "statement": "Attribute names are read without regard to case and of several spellings the last one counts. method is lower-cased and stripped, group if not given; input and output are comma separated lists with the white space around the items removed, and count only for top groups; default is the variable of that name or the text itself. Without a name, a top group has the path _anonymous_* and a child the path of its parent, and the identifier ends in ._anonymous_. A name that does not begin with a slash continues the parent's path, one that does starts over (below an item _anonymous_ it starts with _anonymous_*, and a single slash is _anonymous_*). Every other attribute is a function with the value as its arguments; chain and functions add those of the named variable's functions (a text or a list of texts) that are group functions, in order; loading succeeds with respect to attributes exactly when each of them can be read so. The group object has exactly these attributes, its functions are the concatenation in the order of the attributes, and each child gets its number, its parent's path and its parent's identifier.", "quantifier": "every list of attributes, every parent path, all template variables, every group tree", "why_tests_cant": "the attribute texts, variables and trees are unbounded", "anchors": ["ttp/ttp.py:_group_class.get_attributes", "ttp/ttp.py:_group_class.set_anonymous_path", "ttp/ttp.py:_group_class.get_children"]}
{"id": "C119", "title": "The complete loader makes the described groups", "statement": "For every template that loads, the groups the complete loader makes (with real attribute parsing, chain variables, patterns and compiled expressions) are those of the structural description: the same identifiers, parents, names, paths, methods, inputs and outputs, and each list of expressions consists of the compiled expressions of the lines with that role - end lines those marked _end_; start lines the first line, lines marked _start_ and every line of a table, with a start action; normal lines the others and all those after a child group - where functions reached through chains of any depth count like written ones. The expression of a line of ordinary variables is the one whose matches C38, C39, C89 and C90 describe.", "quantifier": "every template text that loads, all variables and chains, group trees of any depth", "why_tests_cant": "trees, lines and chains are unbounded", "anchors": ["ttp/ttp.py:_group_class", "ttp/ttp.py:_group_class.get_regexes", "ttp/ttp.py:_variable_class.extract_functions", "ttp/ttp.py:_template_class.load_template_xml"]}
{"id": "C120", "title": "What the text of functions and arguments means", "statement": "The text of a match variable or of a function attribute is cut at bars, white space around the pieces is removed and empty pieces are dropped. A piece is a word, or a name followed (after at most one white space) by brackets that reach to its end, the name being as short as possible. What stands in the brackets is read by the rules of Python literals: texts in either quotes with the escapes of Python (one-letter, octal, hexadecimal, unknown ones kept), raw texts, texts one after the other joined, integers, lists, dictionaries, brackets, positional before named arguments, names given once; in addition a bare word is its own text, true/false/none in any case are the constants, and the names of the reading module are its objects. The grammar gives each line one meaning at most; the functions read are exactly those of the grammar, and every line outside of it ends with SystemExit. Consequently the printed form (repr) of any arguments - texts with any characters, integers, constants, nested lists and dictionaries - is read back as these arguments.", "quantifier": "every line of text; for the round trip every list of calls with literal arguments of any size and nesting", "why_tests_cant": "the texts, escapes and nestings are unbounded", "anchors": ["ttp/utils/get_attributes.py:get_attributes", "ttp/utils/get_attributes.py:_UndefSubst", "ttp/utils/get_attributes.py:_get_args_kwargs"]}
{"id": "C121", "title": "What a match variable is", "statement": "The text between {{ and }} is a name followed by functions. Chains are replaced by the functions that the named template variable holds (a text, or a list of texts), to any depth; a chain of an undefined variable stands for nothing, and chains that lead back to themselves make no variable. After that each function does one thing, in order: ignore, _start_, _end_, _headers_, _exact_, columns mark; re, _line_ and the pattern names add a regular expression (a template variable that is not empty, else a pattern, else the text itself); set keeps the line's text for the match, or gives a default if the line has no other text; default gives a default (None unless it has exactly one argument; not for _start_, _end_, _line_, ignore); functions of contains and equal kind get the values of variables named by their arguments; any other function is kept with its arguments. The last of _start_, _end_, _headers_, _line_, joinmatches decides how the match is saved. The variable's name has each run of non-word characters replaced by one underscore and an underscore before a leading digit; names that are words stay. In the line's regular expression it stands for (?P<name>(?:e1)|(?:e2)...), ignore for \\S+, for its one expression, or (two or more arguments) is left as it is.", "quantifier": "every variable text, template line, set of template variables and chains of any depth, earlier defaults and group default", "why_tests_cant": "texts, numbers of functions and chain depths are unbounded; any names can be variables", "anchors": ["ttp/ttp.py:_variable_class.__init__", "ttp/ttp.py:_variable_class.extract_functions", "ttp/ttp.py:_variable_class.form_regex", "ttp/patterns/get_pattern.py:get"]}
{"id": "C122", "title": "A headings line cuts each table row at the heading positions", "statement": "A template line of headings followed by {{ _headers_ }} describes a table. It gives a usable expression exactly when the number of required columns is at least one (two less than there are headings, or what the last columns(n) says, clipped between one and the number of headings) and the headings are distinct names; otherwise the template is unusable (one heading without columns raises IndexError, two headings without columns never compile). The rows found in the data are then exactly the lines longer than the columns before the last required one, in order; each is cut where the headings start (the indentation belongs to the first column, a tab counting four places), the last column takes the rest, and the cells put together are the row again. Each heading is a variable whose value is stripped, and a row holding the heading itself in its column is rejected.", "quantifier": "every list of headings, indentation, gap, rest of line, every columns attribute, and every data text", "why_tests_cant": "the cut positions, required columns and contents of rows are unbounded; a test fixes one table.", "anchors": ["ttp/ttp.py:_variable_class.form_regex (regex_headers)", "ttp/ttp.py:_variable_class"]}
{"id": "C123", "title": "What a group tag becomes, with its default values", "statement": "A group tag is accepted exactly when its attributes are, it has text, something stands after each child tag, and all its used lines (not blank, not starting with ##, with a variable) give expressions; child groups likewise. A line's expression is built from its variables in order; the first variable that starts a record decides what a match does, otherwise the last one, ignore never; a line with an unconditional set gives no expression but a default. Lines marked _end_ are end lines; the first line, lines marked _start_ and all lines of a table are start lines; the others, and all lines after a child group, are normal lines. The default value of a name is: what the group's dictionary of defaults says; otherwise the last default or unconditional set of a variable with the name; otherwise the text of the group's default attribute, for the names of variables other than _start_, _end_, _line_ and ignore. A record of defaults is made for a group that never matches exactly when a start line has a variable with a default, or there is no start line and the default is a dictionary. Values of several matches of a variable are joined with the separator of its first joinmatches.", "quantifier": "every group tag with any attributes, text, child tags of any depth, template variables", "why_tests_cant": "texts, lines, variables and nesting are unbounded; defaults depend on all lines of the group at once.", "anchors": ["ttp/ttp.py:_group_class.get_regexes", "ttp/ttp.py:_group_class.get_children", "ttp/ttp.py:_group_class", "ttp/ttp.py:_variable_class"]}
{"id": "C124", "title": "Functions called by name get the arguments their definitions say", "statement": "A match or group function named in a template is called by Python's rules: values in order, values by name, defaults for the rest, extra values only for functions with *args, names only once and only if the definition has them; anything else is a TypeError. Giving leading arguments by name instead of by place changes nothing. The function that runs is the one of that name, with each argument in the role its definition gives it; a name no function has is a KeyError (after which TTP tries a method of the value).", "quantifier": "all names, argument lists, keyword dictionaries, values and environments", "why_tests_cant": "tests call each function with one or two sets of arguments; the claim is about every argument list", "anchors": ["ttp/ttp.py: _parser_class.parse run_functions/check_matches", "ttp/ttp.py: _results_class.processgrp", "ttp/match/*.py def lines", "ttp/group/*.py def lines", "ttp/utils/loaders.py / lazy import of functions"]}
{"id": "C125", "title": "String methods, format strings, wildcards and pattern searches do what they say", "statement": "A name in a variable's function chain that is no match function is tried as a method of the matched text: upper, lower, strip, lstrip, rstrip, split, replace, startswith and endswith give exactly the text, pieces or answer their definitions describe (leftmost cutting, maximal words, characters stripped from the sides only), and a name that is no method is an AttributeError. A format string succeeds exactly when all its fields have values, and every field becomes its value. gpvlookup's wildcards match by * and ?. The pattern tests (contains_re and the like) say yes exactly when the pattern occurs in the value - at its beginning with ^, at its end or before a final line break with $ - and resub replaces the leftmost matches, at most as many as told, by what the replacement text makes of each.", "quantifier": "all values, method names, arguments, format strings, wildcard patterns, regular expressions that compile, replacement texts and counts", "why_tests_cant": "each operation has unboundedly many texts and patterns; tests try a handful", "anchors": ["ttp/ttp.py: _parser_class check_matches (getattr of data)", "ttp/match/string.py: sformat, contains_re, startswith_re, endswith_re, resub, resuball", "ttp/match/lookup.py: gpvlookup", "ttp/group/sformat.py"]}
{"id": "C126", "title": "Paths, JSON, Python text and the loaders of vars and lookup tags give exactly what they describe", "statement": "A path is the file at it, else that file in TTP_TEMPLATES_DIR, else the directory's files (in directory order, those with a wanted extension in whose names every filter pattern occurs), else the text itself; data that is no text is passed on as it is. The JSON loader accepts exactly the texts of the JSON grammar - blanks, literals, integers, escapes, lists, objects with the last of equal keys winning - and gives the value they spell; a text that is not JSON gives None with a logged error. The Python loader gives the dictionary of the assignments in the text, statements being able to run over lines, or else the one literal it is. The include attribute adds the files' texts on new lines; the load attribute picks the loader in any case, python by default; another loader name is a KeyError.", "quantifier": "all paths, file systems, extension and filter lists, texts and tag attributes", "why_tests_cant": "the texts a loader may be given are unbounded and nested; tests try a handful of files", "anchors": ["ttp/utils/loaders.py: load_files, load_struct, load_json, load_python, _get_include_data", "ttp/utils/load_python_exec_py3.py"]}
{"id": "C127", "title": "An input tag makes exactly the input its attributes and text describe", "statement": "Each attribute of an input tag, and each attribute its text gives where the load attribute stands, does one thing, in the order they stand: name, load, groups, extensions, filters, url, functions, extract_commands, in upper or lower case; a function's own name adds that function; others are ignored. Groups that name the input take the place of the groups attribute's; a group with an input attribute is never picked by groups. With load text the data is the tag's text, else the files of the urls after the base path. Tags of one name are one input: groups are joined, data already there is not added again, a tag without data makes the files be read again. A name that only a group's input attribute gives is a path, read with the template, and gets that group only.", "quantifier": "all input tags, attribute orders, texts, file systems, groups and orders in which a set is listed", "why_tests_cant": "attributes interact through order (groups before name, load in the middle) and tags of one name through each other; tests try one tag with two or three attributes", "anchors": ["ttp/ttp.py: _input_class.__init__, get_attributes, load_data", "ttp/ttp.py: _template_class.update_input, update_inputs_with_groups"]}
{"id": "C128", "title": "The host name and the commands' outputs are the ones the data's prompts show", "statement": "gethostname gives the host in the first line, apart from the first and last, that has the first of seven prompt forms that any line has, with byte order marks removed; nothing if no line has one, and then the variable is not set; getfilename gives the path of the data. extract_commands keeps of the text, for each command in the order given, the first place where the prompt is followed by the command alone on its line and the output up to the next prompt or the end, each between newlines; the text stays as it is if there is no host name or no output.", "quantifier": "all texts, host names, commands that are plain text, and lists of commands", "why_tests_cant": "the prompts overlap, the order of the forms goes before the order of the lines and backtracking picks the host inside a line; tests have one prompt per text", "anchors": ["ttp/variable/gethostname.py: gethostname", "ttp/variable/getfilename.py: getfilename", "ttp/input/commands.py: extract_commands", "ttp/ttp.py: _parser_class.set_data, run_var_functions"]}
{"id": "C129", "title": "The json format of results is readable JSON of the same results", "statement": "The json formatter's text has one item per line, indented by four spaces per level, with the entries of every dictionary in the order of their keys, and only printable ASCII characters. It exists exactly for results without objects whose dictionaries have keys of one kind, else the formatter fails with TypeError. Reading it with a JSON loader gives the same results, equal to the ones that were formatted if every key is a text (other keys become texts).", "quantifier": "all results: values of any depth, texts of any characters, integers of any size, dictionaries in any order", "why_tests_cant": "texts with quotes, control and non-ASCII characters, nesting and sorting interact; tests compare a few samples", "anchors": ["ttp/formatters/json_formatter.py: json_formatter", "ttp/utils/loaders.py: load_json"]}
{"id": "C130", "title": "Output tags and result() arguments run as they are written", "statement": "An output tag, or result(**kwargs), means the output that its attributes and text say: comma and dot separated lists, functions in the order written, a condition, defaults for what is not given. Running it gives exactly what the condition, the functions (traverse, dict_to_list, is_equal), the formatter (raw, json, table, csv) and the returners (self, terminal, file) say: the returned results, and what is printed or written. Without the self returner the results stay as the functions left them. Several outputs are applied one after the other. result(templates, structure, **kwargs) runs the output for each template asked for, in their order, and gives what it returned as a list, as a dictionary by template name (templates without a name left out, the last of a name counting) or as a flat list.", "quantifier": "every output tag or set of arguments, all data, variables and lists of outputs", "why_tests_cant": "attributes, functions, formatters, returners and data combine without bound; tests try a few combinations each", "anchors": ["ttp/ttp.py:_outputter_class", "ttp/output/transform.py", "ttp/output/is_equal.py", "ttp/formatters/table_formatter.py", "ttp/formatters/csv_formatter.py", "ttp/returners/terminal_returner.py", "ttp/returners/file_returner.py"]}
{"id": "C131", "title": "Loading a template: every tag becomes what its rules say, and nothing else", "statement": "Adding a template reads its text as a tree of tags (wrapping it in a template tag, or in one group if it has no tags), runs its macro tags, replaces its extend tags by what the files hold (changed by the extend tag's macro, if it names one), and then makes of it exactly: its name, results mode and path character from the tag's attributes; its variables from the variables tags in order (later ones win, a tag's name puts its keys into the results), split into plain variables and those computed for every input; its lookup tables by name; its groups; its outputs, distributed over the groups that name them; its inputs with the groups they feed; its macros. Child templates replace the template; they are named by their number unless they have a name. Every other text fails to load.", "quantifier": "all template texts, all variables given to the parser, all base paths, all files and directories, all meanings of macro code", "why_tests_cant": "A test loads a few templates and looks at some of the result; that every tag of every template gives exactly this and nothing else is a statement about all texts.", "anchors": ["ttp/ttp.py: _template_class.load_template_xml, construct_etree, handle_extend, collect_tags, parse_vars, parse_lookup, parse_macro, parse_template, get_var_functions", "ttp/ttp.py: ttp.add_template"]}
{"id": "C132", "title": "Macros do in match variables, groups, inputs and outputs exactly what their returned values say", "statement": "A macro function that a template's macro tag defines is called by name. In a match variable True and False decide whether the match is valid, None keeps the value, a value with a dictionary gives the value and adds the dictionary's fields, and anything else is the new value. In a group, one or more names (also comma separated) run one after the other: False drops the group's results, True (or what equals it) and None keep them, anything else replaces them. In an input True and None keep the text, False keeps the text and stops the input's other functions, a string is the new text. A name that is not defined changes nothing; of several macro tags that define one name the last one counts. Outputs see the macros of their own template; a template without macros uses those left by the template before, or by the template parsed last.", "quantifier": "all macro tables with arbitrary macro functions, all names, all values, group results and texts, all chains of input functions, all lists of templates", "why_tests_cant": "Which macro is called and what its result does depends on every possible function, returned value, and order of templates; tests try a few functions in one template.", "anchors": ["ttp/match/macro.py: macro", "ttp/group/macro.py: macro", "ttp/input/macro.py: macro", "ttp/output/macro.py: macro", "ttp/ttp.py: _outputter_class.run, _template_class.run_outputs, ttp.parse_in_one_process"]}
{"id": "C133", "title": "Every outcome of every match variable function, failures included", "statement": "For every value of a match and all arguments, each built-in match variable function (exclude, contains, the regular expression checks, join, append, prepend, replaceall, resub, resuball, truncate, unrange, lookup from lookup tags, templates and groups, rlookup, gpvlookup, count, set, let, copy, isdigit, notdigit, greaterthan, lessthan, to_int, to_str, to_list, void, joinmatches) has exactly the outcome that is written down for it: the new value, whether the match is valid, the fields that are added and the variables that are recorded, or the exception that is raised - TypeError, AttributeError, ValueError or IndexError, and only where it is said.", "quantifier": "all values of matches (texts, numbers, truth values, None, lists, dictionaries, objects), all arguments, all tables of variables, lookups, results and templates, all ways to search and substitute", "why_tests_cant": "Tests call a function on a handful of texts; what it does to a list, a missing table, a negative position or a key that is no text decides whether a whole parse aborts, and there is no end of such values.", "anchors": ["ttp/match/string.py", "ttp/match/unrange.py", "ttp/match/lookup.py: lookup, rlookup, gpvlookup", "ttp/match/count.py", "ttp/match/set_.py", "ttp/match/let.py", "ttp/match/re_.py", "ttp/match/to.py", "ttp/match/copy_.py", "ttp/match/void.py"]}
{"id": "C134", "title": "Every outcome of the group functions", "statement": "For every record, whatever its data is, each group function (contains, containsall, contains_val, del, equal, exclude, exclude_val, excludeall, expand, itemize, items2dict, lookup, macro, record, set, sformat, str_to_unicode, to_int, to_ip, void) gives exactly the data, the validity, the path, the variables and the saved results that its documentation describes - or exactly the exception that Python raises, for instance KeyError when items2dict gets the same name twice, AttributeError when a dotted name goes through a value that is no dictionary, TypeError for keyword arguments that are no texts.", "quantifier": "every record state, every argument list, every template variable table, every lookup source, every format function, float conversion and macro", "why_tests_cant": "outcomes range over all values a macro or itemize may have left as the record's data, all default tables and all argument lists; tests exercise one call each and never the exceptions", "anchors": ["ttp/group/contains.py:contains", "ttp/group/items2dict.py:items2dict", "ttp/group/itemize.py:itemize", "ttp/group/lookup.py:lookup", "ttp/group/sformat.py:sformat", "ttp/group/to_converters.py:to_int", "ttp/group/expand.py:expand", "ttp/group/delete.py:delete_func", "ttp/group/set_.py:set_func", "ttp/group/record.py:record", "ttp/group/macro.py:macro", "ttp/group/to_ip.py:to_ip"]}
{"id": "C135", "title": "Lookups in the results of templates and groups see exactly what was parsed before them", "statement": "When templates are parsed, they are processed in their order and each of the functions lookup(template=...), lookup(group=...) of match variables and groups sees every template by its name: those before with the complete results of their parsing, those after with their still empty results, and its own with the results of its data parsed earlier (per_input: each datum's results join after it is parsed; per_template: nothing until all are). Results are those before outputs: outputs run when all templates are parsed. A match variable lookup(template='a.b') gives the row of the table at that path for the value and the value itself otherwise; groups also see what is being saved for the current datum. A program that does not need such lookups behaves as without them.", "quantifier": "every template text, set of files, data, results method per_input or per_template, number of templates, inputs and groups; every source path, value and view of results", "why_tests_cant": "the results that show at each moment depend on everything parsed before, for all orders of templates and data; tests try a handful of template pairs", "anchors": ["ttp/ttp.py:_ttp_.__parse_in_one_process (502-532)", "ttp/ttp.py:_results_class.make_results", "ttp/match/lookup.py:lookup", "ttp/group/lookup.py:lookup"]}
{"id": "C136", "title": "is_ip and cidr_match read addresses, masks and networks as written, and test membership exactly", "statement": "is_ip keeps the match and holds exactly when the text writes an IPv4 or IPv6 address or interface of the version asked for: four decimal numbers up to 255 without leading zeros; eight hexadecimal groups of up to four digits, the last two possibly in IPv4 form, one run of zero groups possibly left out as ::, possibly with a scope; a prefix length after a slash (or a space) as a number, a netmask or an inverted netmask. cidr_match(prefix) - the prefix a template variable or itself - requires a network written with its first address, otherwise the function fails; it holds exactly when the versions are the same and the match's network (an address alone is its own) and the given one have an address in common, and leaves a match that is no address alone.", "quantifier": "every text, value, list of arguments, set of template variables and prefix", "why_tests_cant": "there are 2^32 and 2^128 addresses, several spellings of each, and all pairs of prefix lengths; tests try a few of each", "anchors": ["ttp/match/ip.py:is_ip", "ttp/match/ip.py:to_ip", "ttp/match/ip.py:to_net", "ttp/match/ip.py:cidr_match"]}
{"id": "C137", "title": "Any sequence of calls on one parser object", "statement": "On one ttp object add_template, add_vars, add_lookup, add_input, set_input, clear_input, parse(one=True), clear_result and result may be called in any order. The object's templates are those of the texts given, in the order of the calls; each text is read with the variables given before it, and a loaded template is afterwards changed only by add_vars and add_lookup: every variable has the value of the last add_vars with its name since the template was loaded, every lookup table that of the last add_lookup with its name, and tables given before a template was loaded are unknown to it. add_template succeeds exactly if every text its path leads to is a template, and a path to several files is the same as one call for each text. Adding variables and tables changes no results and no inputs, inputs change no results, a new template comes with its own inputs and no results and leaves the others alone. Every parse uses the variables, tables and inputs of the moment, keeps the results of earlier parses, and runs the outputs with the variables and macros of the moment. One add_template, inputs and one parse are the single-run program of C135.", "quantifier": "all histories of calls of any length with any arguments (texts, paths, dictionaries, lookup texts in all formats, data, names); all files; all orders Python's sets may have", "why_tests_cant": "the number of call sequences is unbounded and the effect of a call depends on all calls before it; tests cover a few typical sequences", "anchors": ["ttp/ttp.py: ttp.__init__, add_template, add_lookup, add_vars, add_input, set_input, clear_input, parse, clear_result, result", "ttp/ttp.py: _template_class.add_lookup, add_vars, run_outputs, form_results"]}
{"id": "C138", "title": "uptimeparse reads a written time as the sum of its counts, or leaves the text", "statement": "uptimeparse takes a text that writes counts of years, months, weeks, days, hours, minutes and seconds, in that order, each optional, with the words and abbreviations of the unit in small or capital letters, blanks anywhere between, and a comma or slash after a unit other than seconds; if all counts are whole numbers the result is their sum in seconds (so any choice of whole counts, written out with the names of the units and commas, is read back as its sum), or with format dict a dictionary of the counts written, by unit; with a fractional count, another format, a blank text or any other text, the text is left. A value that is no text fails. A text is read in one way unless a digit or dot directly follows an abbreviation of years or months (1 yr12 weeks), which can take that character as its own.", "quantifier": "every text, value and format", "why_tests_cant": "texts are unbounded, with optional parts, blanks, and words that are prefixes of each other; tests try a few", "anchors": ["ttp/match/uptimeparse.py:uptimeparse"]}
{"id": "C139", "title": "get_input_load gives what the text of each input tag loads", "statement": "get_input_load returns a dictionary from the names of the templates to a dictionary from the names of the inputs of that template to their loads. The load of an input tag is the dictionary that the tag's load attribute (python if not given) loads from the tag's text, and {} for the text loader or when nothing or an empty value is loaded; if the loaded dictionary has a load attribute of its own that loads an included file, that one takes its place. Of two tags of a template with the same name the first one's load stays; of two templates with the same name the last one's. Inputs that only add_input or a group's input attribute has made have {}, and add_input changes no load that is there.", "quantifier": "every template's tags, attributes, texts and files, every list of templates, every series of add_input calls", "why_tests_cant": "the load reads its own result again, and which of two loads stays depends on the order of attributes, tags and templates and on the history of calls", "anchors": ["ttp/ttp.py:get_input_load", "ttp/ttp.py:_input_class.get_attributes", "ttp/ttp.py:update_input"]}
{"id": "C140", "title": "add_template's name and filters decide which templates of a text are loaded", "statement": "add_template(text, template_name, filters) names the text's own template by its name attribute or else template_name. Without filters, or when filters have that name, the template is loaded; of its child templates those are loaded that have a name attribute in filters (all without filters), in order, and they take the template's place; if there are none, the template itself is added. When filters do not have that name one template is added that has no groups, inputs, outputs, macros and lookups, and none of the child templates is loaded, whatever their names. With the defaults this is what ttp(template=text) loads.", "quantifier": "every text, name, list of filters, base path and parser variables", "why_tests_cant": "which templates are loaded depends on names at two levels, on attributes that may be missing and on the order of the two checks; tests use a few texts", "anchors": ["ttp/ttp.py:add_template", "ttp/ttp.py:parse_template", "ttp/ttp.py:load_template_xml"]}
