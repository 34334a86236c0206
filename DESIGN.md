# A Rocq model of dmulyalin/ttp

`/verif/rocq/theories` holds a model of the Python package in `/repo/ttp`, written function by function, and
theorems about it.  Statements of the properties are in `properties.jsonl`, the theorems proved for each in
`MANIFEST.json`, and both are put side by side at the end of this file (`tools/design.py` writes that part).

## How the model is written

* Python values are the inductive type `val` (PyBase.v): None, booleans, integers, strings (lists of `ascii`),
  lists and dictionaries.  Dictionaries are association lists in insertion order; keys are strings, integers or None.
* Exceptions are values: a function that can raise returns `res A` (`Ok a` or `Raise e`), and `do x <- e; k`
  is sequencing.  A theorem that says `= Ok ...` says that nothing is raised.
* Functions that mutate an object return the new value.  Where *aliasing* is what a property is about (C82, C102:
  what an object handed out shows later), a heap is modelled explicitly (SessionHeap.v, Cache.v).
* Loops are `Fixpoint`s over the list walked, or a bounded iteration whose bound is proved large enough
  (`free_key`, the regex matcher's star).
* Concurrency (C29-C32, C86, C87) is a transition system: parent, queue, any number of workers, results; a theorem
  about it quantifies over every execution (`steps`), i.e. every schedule.
* What a user can put in is universally quantified: group functions, match functions of a custom kind, compiled
  regular expressions (in Parser.v), output functions, file contents, file sizes.
* Every definition of a model file cites the lines of /repo it stands for, and says where it simplifies.
* `Spec*.v` are small specifications that do not refer to the code's helpers; `*Facts.v`, `*Exact.v`, ... are proofs;
  `Properties_*.v` contain only property theorems, an example for each (hypotheses met, result computed), and
  `Print Assumptions`.

Theorem names: `C12_...` belongs to property C12.  `_partial`: only part of the property; `_refuted`: the property
as stated is false of the code, the theorem is a proof of its negation by a concrete run (status "partial").
`_limits`: the property is an exact characterization, proved; the theorem shows that the more generous claim one
might expect is false.

## Trusted base

* Coq 8.16.1: its kernel, including the `vm_compute` machine used by examples and by the witnesses of `_refuted` /
  `_limits` theorems.
* `Print Assumptions` of every property theorem answers "Closed under the global context": no axiom is used, neither
  of the standard library nor of this development.  (Only the standard library is imported; loading `ssreflect`-free
  standard library files makes checkers list `Coq.ssr.ssrunder` parameters as present in the environment; no theorem
  depends on them.)
* That the model says what the code says: the reading of /repo, cited line by line.
* The model of the host: PyBase.v (str, int, list, dict methods), Regex.v (backtracking `re`), Loaders.v (csv.reader,
  splitlines), Workers.v (multiprocessing queues), Cache.v (pickle as an arbitrary partial decoding).

## What is modelled

| file | kind | content |
|---|---|---|
| `PyBase.v` | model | the fragment of CPython's built-in types that ttp relies on. This file is a model of the *host language*, not of ttp: strings, integers, ordered dictionaries, lists and exceptions, as far as /repo/ttp uses them. Simplifications (stated once, used everywhere): - a Python [str] is a [list ascii]; a ch |
| `Regex.v` | model | the fragment of Python's [re] that ttp relies on. A backtracking matcher in continuation-passing style, giving the same priorities as [sre]: alternatives left to right, greedy repetition tries one more iteration first, lazy repetition tries to stop first. Simplifications: no look-behind, no back-ref |
| `Tree.v` | model | addresses inside nested dictionaries and lists. Not a model of any ttp function: it is the vocabulary in which a Python reference into a nested structure, and a mutation through it, are expressed. |
| `Results.v` | model | model of ttp's results builder, [_results_class] (/repo/ttp/ttp.py lines 2668-3262). The object's attributes become the record [rstate]; every method is a function returning the new state or the Python exception it raises. |
| `MatchFuncs.v` | model | the built-in match variable functions of /repo/ttp/match/*.py. Every function receives the match value [data] and returns the pair (new value, flag); the flag is None, a boolean, or {"new_field": {...}} (see Parser.v, /repo/ttp/ttp.py 2441-2560, for how it is used). Functions that use the shared [_t |
| `Parser.v` | model | model of [_parser_class] (/repo/ttp/ttp.py 2350-2656). A compiled regular expression is an arbitrary function from a text to its list of matches; match functions are arbitrary too. Parsing runs every regex of the group tree over a window of the text and collects the matches by position; the sorted m |
| `GroupFuncs.v` | model | model of the group functions, /repo/ttp/group/*.py. A group function is called by _results_class.processgrp (/repo/ttp/ttp.py 3251-3261) with the record's data; it may read and write the results object (record["PATH"], record["DEFAULTS"], dyn_path_cache, results) and the variables: this is [fstate]  |
| `Session.v` | model | the public [ttp] object - inputs, parsing, results. Models ttp/ttp.py 251-347 (inputs), 415-451 and 498-532 (parse), 611-659 (result), 680-704 (clear_result), 983-1072 (template bookkeeping) and 1466-1510, 1597-1619 (input objects). Simplifications: - what a parser object does with one datum is a pa |
| `SessionHeap.v` | model | what result() hands out. The same operations as Session.v with results lists as mutable objects: ttp.py 983-1013 (form_results appends to the list in place, or binds a new object), 625-630 (result(structure="list") returns the templates' own objects), 696-704 (clear_result empties the object in plac |
| `Workers.v` | model | multiprocess parsing of one template. Models ttp/ttp.py 453-496 (__parse_in_multiprocess) and 786-883 (_worker), with the documented behaviour of multiprocessing.JoinableQueue and Queue. Every process is a state machine; an execution is any interleaving of their steps. Each worker has its own copy [ |
| `Template.v` | model | from a template's XML tree to its groups. Models ttp/ttp.py 1074-1104 (update_groups_with_outputs), 1252-1309 (filter_extend), 1319-1373 (handle_extend), 1694-1949 (_group_class) and the save action of a match variable (1966-2131). Simplifications: the XML text was already parsed into a tree; what u |
| `FormRegex.v` | model | from a template line to its regular expression, and from the text of a regular expression to the expression. Models ttp/ttp.py 2157-2336 (form_regex, without _headers_), the part of get_regexes that joins the variables of a line (1818-1848), ttp/patterns/get_pattern.py, CPython's [re.escape] (3.7+)  |
| `Outputs.v` | model | output functions, formatters and the outputter. Models /repo/ttp/output/transform.py, /repo/ttp/output/is_equal.py, /repo/ttp/formatters/table_formatter.py, csv_formatter.py and _outputter_class.run (/repo/ttp/ttp.py 3395-3448). |
| `Loaders.v` | model | /repo/ttp/utils/loaders.py load_csv (300-327) with the parts of Python it uses, [str.splitlines] and [csv.reader] with its default dialect. |
| `Cache.v` | model | lazy_import_functions, CachedModule and add_function (/repo/ttp/ttp.py 29-66, 69-177, 797-805). |
| `Attributes.v` | model | the functions of a match variable or of a chain, read from text. Models ttp/utils/get_attributes.py. Simplification: [eval] is modelled on literals only (names, strings, integers, True/False/None, lists, dictionaries, keyword arguments). Expressions outside of this fragment (operators other than a m |
| `MatchVar.v` | model | match variables. Models _variable_class (ttp/ttp.py 1960-2336): what the text between {{ and }} means - the variable's name, its functions, its regular expressions, the save action, the default value - and its part of the line's regular expression, including _headers_ (2240-2310). Simplification: th |
| `Compile.v` | model | from the template's XML tree to the groups that parse. Models _group_class (ttp/ttp.py 1639-1949) completely: attributes, the regexes of the group's lines, default values, children; and what check_matches (2440-2523) takes from a regex dictionary. Simplifications: a regular expression outside of For |
| `FuncTable.v` | model | calling a function by its name. Models how check_matches (ttp/ttp.py 2457-2492) and processgrp (3251-3261) call the functions of ttp/match/*.py and ttp/group/*.py: the table of names (with the [_name_map_]s), Python's binding of positional and keyword arguments to the parameters, and the methods of  |
| `Xml.v` | model | the XML reader and writer that templates go through. A model of the host library (xml.etree.ElementTree over expat), not of ttp: ET.XML and ET.tostring as construct_etree and handle_extend (ttp/ttp.py 1319-1402) use them. An absent text or tail (Python's None) is the empty string: ElementTree never  |
| `Files.v` | model | the file system, load_files and the loaders of structured text. Models ttp/utils/loaders.py 1-300 and ttp/utils/load_python_exec_py3.py. Simplifications. The file system is a constant [world]; a file's content is its text after decoding and newline translation. Outside of the model (RuntimeError): t |
| `Inputs.v` | model | input tags, and what a parser does with a datum before it parses. Models _input_class (ttp/ttp.py 1425-1619), update_input for an element and for a group's input attribute (1028-1072), set_data's text (2363-2400), ttp/input/*.py and ttp/variable/gethostname.py, getfilename.py. Simplifications: an at |
| `JsonDump.v` | model | the json formatter. Models ttp/formatters/json_formatter.py 4-8: [dumps(data, sort_keys=True, indent=4, separators=(",", ": "))], and what json.encoder of the standard library does with these arguments. Simplifications: an object that is none of None, bool, int, str, list, dict is not serializable ( |
| `OutputTags.v` | model | output tags and what they do with results. Models _outputter_class (ttp/ttp.py 3275-3448): __init__, extract_load, get_attributes, run with the functions ttp/output/transform.py, is_equal.py and macro.py, the formatters raw, json, table and csv and the returners self, terminal and file; update_group |
| `Load.v` | model | from the template's text to its variables and groups. Models _template_class (ttp/ttp.py 891-1402): construct_etree, handle_extend's serialization, get_template_attributes, collect_tags, parse_vars, parse_lookup, parse_group, parse_template, get_var_functions. Simplifications. A macro is a function  |
| `Run.v` | model | a template's text and data give the results. Everything together: Load.v makes the template objects out of the text, Session.v adds the inputs, runs the parser (Parser.v, Results.v) on every text and forms the results. Models what [p = ttp(template=text); p.add_input(d1); ...; p.parse(one=True); p.r |
| `RunSeen.v` | model | the complete program, with lookups in the results of templates and groups. Run.v with the parts of the state that [lookup(template=...)] and [lookup(group=...)] read: [_ttp_["ttp_object"]._templates], [_ttp_["template_obj"].results] (ttp.py 503-505, match/lookup.py 14-33, group/lookup.py 22-47) and  |
| `Ip.v` | model | the match functions is_ip and cidr_match. Models ttp/match/ip.py 7-35 (to_ip, is_ip), 38-50 (to_net) and 131-182 (cidr_match) and what they use of Python's [ipaddress] module (Python 3.11): ip_address, ip_interface, ip_network and the reading of IPv4 and IPv6 addresses, netmasks and prefix lengths.  |
| `Api.v` | model | histories of calls on one ttp object, with the complete program behind them. Models [p = ttp(base_path=base, vars=vars)] and then any sequence of add_template, add_vars, add_lookup, add_input, set_input, clear_input, parse(one=True), clear_result, and at the end result(): ttp.py 219-413, 415-532, 66 |
| `Uptime.v` | model | the match function uptimeparse. Models ttp/match/uptimeparse.py 10-94: the regular expression built at lines 12-40 from its parts and the function. Simplifications. Python's limit of 4300 digits for [int] is not modelled. The two unnamed groups of MINS capture and are never read. The expression ends |
| `InputLoad.v` | model | the structure that an input tag's text loads. Models the [parameters] of _input_class (ttp/ttp.py 1445, 1474-1480), which of them a template keeps when two tags have the same name (update_input, 1028-1055) and get_input_load (670-694). Simplification: the parameters are kept next to the input, not i |
| `InputLoadText.v` | model | get_input_load of a program: a template's text, and then inputs. Models [p = ttp(template=text, base_path=base, vars=vars)], [p.add_input(data, template_name=name)] for each of [texts] and [p.get_input_load()]: ttp.py 219-248, 349-391, 1246-1271, 1028-1055, 670-694. The inputs' tags are those that L |
| `AddTemplate.v` | model | add_template with a name and filters. Models add_template (ttp/ttp.py 349-391) for one text, and what _template_class does with its name and filters: 1183-1196 and 1401-1418. The rest is Load.load_tree. Simplification: with filters, the numbers of the child templates do not matter, since only those  |
| `SpecTree.v` | specification | what it means to follow a results path. Independent of the code: [reaches P v a w] says that following the keys [P] from [v] - entering the last item whenever a list is met and keys are left - one arrives at address [a], where [w] is stored. |
| `SpecRecords.v` | specification | reading a group's match events left to right. Independent of the code. An event is what the parser found at one place in the text for one group: an accepted start line with its values, a [_start_] line, a start line whose checks failed, a normal line with its values, or an end line. |
| `SpecChoice.v` | specification | which of several simultaneous matches is used. Independent of the code: a candidate has a class (0 best, 3 worst) and, inside its class, a level (0 best, 2 worst); among the best candidates of level 0 or 1 the first is taken, of level 2 the last. |
| `SpecPath.v` | specification | dynamic path items, independently of regular expressions. A path item is either static text or [pre{{ ws name ws }}post]; the name is looked up in the record, then among the values remembered from earlier records, then in the template variables. |
| `SpecLeaves.v` | specification | the scalars a nested value is made of. |
| `SpecKeys.v` | specification | numbers written as keys. Independent of the code. |
| `SpecJoin.v` | specification | what joining several values of one variable gives. Independent of the code. |
| `SpecMatch.v` | specification | what the match variable functions should do, in plain terms. Independent of MatchFuncs.v. |
| `SpecParser.v` | specification | vocabulary for the statements about parsing (C17-C22). |
| `SpecConvert.v` | specification | the text of a whole number, regular expressions aside; independent of MatchFuncs.v. |
| `SpecGroup.v` | specification | what the group functions should do, in plain terms. Independent of GroupFuncs.v. |
| `SpecSession.v` | specification | what the session API promises, stated without its code. |
| `SpecWorkers.v` | specification | the order in which several workers deliver. Independent of the code. |
| `SpecTemplate.v` | specification | what a template's groups are, stated without the code that builds them |
| `SpecRegex.v` | specification | what it means for a regular expression to match, without saying which match a search prefers |
| `SpecPattern.v` | specification | the texts the built-in patterns stand for, in plain terms. |
| `SpecLine.v` | specification | what a template line says about a line of text. Nothing here refers to the code or to the regex text it generates. |
| `SpecForm.v` | specification | a template line as literal parts and variables |
| `SpecMerge.v` | specification | one record laid over another. Independent of the code. Every key the new record does not have keeps its value; a key it has gets the new value, except that a dictionary is laid over a (non-empty) old value in turn; an empty dictionary changes nothing there. |
| `SpecOpen.v` | specification | which groups are open. Independent of the code. The open groups are kept innermost first. A group that starts under an open parent closes everything above that parent; a group that starts without an open parent closes everything; a group started by a [_line_] variable closes nothing. |
| `SpecOutput.v` | specification | vocabulary for the outputs. Independent of the code. |
| `SpecCsv.v` | specification | csv text and the table it stands for. Independent of the code. |
| `SpecCache.v` | specification | which functions the package offers, and what happened to them so far. |
| `SpecProgram.v` | specification | what a template of plain lines says about a text. Nothing here refers to the code: no regular expressions, no groups, no matches at positions. |
| `SpecIsolation.v` | specification | when the texts given to a template are parsed independently of each other. |
| `SpecFilters.v` | specification | the match functions that test the value, and those that change it. |
| `SpecVars.v` | specification | what a template's [<vars name="path">] tags put into the results. |
| `SpecGroups.v` | specification | what the attributes of a group tag mean. |
| `SpecAttr.v` | specification | what the text of a list of functions means (specification for C120). The texts that a template writes between curly brackets or in attributes, [name / contains("a", 1) / set(x=[1, 2])], given by a grammar: which words a text is made of ([spells]), which value a run of words is ([denotes]), which arg |
| `SpecVariable.v` | specification | what a match variable is (specification for C121). A match variable [{{ name / f1 / f2 ... }}] given as rules: which functions it stands for once its chains are written out ([expands]), and what each of them does ([does]). |
| `SpecHeaders.v` | specification | tables with a line of headings (specification for C122). A template line [Port Name Status {{ _headers_ }}] describes the columns of a table: each starts where its heading starts. |
| `SpecMade.v` | specification | what a group tag becomes (specification for C123). A group is made from the lines of its text and from the lines after its child groups. Each line is made from its variables (C121, C122). |
| `SpecCalls.v` | specification | calling functions by name (specification for C124). The functions' [def] lines are copied from ttp/match and ttp/group; the rules of calls are those of Python. |
| `SpecText.v` | specification | methods of texts, format strings and wildcards (specification for C125). |
| `SpecFiles.v` | specification | files, included texts and the loaders of vars and lookup tags (specification for C126). |
| `SpecInputs.v` | specification | input tags (specification for C127). |
| `SpecHost.v` | specification | the host name in a device's output (specification for C128). |
| `SpecJson.v` | specification | the text of the json formatter (specification for C129). |
| `SpecOutputTags.v` | specification | output tags (specification for C130). An output tag is read as its attributes and its text say, and run: its condition, its functions, its formatter and its returners in this order. |
| `SpecLoaded.v` | specification | what loading a template makes of its text (specification for C131). A template is a tree of tags. Every kind of tag has its own rules, which are given where they belong: groups in SpecMade (C123), inputs in SpecInputs (C127), outputs in SpecOutputTags (C130), structured text in SpecFiles (C126). Her |
| `SpecMacro.v` | specification | macros in match variables, groups, inputs and outputs (specification for C132). |
| `SpecOutcome.v` | specification | every outcome of the match variable functions - the new value, the flag and the exceptions (specification for C133). From the model only the types of values, flags, sources and macro results are used. |
| `SpecGroupOutcome.v` | specification | every outcome of the group functions - the record's data, whether the group stays valid, and the exceptions (specification for C134). From the model only the types of values, states, sources and macro results are used; the path and the saving of [itemize] with a path are the ones that C01 and the ot |
| `SpecSeen.v` | specification | what the functions of one template can look up in the results of others, stated without the code. |
| `SpecIp.v` | specification | the texts of addresses and networks, what the functions is_ip and cidr_match say of them (specification for C136). |
| `SpecApi.v` | specification | what a sequence of calls on one ttp object leads to, stated without the code. |
| `SpecUptime.v` | specification | how a time is written (specification for C138). |
| `SpecInputLoad.v` | specification | what get_input_load gives (specification for C139). |
| `SpecInputLoadText.v` | specification | the loads of the templates of a text (specification for C139). |
| `SpecAddTemplate.v` | specification | add_template with a name and filters (specification for C140). |
| `Properties_Save.v` | statements | C01-C04, C11, C12 - saving one record. [save_cur k2i mwl E path data] is the model of [save_curelements] (/repo/ttp/ttp.py 3009-3032): the results tree [E] after saving [data] under [path], a list of (key, number of asterisks). The vocabulary of the statements ([reaches], [arrives], [changes_only],  |
| `Properties_Machine.v` | statements | C05-C10, C13-C16, C64, C65, C91, C92 - from match events to results. [make_results], [flush], [handle], [choose] model /repo/ttp/ttp.py 2694-3262 (Results.v). The specifications are SpecRecords.v, SpecChoice.v, SpecPath.v, SpecLeaves.v, SpecTree.v. [F] and [runf] stand for arbitrary group functions. |
| `Properties_Match.v` | statements | C41-C50, C66-C72 - the match variable functions. [f_xxx] model /repo/ttp/match/*.py (MatchFuncs.v); a call returns (value, flag). Specifications: SpecMatch.v. |
| `Properties_Parser.v` | statements | C17-C22, C73 - from text to match events. [check_one], [run_re], [raw_of], [parse], [process] model /repo/ttp/ttp.py 2350-2656 (Parser.v); the vocabulary is SpecParser.v. Regular expressions ([p_find]) and match functions are arbitrary. |
| `Properties_Chain.v` | statements | C103-C107 - the functions of a match variable and what they do to the record of the line. [check_one], [run_func], [run_chain] model /repo/ttp/ttp.py 2436-2515 (Parser.v); [f_let], [f_copy], [f_void], [f_macro], [f_to_int], [f_to_str], [f_to_list], [f_resub], [f_resuball] model /repo/ttp/match/{let, |
| `Properties_Group.v` | statements | C51-C55, C74-C79 - the group functions. [g_xxx] model /repo/ttp/group/*.py (GroupFuncs.v): a call takes the state a group function can see ([fs_data] is the record) and returns the new state and whether the record is kept. Specifications: SpecGroup.v. |
| `Properties_Session.v` | statements | C23-C28, C37, C81-C85: the ttp object |
| `Properties_Workers.v` | statements | C29-C32, C86, C87: multiprocess parsing |
| `Properties_Template.v` | statements | of template compilation: C33 - C36, C40, C88 |
| `Properties_FormRegex.v` | statements | C38, C39, C89, C90 - a template line and the lines it matches. [line_regex info line] is the text of the regular expression built for a template line (/repo/ttp/ttp.py 2157-2336), [re_compile] reads it, [finditer] searches. [reads_line] (SpecLine.v) says what the line should match: indentation, the  |
| `Properties_Pattern.v` | statements | C109, C110 - what the built-in patterns and user-written character classes match. [patterns] models /repo/ttp/patterns/get_pattern.py 1-11, [re_compile] the reader of regular expressions (FormRegex.v), [rel] is the meaning of expressions (SpecRegex.v); the texts are described in SpecPattern.v. |
| `Properties_Output.v` | statements | C56, C58-C61, C93-C96 - outputs. [table path missing key strict headers data], [traverse strict path data], [dict_to_list key data] (result, data afterwards), [is_equal load data] and [output_run] are the models (Outputs.v) of the table formatter, the output functions traverse, dict_to_list and is_e |
| `Properties_Csv.v` | statements | C57, C62, C97 - csv printed and loaded. [load_csv key text] models the csv loader of <lookup>, <vars> and <input> tags (loaders.py), [csv_text sep quote table] the csv formatter, [csv_reader text] Python's csv.reader on [text.splitlines()]. The vocabulary of the statements is in SpecCsv.v. |
| `Properties_Cache.v` | statements | C63, C98-C102 - which functions run. [startup major ver files cache] models lazy_import_functions: the table of functions and what is then written to the cache file; [cstep] are the steps of processes sharing that file; [call] is a call of a function by a parser and [rt_run] a history of creating pa |
| `Properties_Load.v` | statements | of template loading: C112, C113 |
| `Properties_Program.v` | statements | the complete program, from the template's text and the data to the results. |
| `Properties_Isolation.v` | statements | C115. |
| `Properties_Filters.v` | statements | C116. |
| `Properties_Vars.v` | statements | C117. |
| `Properties_Groups.v` | statements | C118, C119. |
| `Properties_Attributes.v` | statements | C120. |
| `Properties_Variable.v` | statements | what a match variable is. Between the braces of a template line stands a name followed by functions. The specification (SpecVariable.v) says which functions those are - chains replaced by what the template's variables hold, chains of chains included - and what each of them does. |
| `Properties_Headers.v` | statements | tables. A line of headings with [{{ _headers_ }}] describes the rows of a table. Each row of the text is cut where the headings start, whatever is in it. |
| `Properties_Made.v` | statements | what a group tag becomes. The lines of the text and those after the child groups, their expressions and variables, the lists they are put in and the default values: exactly those of SpecMade.v. |
| `Properties_Calls.v` | statements | C124. |
| `Properties_Text.v` | statements | C125. |
| `Properties_Files.v` | statements | files, JSON, Python and the loaders of vars and lookup tags. |
| `Properties_Inputs.v` | statements | input tags. |
| `Properties_Host.v` | statements | the host name of the data, and the outputs of commands. |
| `Properties_Json.v` | statements | the json formatter's text. |
| `Properties_OutputTags.v` | statements | output tags and arguments of result() (C130). |
| `Properties_Loaded.v` | statements | what loading a template makes of its text. |
| `Properties_Macro.v` | statements | macros called by match variables, groups, inputs and outputs. |
| `Properties_Outcome.v` | statements | what every match variable function makes of every value - also the failures. |
| `Properties_GroupOutcome.v` | statements | C134 - every outcome of every group function. |
| `Properties_Seen.v` | statements | functions look up in the results of other templates and groups, in the complete program. |
| `Properties_Ip.v` | statements | C136, is_ip and cidr_match. What [spells], [network_text], [member] say is in SpecIp. |
| `Properties_Api.v` | statements | C137: any sequence of calls on one ttp object. |
| `Properties_Uptime.v` | statements | C138, uptimeparse. How a time is written ([time], [tight]) and what is made of it ([time_gives]) is in SpecUptime. |
| `Properties_InputLoad.v` | statements | get_input_load. |
| `Properties_AddTemplate.v` | statements | add_template with a name and filters. |
| `DictFacts.v` | proofs | lemmas about strings, keys and ordered dictionaries. |
| `ResultsFacts.v` | proofs |  |
| `ResultsHist.v` | proofs | of saves on one path. |
| `PathFacts.v` | proofs | static path items, and the simple dynamic ones. |
| `MachineFacts.v` | proofs | the results builder as a state machine. |
| `ChooseFacts.v` | proofs | the code's choice is the best one. |
| `MuteFacts.v` | proofs | rejected starts, ended groups, choice between candidates, function chains. |
| `FrameFacts.v` | proofs | a save changes nothing outside the addressed element. |
| `RunFacts.v` | proofs | closed forms for runs of one group. |
| `PathDyn.v` | proofs | the regular expressions of form_path do what SpecPath says. |
| `EscapeFacts.v` | proofs | replacement texts with backslashes, and the keys made from them. |
| `MergeFacts.v` | proofs | tail matches are merged into the last saved record. |
| `SaveSpec.v` | proofs | what a save does, in terms of reads before and after. |
| `Conserve.v` | proofs | the results builder invents no data. |
| `DynFlush.v` | proofs | saving a record whose path has dynamic items. |
| `RenumberFacts.v` | proofs | saving with digit keys as numbers is saving, then renumbering. |
| `NestFacts.v` | proofs | saves put no list directly inside a list. |
| `NullFacts.v` | proofs | the null path item, in the middle, at the end, and where the path does not exist yet. |
| `MachineProps.v` | proofs | user-level consequences of the machine lemmas. |
| `JoinFacts.v` | proofs | joinmatches for values of all kinds. |
| `StrFacts.v` | proofs | splitting, joining, replacing, integers as text. |
| `MatchFacts.v` | proofs | proofs about the match variable functions. |
| `MatchFacts2.v` | proofs | record, set, count, append, prepend. |
| `ParserFacts.v` | proofs | proofs about the parser. |
| `ParserFacts2.v` | proofs | order, windows, defaults, end lines, independence of inputs. |
| `ParserFacts3.v` | proofs | defaults after matches, the record of defaults, variables of an input. |
| `ConvertFacts.v` | proofs | which texts [int()] reads. |
| `ChainFacts.v` | proofs | functions that add fields, function names that are not match functions, let, copy, void, macro. |
| `MacroFacts.v` | proofs | macro, let, copy, void, to_*, resub, resuball, stated as functions of one value. |
| `GroupFacts.v` | proofs | facts about the group functions. |
| `GroupRun.v` | proofs | one top level group with arbitrary functions and any path. MachineFacts.one_group without the restriction to static paths and to groups without functions: what a run leaves behind is exactly the records of its matches, committed one after the other. |
| `GroupPure.v` | proofs | groups whose functions only test or rewrite the record. |
| `ItemizeFacts.v` | proofs | a group with the itemize function. |
| `PyEqFacts.v` | proofs | Python's [==] on values is "equal up to the order of dictionary entries (and True = 1, False = 0)". |
| `SessionFacts.v` | proofs | proofs about Session.v against SpecSession.v |
| `SessionHist.v` | proofs | histories of calls, inputs, result structures |
| `SessionInputs.v` | proofs | data and groups of inputs |
| `WorkersFacts.v` | proofs | every interleaving of the multiprocess parser |
| `WorkersSession.v` | proofs | multiprocess parsing of templates and sessions |
| `WorkersOrder.v` | proofs | in which orders the results of a pool of processes arrive |
| `TemplateFacts.v` | proofs | groups built from a template |
| `TemplateFacts2.v` | proofs | paths of whole trees, outputs of groups, extend filters |
| `TemplateFacts3.v` | proofs | what marks a line |
| `RegexFacts.v` | proofs | the matcher finds a match iff there is one |
| `PatternFacts.v` | proofs | the built-in patterns of ttp match exactly the texts of SpecPattern.v. |
| `ReadFacts.v` | proofs | reading the text of a regular expression piece by piece |
| `LitFacts.v` | proofs | the expression generated for literal text, and what it matches |
| `LineFacts.v` | proofs | the expression generated for a template line |
| `LineRegex.v` | proofs | a template line's expression matches exactly the lines it describes |
| `FindFacts.v` | proofs | searching a text for all matches |
| `RoundTrip.v` | proofs | a line whose variables are words set off by blanks is read in one way |
| `CharFacts.v` | proofs | which characters an expression can take, decided by looking at it |
| `OverlayFacts.v` | proofs | merging is laying over (SpecMerge). |
| `TailFacts.v` | proofs | when a tail match can be merged, and what happens otherwise. |
| `OpenFacts.v` | proofs | the stack of started groups. |
| `OutputFacts.v` | proofs | proofs about Outputs.v. |
| `LoaderFacts.v` | proofs | proofs about Loaders.v. |
| `CsvFacts.v` | proofs | what the csv formatter prints, read back. |
| `CacheFacts.v` | proofs | proofs about Cache.v. |
| `EnvFacts.v` | proofs | whose dictionary a function of the package sees. |
| `CacheExact.v` | proofs | exactly when a user's function stays in place. |
| `MatchExact.v` | proofs | when exactly the match functions fail or leave the data alone. |
| `GroupExact.v` | proofs | when exactly the group functions fail, and what expand can give back. |
| `WorkersExact.v` | proofs | when multiprocess parsing ends, and what per_template gives |
| `ExtendFacts.v` | proofs | which extend tags are expanded |
| `SessionExact.v` | proofs | when a session can be used again, what a dictionary of results holds, ... |
| `DefaultExact.v` | proofs | where the record of defaults is processed, for texts of any length |
| `XmlFacts.v` | proofs | a tree written as text is read back. |
| `LoadFacts.v` | proofs | the tree a template is made of. |
| `AttrFacts.v` | proofs | what the text of a function or variable is read as (get_attributes). |
| `CompileFacts.v` | proofs | the regular expression of a line does not depend on anything but the line and the variables. |
| `FindLines.v` | proofs | searching a text line by line. |
| `PlainLine.v` | proofs | a plain template line, from its text to the data lines it fits. |
| `LineRun.v` | proofs | a group whose regexes match whole lines. |
| `PlainRun.v` | proofs | the group of a template of plain lines, run on a text. |
| `PlainProgram.v` | proofs | a template of plain lines, from its text to the results. |
| `PlainCompile.v` | proofs | the group object of a template of plain lines. |
| `QuietFacts.v` | proofs | what changes the variables shared by all inputs. |
| `PlainResult.v` | proofs | the results of a template of plain lines. |
| `NamedTree.v` | proofs | a template element with group elements of plain text. |
| `PlainTop.v` | proofs | a template of plain lines, from its text to the results. |
| `IsolationFuncs.v` | proofs | which functions store something outside of the results. |
| `Isolation.v` | proofs | texts that are parsed together, and each by itself. |
| `FilterFacts.v` | proofs | filters and transformers. |
| `VarsFacts.v` | proofs | saving variables before the groups. |
| `GroupRefine.v` | proofs | the groups that the complete loader makes are those of Template.build. |
| `GroupAttrs.v` | proofs | the attributes of a group, exactly; the regexes of its lines. |
| `LexFacts.v` | proofs | the words of a text are those of the grammar (for C120). |
| `LexFacts2.v` | proofs | the words of a whole text (for C120). |
| `GrammarFacts.v` | proofs | the values and arguments that are read are those of the grammar (for C120). |
| `GrammarFacts2.v` | proofs | the arguments of a call and the items of a line (for C120). |
| `ReprFacts.v` | proofs | what Python prints for a value is read as that value (for C120). |
| `VariableFacts.v` | proofs | match variables follow the rules of SpecVariable (for C121). |
| `VariableFacts2.v` | proofs | chains, and the whole variable (for C121). |
| `VariableFacts3.v` | proofs | names, chains without an end, and the variable in the line's expression (for C121). |
| `HeadersFacts.v` | proofs | the expression of a table row (for C122). |
| `HeadersFacts2.v` | proofs | reading the line of headings; the variables of the columns (for C122). |
| `HeadersFacts3.v` | proofs | the variables of the columns (for C122). |
| `MadeFacts.v` | proofs | proofs for C123, lines and expressions. |
| `MadeFacts2.v` | proofs | proofs for C123, the default values. |
| `MadeFacts3.v` | proofs | proofs for C123, the group. |
| `CallFacts.v` | proofs | proofs for C124. |
| `CallFacts2.v` | proofs | proofs for C124, the tables of functions. |
| `CallFacts3.v` | proofs | proofs for C124, the calls. |
| `TextFacts.v` | proofs | proofs for C125. |
| `TextFacts2.v` | proofs | proofs for C125, methods and format strings. |
| `TextFacts3.v` | proofs | proofs for C125, wildcards and searching. |
| `FileFacts.v` | proofs | load_files finds exactly what SpecFiles says. |
| `JsonFacts.v` | proofs | json_loads reads exactly the texts of SpecFiles. |
| `PythonFacts.v` | proofs | load_python and load_struct give exactly what SpecFiles says. |
| `InputFacts.v` | proofs | input tags are read as SpecInputs says. |
| `HostFacts.v` | proofs | gethostname finds the host that SpecHost says. |
| `CommandFacts.v` | proofs | extract_commands finds the outputs that SpecHost says. |
| `JsonDumpFacts.v` | proofs | the json formatter's text (proofs for C129). |
| `OutputTagFacts.v` | proofs | output tags are read as SpecOutputTags says. |
| `OutputRunFacts.v` | proofs | outputs run as SpecOutputTags says. |
| `OutputRunFacts2.v` | proofs | the condition, the returners and the whole run of an output as SpecOutputTags says. |
| `LoadedFacts.v` | proofs | lemmas for SpecLoaded (C131): the tree. |
| `LoadedFacts2.v` | proofs | lemmas for SpecLoaded (C131): the tags and the template. |
| `MacroRun.v` | proofs | lemmas for SpecMacro (C132). |
| `OutcomeFacts.v` | proofs | every outcome of the match functions (C133). |
| `OutcomeFacts2.v` | proofs | every outcome of the lookups, of count, set, let and the comparisons (C133). |
| `GroupOutcomeFacts.v` | proofs | every outcome of the group functions (C134). |
| `GroupOutcomeFacts2.v` | proofs | the group functions that change the data (C134). |
| `GroupOutcomeFacts3.v` | proofs | itemize, macro, sformat, to_ip and lookup (C134). |
| `SeenRefine.v` | proofs | what the program of Run.v answers is what the one with lookups in results answers |
| `SeenFacts.v` | proofs | RunSeen.parsed_seen does what SpecSeen says. |
| `IpFacts.v` | proofs | the texts of addresses are read as SpecIp says (C136). |
| `IpFacts2.v` | proofs | the texts of addresses, interfaces and networks, and the tests on them (C136). |
| `ApiFacts.v` | proofs | Api.v does what SpecApi says. |
| `ApiFacts2.v` | proofs | parsing in a history, and what one template and one parse come to. |
| `ApiFacts3.v` | proofs | one text and one parse are the program of RunSeen.v; a path is its texts. |
| `UptimeFacts.v` | proofs | the expression of uptimeparse matches what [time] describes |
| `UptimeFacts2.v` | proofs | what uptimeparse gives, and that a time is written in one way |
| `UptimeFacts3.v` | proofs | a text in which no digit or dot follows an abbreviation of years or months directly is a time in at most one way |
| `UptimeFacts4.v` | proofs | a time written out is read |
| `InputLoadFacts.v` | proofs | get_input_load gives what SpecInputLoad says. |
| `InputLoadFacts2.v` | proofs | a text without a load of its own; the names of the loads; the loads after calls. |
| `InputLoadFacts3.v` | proofs | get_input_load of a program. |
| `AddTemplateFacts.v` | proofs | add_template's name and filters are read as SpecAddTemplate says. |
| `Conformance1.v` | tests | the project's own tests, run by the model. Each example takes template, data and expected result from a test in /repo/test/pytest (generated by tools/conform.py) and checks that the model of the complete program (Run.v) computes this result. These are tests of the model, not proofs about it. |
| `Conformance2.v` | tests | the project's own tests, run by the model. Each example takes template, data and expected result from a test in /repo/test/pytest (generated by tools/conform.py) and checks that the model of the complete program (Run.v) computes this result. These are tests of the model, not proofs about it. |


## What is not modelled

* `re` is modelled for the constructs ttp generates (Regex.v, FormRegex.v: literals, escapes, classes, `.`, groups,
  alternation, `* + ?`, bounded repetition, look-ahead/behind used by ttp); user-written patterns outside it, flags and
  Unicode classes are not.  Parser.v does not depend on it (a compiled expression is an arbitrary finder).
* Text is 8-bit characters; Unicode case mapping and Unicode digits are not modelled.
* XML is modelled for what templates use (Xml.v: tags, attributes, text, comments, CDATA, the predefined entities and
  character references); processing instructions, document types, namespaces are not.
* Third-party optional functions and formatters: deepdiff, jinja2, excel, tabulate, ttp_templates, cerberus, netmiko, `dns`,
  `rdns`, `geoip_lookup`; `to_ip`, `to_net` and `ip_info` (they leave objects or texts made from them; `is_ip` and
  `cidr_match` are modelled with the parts of `ipaddress` they use, Ip.v); `to_float`; what a macro's Python
  code means (macros are arbitrary functions of their argument); the yaml, ini, json and python loaders (csv and text are
  modelled, and the world gives what the others return where the complete program asks for it); syslog; the command line
  tool.
* Logging, timing and memory.

## Findings

Behaviour of the pinned commit that contradicts what a user would expect; each has a witness computed in Coq.

| property | what happens |
|---|---|
| C04 | saving below a list of lists replaces the inner list |
| C10, C12 | dynamic path values are substituted through `re.sub`, so backslashes are interpreted or raise; a second record saved on a key of digits loses the container (`None`), and a superscript digit raises ValueError |
| C11 | `_` in the middle of a path is created as a key |
| C13 | joinmatches of values of different types raises |
| C14, C92 | lines of an enclosing group after a nested group are lost or overwrite, when the group's last item is not the one they belong to |
| C21 | matches on the line after the last `_end_` line, or starting at the same place, survive |
| C31 | with `per_template`, multi-process parsing keeps the result of one datum only |
| C35 | group ids are not unique (`a.b` at top level and `b` inside `a`) |
| C36 | an output name that does not exist, next to one that does, shifts the removal and stays in |
| C39 | the test for `_exact_` is a substring test, which `_exact_space_` meets: digits become literal too |
| C57 | the csv formatter does not double quotes inside values |
| C65 | a rejected start does not mute groups nested two levels deeper |
| C71, C72 | append/prepend do not look up global variables; replaceall with a string variable replaces nothing |
| C81 | an output that turns the results list into something else makes the next parse() raise |
| C82 | result() hands out the parser's own list |
| C84 | results="Per_Template" gives no results at all |
| C85 | groups of an input are kept in a set; `list({1, 8})` is `[8, 1]` in CPython, so the order can change |
| C86 | an exception in a worker hangs parse() forever |
| C87 | add_function() in the parent removes the built-in functions of that scope in workers |
| C88 | the tag after an extend that brings only text is skipped |
| C94, C96 | dict_to_list loses a value stored under the key name; is_equal ignores part of the structure or raises |
| C98 | a damaged cache file makes the import of ttp fail |
| C99 | the first cache written lacks its version and is never used |
| C101 | the first call of another function of the same file overwrites a function set by add_function |
| C102 | functions of a module see the variables of the parser whose first call of that module came last |

## Properties

140 properties, 140 proved as stated, 0 partial (a false or wider claim kept in view, with what is true of it proved).

### C01 Records saved under a `name*` path are appended, nothing else moves  (proved)

Saving a non-empty group record under a path that ends in a single asterisk appends exactly that record to the list found at that path (creating the missing keys of the path and the list if they do not exist); every other value of the results tree is unchanged.

*Model and proof:* Results.v save_curelements and dynamic_path_ on value trees; results are read through addresses (SpecTree.v); induction on the path, then on the history of saves.  
*Theorems:* `C01_append`, `C01_create`, `C01_create_in_list`, `C01_history`

### C02 A second record on a plain path turns the dictionary into a two-item list  (proved)

Saving to a plain (no asterisk) path: if nothing is stored there the record becomes the dictionary at that path; if a non-empty dictionary is stored there it is replaced by the list [old, new]; if a list is there the record is appended.  So n saves of non-empty records on one plain path read back as the record itself (n=1) or as the list of the n records in order (n>=2).

*Model and proof:* Results.v save_curelements and dynamic_path_ on value trees; results are read through addresses (SpecTree.v); induction on the path, then on the history of saves.  
*Theorems:* `C02_first`, `C02_second`, `C02_history`

### C03 `**` keeps a dictionary and the first value of each key  (proved)

After saving any sequence of records to a path that ends in `**`, the value there is one dictionary holding, for every key that occurs in any record, the value from the earliest record that contains it.

*Model and proof:* Results.v save_curelements and dynamic_path_ on value trees; results are read through addresses (SpecTree.v); induction on the path, then on the history of saves.  
*Theorems:* `C03_history`, `C03_step`

### C04 Saving disturbs nothing outside the addressed element  (proved)

A save changes the results tree only at the element its path addresses: everything readable at an address not at or above and not below it stays readable there with the same value and no key is removed, along every history of saves starting from empty results whose records hold no list directly inside a list; for trees with a list directly inside a list this can fail.

*Model and proof:* Results.v save_curelements and dynamic_path_ on value trees; results are read through addresses (SpecTree.v); induction on the path, then on the history of saves.  
*Theorems:* `C04_frame`, `C04_total`, `C04_blocked`, `C04_merge_dict`, `C04_merge_list`, `C04_history`, `C04_limits`

### C05 Within one record the first match of a variable wins; defaults only fill gaps  (proved)

For matches of one group between its start and its next start, the value saved for a variable is the one from the earliest match that produced it; a default value is used exactly for the variables that no match produced.

*Model and proof:* Results.v make_results as a fold over match events; invariants of the state (current record, started groups, ended groups) and refinement to a left-to-right reading of the events (SpecRecords.v, SpecOpen.v, SpecChoice.v); group functions are arbitrary.  
*Theorems:* `C05_first_match_wins`

### C06 A rejected start line mutes its group until the next accepted start  (proved)

If a start line fails its match-variable checks, no later non-start match of that group and no match of a child group is saved until an accepted start line of that group is processed; groups that are not descendants are not affected.

*Model and proof:* Results.v make_results as a fold over match events; invariants of the state (current record, started groups, ended groups) and refinement to a left-to-right reading of the events (SpecRecords.v, SpecOpen.v, SpecChoice.v); group functions are arbitrary.  
*Theorems:* `C06_muted`, `C06_others_unaffected`

### C07 `_end_` closes the group until its next start  (proved)

After an accepted `_end_` match of the group being recorded, later normal matches of that group are ignored until a start of that group is seen; the record accumulated before `_end_` is still saved.

*Model and proof:* Results.v make_results as a fold over match events; invariants of the state (current record, started groups, ended groups) and refinement to a left-to-right reading of the events (SpecRecords.v, SpecOpen.v, SpecChoice.v); group functions are arbitrary.  
*Theorems:* `C07_end`

### C08 A group function that returns False discards the whole record and only that record  (proved)

When any function in a group's function chain returns False the record is not saved and the results tree is exactly what it was; functions after it are not run; otherwise every function is applied in the order written, each to the previous one's output.

*Model and proof:* Results.v make_results as a fold over match events; invariants of the state (current record, started groups, ended groups) and refinement to a left-to-right reading of the events (SpecRecords.v, SpecOpen.v, SpecChoice.v); group functions are arbitrary.  
*Theorems:* `C08_chain`, `C08_false_discards`, `C08_true_saves`

### C09 Dynamic path lookup order  (proved)

In a group name, a placeholder {{ name }} is replaced by the value this record captured for that name; if this record has none, by the last value an earlier record of the same run captured for it, else by the template variable of that name. If no value is found for some placeholder, the record is not saved and the rest of the results is unchanged. A remembered value or variable that is not a string raises TypeError where a value of this record is written with its text.

*Model and proof:* form_path over the regular expression engine of Regex.v, shown equal to the description of SpecPath.v, then induction on the path.  
*Theorems:* `C09_flush`, `C09_order`, `C09_remembered`, `C09_unknown_discards`, `C09_limits`

### C10 What a value writes into a dynamic path  (proved)

A captured value that contains no backslash is written verbatim into the dynamic path. A value with backslashes is read as replacement text of re.sub: where it is valid replacement text, what it stands for is written; where it is not, a value captured by this record is written verbatim, while a remembered value or a template variable raises re.error. Without a dot in the written text one placeholder makes one key.

*Model and proof:* form_path over the regular expression engine of Regex.v, shown equal to the description of SpecPath.v, then induction on the path.  
*Theorems:* `C10_verbatim`, `C10_own`, `C10_borrowed`, `C10_one_key`, `C10_plain_key`, `C10_limits`, `C10_raises_limits`

### C11 What the null path item `_` does  (proved)

A path item `_` between keys adds no level where the keys in front of it lead to a dictionary; at the end of a path it merges the record into the dictionary, or into the last item of the list, that the path leads to. Where the keys in front of it do not exist yet, `_` is first created like any other key, so `_` can appear in the results.

*Model and proof:* form_path over the regular expression engine of Regex.v, shown equal to the description of SpecPath.v, then induction on the path.  
*Theorems:* `C11_skipped`, `C11_trailing`, `C11_trailing_list`, `C11_missing`, `C11_limits`

### C12 What dynamic_path_key_to_int changes  (proved)

With dynamic_path_key_to_int enabled a save does what it does with it disabled, except that path keys consisting of digits are integers, as long as no second record is saved next to a first one on a plain path; in that case, if the path has a digit key, what the keys in front of it lead to becomes None. A path without digit keys is not affected by the option.

*Model and proof:* form_path over the regular expression engine of Regex.v, shown equal to the description of SpecPath.v, then induction on the path.  
*Theorems:* `C12_no_digits`, `C12_same_up_to_numbers`, `C12_second_lost`, `C12_limits`, `C12_raises_limits`, `C12_collide_limits`

### C13 Joining several values of one match variable  (proved)

The values of a joinmatches variable within one record are joined in input order: strings are concatenated with the separator between them; if the first value is a list, lists are concatenated and other values appended; other first values become a list together with what follows. A string followed by a value that is not a string raises TypeError.

*Model and proof:* joins and tail merges of Results.v, described by reads of the results before and after (SpecMerge.v).  
*Theorems:* `C13_strings`, `C13_strings_absent`, `C13_lists`, `C13_joined`, `C13_total`, `C13_limits`

### C14 Where matches after the end of their group go  (proved)

A match that belongs to a group that is already saved is merged into the last element the group's path leads to: dictionaries recursively, every other field is replaced, and all other elements stay unchanged. If the path leads to an empty or missing list, IndexError is raised; if a dictionary meets a value that is not a dictionary, AttributeError.

*Model and proof:* joins and tail merges of Results.v, described by reads of the results before and after (SpecMerge.v).  
*Theorems:* `C14_tail_starts`, `C14_into_list`, `C14_into_dict`, `C14_nested_list`, `C14_nested_dict`, `C14_empty`, `C14_missing`, `C14_limits`, `C14_overrides_limits`

### C15 One flat list group: output is exactly the sequence of records  (proved)

For a single top group `name*` without functions and any sequence of its match events, the results equal {name: [r1..rk]} where the ri are computed by reading the event list left to right: one record per accepted start, with first-match-wins contents, muted after a rejected start or an end; empty records are not listed.

*Model and proof:* Results.v make_results as a fold over match events; invariants of the state (current record, started groups, ended groups) and refinement to a left-to-right reading of the events (SpecRecords.v, SpecOpen.v, SpecChoice.v); group functions are arbitrary.  
*Theorems:* `C15_list_group`, `C15_plain_group`

### C16 Choosing between several regexes that match at one place  (proved)

When several lines of the template match at the same position exactly one of them is used; a `_start_` line is preferred to a start line, that to a normal line, that to a `_line_` line; within a class a candidate of the group currently being recorded is preferred, and a rejected candidate is never used while a candidate of the same class that is preferred exists.

*Model and proof:* Results.v make_results as a fold over match events; invariants of the state (current record, started groups, ended groups) and refinement to a left-to-right reading of the events (SpecRecords.v, SpecOpen.v, SpecChoice.v); group functions are arbitrary.  
*Theorems:* `C16_choice`

### C17 Match function chain semantics  (proved)

A variable's value is the result of applying its functions left to right; the first function that reports False stops the chain: the whole line match is dropped if the line is not a start line, and kept as a rejected start otherwise; values of the other variables are unaffected.

*Model and proof:* Parser.v with arbitrary compiled expressions and arbitrary function chains; invariants over the folds of matches, regexes and groups; windows of text as slices.  
*Theorems:* `C17_chain_in_order`, `C17_first_false_stops`, `C17_value`, `C17_line`, `C17_rejected_iff`, `C17_values_independent`

### C18 Results are processed in text order  (proved)

Whatever the order in which template lines are tried, matches are handed to the results builder in increasing order of their position in the text, and matches at the same position are grouped in one candidate set.

*Model and proof:* Parser.v with arbitrary compiled expressions and arbitrary function chains; invariants over the folds of matches, regexes and groups; windows of text as slices.  
*Theorems:* `C18_text_order`, `C18_all_matches`

### C19 Nothing before the first start line is used  (proved)

No match of a group's normal or end lines, nor of its children, has a position before the first match of one of that group's start lines; if no start line matches, the group contributes nothing unless its start line has defaults.

*Model and proof:* Parser.v with arbitrary compiled expressions and arbitrary function chains; invariants over the folds of matches, regexes and groups; windows of text as slices.  
*Theorems:* `C19_after_first_start`, `C19_no_start`

### C20 Default-only groups come last  (proved)

A group whose start line has default values but never matches contributes exactly one record, holding the defaults (with values that name template or global variables replaced by those variables), and for texts of at most ten million characters it is processed after all records that were matched in the text.

*Model and proof:* Parser.v with arbitrary compiled expressions and arbitrary function chains; invariants over the folds of matches, regexes and groups; windows of text as slices.  
*Theorems:* `C20_one_default_record`, `C20_defaults_last`, `C20_default_after_matches`, `C20_defaults_saved`

### C21 Matches after the `_end_` line are discarded  (proved)

Let a group's end line match after the group's last start line. If the start lines match at different places and the end line, counted from the first start line of the group, ends further in than every start line counted from the beginning of the text, then no match of the group that begins on a line after the one directly following the end line is kept. Each of these conditions is needed: without it a match after the end line can be kept, and a match on the line directly after the end line is kept.

*Model and proof:* Parser.v with arbitrary compiled expressions and arbitrary function chains; invariants over the folds of matches, regexes and groups; windows of text as slices.  
*Theorems:* `C21_after_end`, `C21_limits_offset`, `C21_limits_same_place`, `C21_limits_next_line`

### C22 Variables recorded while parsing one input do not leak into the next  (proved)

Template variables seen by an input are the template's own variables plus those computed for that input; what one input sets is not visible to the next except through global variables.

*Model and proof:* Parser.v with arbitrary compiled expressions and arbitrary function chains; invariants over the folds of matches, regexes and groups; windows of text as slices.  
*Theorems:* `C22_inputs_isolated`, `C22_variables_of_an_input`

### C23 per_input: one result per datum, in order  (proved)

With results='per_input' a parse in one process appends exactly one result item per datum to the template's results, in the order inputs were defined and data was added, each obtained by parsing that datum alone (starting from an empty structure); parse() succeeds exactly when every datum parses. Records of unnamed groups form the item's list, followed by one item for everything else. Nothing but the results of the templates changes, and templates are processed in order.

*Model and proof:* Session.v: the ttp object as a record, calls as state transformers; induction over histories of calls, the parsing function arbitrary.  
*Theorems:* `C23_parse_in_one_process`, `C23_per_input`, `C23_shape`

### C24 per_template: results of all inputs combined in one structure  (proved)

With results='per_template' the template's result is the structure obtained by parsing every datum in order into the same results tree.

*Model and proof:* Session.v: the ttp object as a record, calls as state transformers; induction over histories of calls, the parsing function arbitrary.  
*Theorems:* `C24_per_template`

### C25 Repeated parse() and clear_result()  (proved)

For templates without output tags and data whose parsing does not depend on earlier parsing: after every history of add_input/set_input/clear_input/parse/clear_result calls, parse() appends to the old results what a first parse of the same inputs returns (per_input) or replaces them by it (per_template); after clear_result() it returns what a first parse returns; clear_result(names) empties exactly the named templates.

*Model and proof:* Session.v: the ttp object as a record, calls as state transformers; induction over histories of calls, the parsing function arbitrary.  
*Theorems:* `C25_parse_again`, `C25_clear_then_parse`, `C25_clear_selected`

### C26 result() structures agree with each other  (proved)

When the selected templates have distinct non-empty names: list has one item per template in order; dictionary maps each template name, in order, to that template's results; flat_list is the concatenation of the lists with one level of nesting removed. The selected templates are those named, or all.

*Model and proof:* Session.v: the ttp object as a record, calls as state transformers; induction over histories of calls, the parsing function arbitrary.  
*Theorems:* `C26_structures_agree`, `C26_selection`

### C27 Adding the same input twice is the same as adding it once  (proved)

For every sequence of add_input calls each input of each template holds its previous data followed by the new items addressed to it, in order, leaving out every item equal to one already there (text and file names compared as strings, structures up to dictionary order); repeating an earlier call changes no input's data.

*Model and proof:* Session.v: the ttp object as a record, calls as state transformers; induction over histories of calls, the parsing function arbitrary.  
*Theorems:* `C27_data_of_inputs`, `C27_add_again`

### C28 Choice of process mode  (proved)

parse() runs multi-process exactly when multi=True, or neither flag is set, the overall data size exceeds 5 MB and there are at least two data items; one and multi together abort.

*Model and proof:* Session.v: the ttp object as a record, calls as state transformers; induction over histories of calls, the parsing function arbitrary.  
*Theorems:* `C28_process_mode`

### C29 Multiprocess parsing returns every result exactly once  (proved)

With results='per_input' and data whose parsing does not depend on earlier parsing: for every number of worker processes and every schedule, multiprocess parsing appends to the results a permutation of the items single-process parsing appends; the two modes succeed for the same inputs; nothing else of the template changes.

*Model and proof:* Workers.v: labelled transition system; invariants (permutation of jobs, accounting of workers), a termination measure over all executions, and the exact set of reachable orders (SpecWorkers.v).  
*Theorems:* `C29_permutation`, `C29_same_success`, `C29_sessions`, `C29_fits_C25`

### C30 Multiprocess parsing always terminates once every task has been processed  (proved)

In every reachable state in which no worker has crashed some step is possible until all results are collected; every run has at most 2+7*(data+workers) steps; when no datum makes the parser raise, a run that cannot go on has collected one result per datum.

*Model and proof:* Workers.v: labelled transition system; invariants (permutation of jobs, accounting of workers), a termination measure over all executions, and the exact set of reachable orders (SpecWorkers.v).  
*Theorems:* `C30_no_deadlock`, `C30_bounded`, `C30_completes`

### C31 per_template results under multiprocessing  (proved)

With results='per_template' and at least two worker processes, the structure that remains after parsing several data items is the structure of exactly one of them, and it can be that of any of them; with one worker process it is that of the last item. Only with a single data item is it always the same as in single-process mode.

*Model and proof:* Workers.v: labelled transition system; invariants (permutation of jobs, accounting of workers), a termination measure over all executions, and the exact set of reachable orders (SpecWorkers.v).  
*Theorems:* `C31_outcomes`, `C31_one_worker`, `C31_one_datum`, `C31_limits`

### C32 Custom functions are available to the parser and to its workers  (proved)

After any sequence of add_function calls, the function called under a scope and name is the last one given for them, in the parent and in every worker; in the parent every other function is unchanged, and in workers every function of the scopes without custom functions is; add_function succeeds iff the scope exists.

*Model and proof:* Workers.v: labelled transition system; invariants (permutation of jobs, accounting of workers), a termination measure over all executions, and the exact set of reachable orders (SpecWorkers.v).  
*Theorems:* `C32_custom_functions`, `C32_known_scopes`

### C33 Group paths compose  (proved)

The path of a group is: the items of the last absolute name on the way from its top group down to it (a name starting with `/`), followed by the items of the relative names below; without absolute names, the items of all names, after `_anonymous_*` when the top group has no name; a child group without a name adds nothing. (Names consist of more than slashes and no ancestor's item is literally `_anonymous_`.)

*Model and proof:* Template.v: structural functions over trees of tags; induction on the tree.  
*Theorems:* `C33_every_tag_is_a_group`, `C33_absolute_path`, `C33_relative_path`

### C34 Every template line becomes exactly one regex of the right kind  (proved)

Each line of a group that holds a variable is exactly one of start, end or normal line and is put in that list, in order: marked end lines are end lines; lines after a child group are otherwise normal; the first line, every line of method=table and lines with a start variable are start lines. The last function of a variable that says so decides its action; a line starts with its first start variable, else its last variable other than `ignore` decides.

*Model and proof:* Template.v: structural functions over trees of tags; induction on the tree.  
*Theorems:* `C34_one_role`, `C34_lists`, `C34_variable_marks`, `C34_line_marks`

### C35 Group identifiers  (proved)

The identifier of a group is its path joined by dots (with '._anonymous_' added when the group has no name) and its place among its siblings. So groups with one parent (or without parent) always have different identifiers, and named groups with different parents share an identifier exactly when their joined paths and their places are the same. Each child refers to its parent's identifier.

*Model and proof:* Template.v: structural functions over trees of tags; induction on the tree.  
*Theorems:* `C35_identifier`, `C35_same_id`, `C35_siblings`, `C35_tops`, `C35_limits`

### C36 Outputs of groups  (proved)

Every name in a group's output list is replaced by the template's output of that name, in order; a name without output is dropped, and the name directly after a dropped one stays unresolved. If only the last name of a list can be unknown, the group gets exactly the outputs of the known names. The template keeps, in order, the outputs that no group got.

*Model and proof:* Template.v: structural functions over trees of tags; induction on the tree.  
*Theorems:* `C36_settled`, `C36_exact`, `C36_known`, `C36_limits`

### C37 Inputs are parsed with the right groups  (proved)

The groups of an input created by add_input are, in template order: if some group names this input in its `input` attribute, exactly those groups; otherwise the groups without `input` attribute that are listed in the call's groups, or all of those when the list is 'all'. A later add_input for the same input adds that call's groups, each group used once.

*Model and proof:* Session.v: the ttp object as a record, calls as state transformers; induction over histories of calls, the parsing function arbitrary.  
*Theorems:* `C37_first_add`, `C37_next_add`

### C38 Literal template text matches itself  (proved)

For a template line with variables, the generated regular expression matches at a newline iff the text line that starts there has the template's indentation, then its literal fragments up to: any run of spaces/tabs in the template matches any non-empty run, any run of digits matches any non-empty run of digits (with a text allowed by the variable's patterns in place of each variable), then blanks to the end of the line. Searching a text finds every such line exactly once, in order.

*Model and proof:* FormRegex.v generates the text of an expression, reads it back as an expression of Regex.v; the matcher is proved sound and complete for the relational semantics of SpecRegex.v, and the expression of a line to match exactly the lines SpecLine.v describes.  
*Theorems:* `C38_line`, `C38_search`, `C38_blank_run`, `C38_exact`

### C39 What `_exact_` and `_exact_space_` make literal  (proved)

A line with `_exact_` and without `_exact_space_` matches its digits literally and its blanks loosely. A line with `_exact_space_` matches both blanks and digits literally, whether or not `_exact_` is there (the attribute's name contains `_exact_`, so blanks alone cannot be made literal).

*Model and proof:* FormRegex.v generates the text of an expression, reads it back as an expression of Regex.v; the matcher is proved sound and complete for the relational semantics of SpecRegex.v, and the expression of a line to match exactly the lines SpecLine.v describes.  
*Theorems:* `C39_limits`, `C39_exact`, `C39_exact_space`

### C40 extend filters  (proved)

An extend tag with vars/groups/inputs/lookups/outputs filters inserts exactly the elements of the extended template whose kind is not filtered or whose names (or, for groups, position) are listed, in their original order; without filters everything is inserted; inside a group only groups and extend tags are.

*Model and proof:* Template.v: structural functions over trees of tags; induction on the tree.  
*Theorems:* `C40_filters`

### C41 unrange expands every range  (proved)

For a field made of plain items and ranges a<rangechar>b of integers, separated by joinchar, unrange returns the same items in order with each range written out as a, a+1, .., b; a field without the range character is returned unchanged.

*Model and proof:* MatchFuncs.v, one function per file of ttp/match; specification in SpecMatch.v; mostly induction on strings or lists.  
*Theorems:* `C41_unrange`, `C41_range`, `C41_no_range`

### C42 mac_eui is canonical and idempotent  (proved)

mac_eui maps every notation (any case, any of the separators . : -) of the same twelve hex digits to the same aa:bb:cc:dd:ee:ff text; applying it twice is the same as applying it once, for every value; text with characters other than letters, digits and separators is returned unchanged.

*Model and proof:* MatchFuncs.v, one function per file of ttp/match; specification in SpecMatch.v; mostly induction on strings or lists.  
*Theorems:* `C42_canonical`, `C42_idempotent`, `C42_other_text`

### C43 to_cidr converts a netmask to its prefix length  (proved)

For every prefix length n from 0 to 32 the dotted mask of n converts to the integer n; for any dotted numbers 0..255 the number of one bits is returned; text with a part that is not an integer is returned unchanged.

*Model and proof:* MatchFuncs.v, one function per file of ttp/match; specification in SpecMatch.v; mostly induction on strings or lists.  
*Theorems:* `C43_mask`, `C43_bits`, `C43_not_numbers`

### C44 item() clamps the index  (proved)

For every non-empty list or string and every integer i, item(i) returns the i-th item counted as in Python, the last item if i is beyond the end and the first if it is before the start.

*Model and proof:* MatchFuncs.v, one function per file of ttp/match; specification in SpecMatch.v; mostly induction on strings or lists.  
*Theorems:* `C44_list`, `C44_str`

### C45 truncate keeps the first n words  (proved)

truncate(n) returns the first n blank-separated words joined with single spaces, and the data itself if it has at most n words.

*Model and proof:* MatchFuncs.v, one function per file of ttp/match; specification in SpecMatch.v; mostly induction on strings or lists.  
*Theorems:* `C45_truncate`, `C45_words`

### C46 Numeric and membership tests decide what they say  (proved)

greaterthan/lessthan accept exactly when both sides are decimal numbers (after stripping blanks) that compare so, and reject non-digits; isdigit/notdigit, equal/notequal, startswith_re/notstartswith_re, endswith_re/notendswith_re, contains_re/exclude_re are complementary; contains accepts iff one of the patterns occurs in the text, exclude iff the pattern does not; none of them changes the data.

*Model and proof:* MatchFuncs.v, one function per file of ttp/match; specification in SpecMatch.v; mostly induction on strings or lists.  
*Theorems:* `C46_greaterthan`, `C46_lessthan`, `C46_not_digits`, `C46_isdigit_notdigit`, `C46_contains`, `C46_exclude`, `C46_re_complements`, `C46_re`, `C46_equal`

### C47 append / prepend / print family  (proved)

append(x) adds at the end, and prepend(x) at the beginning, of a string or list the text that x stands for: the value of the template variable x if there is one, else x itself; join glues a list of strings.

*Model and proof:* MatchFuncs.v, one function per file of ttp/match; specification in SpecMatch.v; mostly induction on strings or lists.  
*Theorems:* `C47_append`, `C47_prepend`, `C47_join`

### C48 replaceall  (proved)

replaceall(new, v1..vn) replaces every occurrence of every v in turn by new (by nothing when only one argument is given), where a v that names a template variable holding a list or a dictionary stands for the listed strings, with the dictionary's key as the new text.

*Model and proof:* MatchFuncs.v, one function per file of ttp/match; specification in SpecMatch.v; mostly induction on strings or lists.  
*Theorems:* `C48_replaceall`, `C48_one_argument`

### C49 Lookups return the table's entry or leave the data alone  (proved)

lookup/gpvlookup/rlookup with add_field never change the matched value; without add_field the value becomes the table's entry when there is one and stays the same otherwise.

*Model and proof:* MatchFuncs.v, one function per file of ttp/match; specification in SpecMatch.v; mostly induction on strings or lists.  
*Theorems:* `C49_lookup_found`, `C49_lookup_missing`, `C49_lookup_no_table`, `C49_add_field_keeps`, `C49_rlookup`, `C49_gpvlookup`

### C50 record/set/count write exactly one variable  (proved)

record(name) stores the matched value in the variable `name` (input and global) and changes no other variable; set reads it back; count increments per input and globally.

*Model and proof:* MatchFuncs.v, one function per file of ttp/match; specification in SpecMatch.v; mostly induction on strings or lists.  
*Theorems:* `C50_record`, `C50_set_reads_recorded`, `C50_set_global`, `C50_set_other_line`, `C50_count`, `C50_count_var_only`

### C51 contains/containsall/exclude/excludeall decide on presence of matched variables  (proved)

For variables that have no default value: contains accepts iff at least one named variable was matched, exclude iff none was, excludeall iff not all were. containsall accepts iff every named variable has a matched (non-default) value, whatever the defaults. None changes the record; in a run the rejected records are not saved and the others are saved unchanged in order.

*Model and proof:* GroupFuncs.v, one function per file of ttp/group, run inside the machine of Results.v; SpecGroup.v.  
*Theorems:* `C51_containsall`, `C51_contains`, `C51_exclude`, `C51_excludeall`, `C51_run`

### C52 equal / contains_val / exclude_val  (proved)

equal accepts iff the record's value of the key equals the (variable-resolved) value; exclude_val is its complement for a present key and accepts a missing one; contains_val on a text value accepts iff it contains the given text, on a list iff it has an equal item, on a missing key only the empty text. None changes the record.

*Model and proof:* GroupFuncs.v, one function per file of ttp/group, run inside the machine of Results.v; SpecGroup.v.  
*Theorems:* `C52_equal`, `C52_exclude_val`, `C52_contains_val_text`, `C52_contains_val_list`, `C52_contains_val_missing`

### C53 del, items2dict, set, record, to_int touch only the named keys  (proved)

Each of these functions changes only the keys it names: del removes exactly the listed keys keeping the order of the others; items2dict replaces the two named entries by one key-value pair and rejects records lacking either; set stores the template variable, else the global variable, else the default, else the name; record leaves the record alone and stores the value in both variable scopes; to_int turns text accepted by int() into that integer, other numeric text into a float, and leaves the rest.

*Model and proof:* GroupFuncs.v, one function per file of ttp/group, run inside the machine of Results.v; SpecGroup.v.  
*Theorems:* `C53_del`, `C53_items2dict`, `C53_items2dict_missing`, `C53_set`, `C53_record`, `C53_record_missing`, `C53_to_int`, `C53_to_int_all`, `C53_to_int_text`

### C54 expand is the inverse of dotted flattening  (proved)

When no key is a dotted prefix of another, expand turns every key a.b.c into nested dictionaries so that reading the path a,b,c gives the original value, and nothing else can be read from the result.

*Model and proof:* GroupFuncs.v, one function per file of ttp/group, run inside the machine of Results.v; SpecGroup.v.  
*Theorems:* `C54_expand`

### C55 itemize  (proved)

itemize(key) turns a group's records into the list, at the group's path with one asterisk, of their non-empty `key` values in order; records without the key are dropped and nothing else in the results changes.

*Model and proof:* GroupFuncs.v, one function per file of ttp/group, run inside the machine of Results.v; SpecGroup.v.  
*Theorems:* `C55_itemize`, `C55_no_key`

### C56 table output is rectangular and complete  (proved)

The table formatter gives one row per record selected by path and key, plus a header row; every row has as many cells as there are headers; the cell in the first column headed h of a record's row is the record's value for h, or the missing value; without explicit headers they are the sorted set of all the records' keys.

*Model and proof:* Outputs.v; SpecOutput.v; induction on the path and on nested values.  
*Theorems:* `C56_rows`, `C56_total`

### C57 csv output can be read back  (proved)

For a table with at least one header, whose headers are strings, whose rows are as long as the headers and whose headers and cells contain no quote and no line break, reading the text of the csv formatter (default separator and quote) gives back the headers and the rows as text, and loading it gives the table's dictionary. Quotes inside cells, tables without headers and headers that are not strings break this.

*Model and proof:* Loaders.v (csv reader automaton, splitlines) and the csv formatter; SpecCsv.v; the automaton is run symbolically over a printed table.  
*Theorems:* `C57_limits_quote`, `C57_rows`, `C57_load`, `C57_limits_empty`, `C57_limits_header`

### C58 traverse and path selection  (proved)

traverse with a path returns the value found by following the path through dictionaries (in a list, for every item); with strict=False an empty dictionary when a key of the path is missing; values that are neither dictionaries nor lists are returned as they are.

*Model and proof:* Outputs.v; SpecOutput.v; induction on the path and on nested values.  
*Theorems:* `C58_selects`, `C58_unique`

### C59 dict_to_list turns entries into records  (proved)

dict_to_list turns {k1: v1, ...} whose values are dictionaries into [{**v1, key_name: k1}, ...] in order; a list is converted item by item; with a path, what the path selects is converted.

*Model and proof:* Outputs.v; SpecOutput.v; induction on the path and on nested values.  
*Theorems:* `C59_dict`, `C59_list`, `C59_path`

### C60 Outputs run in order, and only when their condition holds  (proved)

An output applies its functions in order to the results, then its formatter, then its returners in order; unsupported returners are skipped; the formatted results come back if one of the returners is self, otherwise the data given; when a condition is given and not met the results are returned unchanged and nothing else happens.

*Model and proof:* Outputs.v; SpecOutput.v; induction on the path and on nested values.  
*Theorems:* `C60_runs`, `C60_skipped`, `C60_condition`, `C60_data_kept`

### C61 is_equal reports equality  (proved)

is_equal's is_equal field is True iff the results (those under _anonymous_ if there is such a key) equal the loaded data, the order of dictionary keys being ignored.

*Model and proof:* Outputs.v; SpecOutput.v; induction on the path and on nested values.  
*Theorems:* `C61_is_equal`

### C62 load_csv with key builds the right table  (proved)

Loading csv text with key k gives a dictionary mapping the k cell of every row to the row's other cells by header (the last row with a key wins); without key the first column is used; a key that is not a header gives an empty dictionary. Cells may be written plain or between quotes with quotes doubled.

*Model and proof:* Loaders.v (csv reader automaton, splitlines) and the csv formatter; SpecCsv.v; the automaton is run symbolically over a printed table.  
*Theorems:* `C62_rows`, `C62_load`, `C62_unknown_key`

### C63 The function cache never changes which functions are available  (proved)

Whatever processes (of any ttp and Python versions) started before or run at the same time, and wherever they were killed while writing the cache file, a starting process does not fail and the functions available to it are exactly those offered by the modules of its own package - provided the files of a given version do not change.

*Model and proof:* Cache.v: the package's files, the pickle (an arbitrary partial decoding) and the table of functions as states; invariants over histories of calls; whose dictionary a module sees as an explicit heap.  
*Theorems:* `C63_history`, `C63_scan`

### C64 Every saved value comes from the text, a default, a variable or a function  (proved)

For groups without functions, every scalar other than None that can be read anywhere in the produced results is a scalar of some match result, default value or template variable of the run, or of the results started from: the results builder invents no data. (None can be invented: a saved group whose path is a number becomes None.)

*Model and proof:* Leaves of values (SpecLeaves.v); an invariant of the whole results state.  
*Theorems:* `C64_no_invention`, `C64_reads`, `C64_limits`

### C65 A rejected start removes exactly its group's and its direct children's matches  (proved)

After a rejected start line of a group, and up to the group's next accepted start, the results are those of the same matches without the group's own matches and without the matches of groups directly inside it, as if the rejected line were not there; matches of more deeply nested groups are still saved.

*Model and proof:* Results.v make_results as a fold over match events; invariants of the state (current record, started groups, ended groups) and refinement to a left-to-right reading of the events (SpecRecords.v, SpecOpen.v, SpecChoice.v); group functions are arbitrary.  
*Theorems:* `C65_exactly`, `C65_limits`

### C66 When unrange raises  (proved)

unrange raises exactly when the text contains the range character and, expanding from left to right, it meets a range whose start is not a number (ValueError) or which nothing follows (IndexError); in every other case it returns a value, and a range whose end is not a number gives the text back.

*Model and proof:* MatchFuncs.v, one function per file of ttp/match; specification in SpecMatch.v; mostly induction on strings or lists.  
*Theorems:* `C66_raises`, `C66_limits`

### C67 mac_eui on any value  (proved)

For every value, mac_eui writes its letters and digits (separators dropped, lower case, filled up with zeros to twelve) as colon separated pairs, exactly if there is nothing but letters and digits besides the separators; text is unchanged exactly if it contains other characters or is already in that form - whether it is a MAC address or not.

*Model and proof:* MatchFuncs.v, one function per file of ttp/match; specification in SpecMatch.v; mostly induction on strings or lists.  
*Theorems:* `C67_any`, `C67_unchanged`, `C67_limits`

### C68 to_cidr on any value  (proved)

to_cidr returns text unchanged exactly if one of the dot separated parts is not an integer, and any other text becomes the number of one bits of its parts, also if it is not one of the 33 netmasks; what is not text is returned unchanged.

*Model and proof:* MatchFuncs.v, one function per file of ttp/match; specification in SpecMatch.v; mostly induction on strings or lists.  
*Theorems:* `C68_unchanged`, `C68_converted`, `C68_not_text`, `C68_limits`

### C69 When item() fails  (proved)

item(i) returns a value for every non-empty list or string and every integer i; it raises IndexError for an empty one, TypeError for what is neither a list, a string nor a dictionary; on a dictionary it looks up the clamped number as a key and raises KeyError if it is missing.

*Model and proof:* MatchFuncs.v, one function per file of ttp/match; specification in SpecMatch.v; mostly induction on strings or lists.  
*Theorems:* `C69_empty`, `C69_fails`, `C69_dictionary`, `C69_other`

### C70 When numeric comparisons raise  (proved)

greaterthan and lessthan return a verdict for every pair of strings unless both consist of characters that count as digits and one of them is not the text of an integer (as a superscript digit): then, and only then, they raise ValueError.

*Model and proof:* MatchFuncs.v, one function per file of ttp/match; specification in SpecMatch.v; mostly induction on strings or lists.  
*Theorems:* `C70_raises`, `C70_not_text`

### C71 append/prepend resolve template variables only  (proved)

append(x) and prepend(x) never depend on the global variables: when x is not a template variable the name x itself is added to the text, even if a global variable of that name exists.

*Model and proof:* MatchFuncs.v, one function per file of ttp/match; specification in SpecMatch.v; mostly induction on strings or lists.  
*Theorems:* `C71_globals_ignored`, `C71_name`, `C71_limits`

### C72 replaceall ignores string variables  (proved)

An argument of replaceall that names a template variable holding a string is ignored at any position: the outcome is that of the call without that argument, and the text is unchanged if it is the only one. In particular the string it holds is not replaced.

*Model and proof:* MatchFuncs.v, one function per file of ttp/match; specification in SpecMatch.v; mostly induction on strings or lists.  
*Theorems:* `C72_ignored`, `C72_limits`

### C73 Where the record of a default-only group is processed, for texts of any length  (proved)

The record of defaults of a group that never matched is numbered with the first free number from 10000000 on, and is processed between the matches that start before that position and those that start after it; so it comes last for every text of up to ten million characters and not necessarily for longer ones.

*Model and proof:* Parser.v with arbitrary compiled expressions and arbitrary function chains; invariants over the folds of matches, regexes and groups; windows of text as slices.  
*Theorems:* `C73_place`, `C73_limits`

### C74 contains/exclude/excludeall with default values  (proved)

For variables that may have a default: contains accepts iff the first named variable that is present has a value different from its default; exclude rejects iff a named variable without default is present; excludeall rejects iff all named variables are present without default.

*Model and proof:* GroupFuncs.v, one function per file of ttp/group, run inside the machine of Results.v; SpecGroup.v.  
*Theorems:* `C74_contains`, `C74_exclude`, `C74_excludeall`, `C74_contains_limits`, `C74_exclude_limits`, `C74_excludeall_limits`

### C75 When value tests raise  (proved)

equal and exclude_val return a verdict for every record whatever the type of the value; contains_val returns one exactly if the given value can be searched in the value of the record (text in text, anything in a list, text or number as key of a dictionary), and raises TypeError otherwise.

*Model and proof:* GroupFuncs.v, one function per file of ttp/group, run inside the machine of Results.v; SpecGroup.v.  
*Theorems:* `C75_answers`, `C75_equal`

### C76 When expand keeps every value  (proved)

For a record with distinct string keys whose values are not dictionaries, expand succeeds and lets every original value be read back under its dotted name exactly if no key is a dotted prefix of another one.

*Model and proof:* GroupFuncs.v, one function per file of ttp/group, run inside the machine of Results.v; SpecGroup.v.  
*Theorems:* `C76_gives_back`, `C76_loses_limits`, `C76_raises_limits`

### C77 Group lookup  (proved)

When the record's value of the key is in the lookup table reached by the dotted name, the found value is stored in add_field, or merged into the record (update), or replaces the value; when key or value is missing the record is unchanged.

*Model and proof:* GroupFuncs.v, one function per file of ttp/group, run inside the machine of Results.v; SpecGroup.v.  
*Theorems:* `C77_lookup_found`, `C77_lookup_missing`

### C78 Group lookups whose name leads to no table  (proved)

If the dotted name of a group lookup leads nowhere, the record is returned unchanged; if it leads to a value that is not a dictionary, None is stored in the record (under the added field or in place of the value); if it goes through a value that is not a dictionary, AttributeError is raised.

*Model and proof:* GroupFuncs.v, one function per file of ttp/group, run inside the machine of Results.v; SpecGroup.v.  
*Theorems:* `C78_nowhere`, `C78_none`, `C78_raises`, `C78_limits`

### C79 Group sformat  (proved)

sformat stores in add_field the text formatted with the record, or if names are missing with the record, then template variables, then global variables; if names are still missing the record is unchanged; no other key changes.

*Model and proof:* GroupFuncs.v, one function per file of ttp/group, run inside the machine of Results.v; SpecGroup.v.  
*Theorems:* `C79_sformat`, `C79_precedence`

### C80 Group macros run in order  (proved)

The macros named (comma separated, over all arguments) run left to right, each on the previous one's output; unknown names are skipped; True/None continue with the data unchanged; the first False rejects the record.

*Model and proof:* GroupFuncs.v, one function per file of ttp/group, run inside the machine of Results.v; SpecGroup.v.  
*Theorems:* `C80_macro`

### C81 When a session with output tags can be parsed again  (proved)

parse() can be called again, directly or after clear_result(), and so on for every further call, when the template's output functions do not fail and turn a list of results into a list; an output that turns the list into something else can make the next parse() or clear_result() raise.

*Model and proof:* Session.v: the ttp object as a record, calls as state transformers; induction over histories of calls, the parsing function arbitrary.  
*Theorems:* `C81_parse_again_limits`, `C81_clear_limits`, `C81_tame_outputs`

### C82 What result() returned is the parser's own list  (proved)

The list returned by result() keeps following the parser: after a later parse() in per_input mode it also holds the new results, after clear_result() it is empty, and with per_template a later parse() leaves the object returned before as it was.

*Model and proof:* SessionHeap.v: results lists as mutable objects in a heap; what an address shows after each call.  
*Theorems:* `C82_after_parse`, `C82_after_clear`, `C82_per_template`, `C82_limits`

### C83 What structure=dictionary contains  (proved)

result(structure='dictionary') has one entry per template name, in order of first appearance, and each entry is the results of the last template of that name.

*Model and proof:* Session.v: the ttp object as a record, calls as state transformers; induction over histories of calls, the parsing function arbitrary.  
*Theorems:* `C83_last_of_name`, `C83_limits`

### C84 Results method spellings other than the two documented ones  (proved)

A template whose results attribute is spelled in any other way than exactly 'per_input' or 'per_template' (also in another case) gets nothing from parse(): its results stay as they were.

*Model and proof:* Session.v: the ttp object as a record, calls as state transformers; induction over histories of calls, the parsing function arbitrary.  
*Theorems:* `C84_other_spellings`, `C84_limits`

### C85 When adding data to an existing input keeps the template order of its groups  (proved)

However many times add_input is called for an input, its groups are run in template order as long as the groups' numbers are below the bound under which Python lists a set of small integers in increasing order; above it the order may change.

*Model and proof:* Session.v: the ttp object as a record, calls as state transformers; induction over histories of calls, the parsing function arbitrary.  
*Theorems:* `C85_small_templates`, `C85_limits`

### C86 When a multi-process parse ends  (proved)

A multi-process parse() that can go no further has ended if and only if no worker died while parsing; when what a worker makes of a datum does not depend on its history, it ends under every schedule if no datum makes the parser raise, and under every schedule waits forever if one does.

*Model and proof:* Workers.v: labelled transition system; invariants (permutation of jobs, accounting of workers), a termination measure over all executions, and the exact set of reachable orders (SpecWorkers.v).  
*Theorems:* `C86_ends_iff`, `C86_raise_hangs`, `C86_limits`

### C87 Which functions workers have when custom functions were added  (proved)

In worker processes a scope to which add_function() added anything holds exactly the added functions, and every other scope holds exactly its built-in functions.

*Model and proof:* Workers.v: labelled transition system; invariants (permutation of jobs, accounting of workers), a termination measure over all executions, and the exact set of reachable orders (SpecWorkers.v).  
*Theorems:* `C87_scope_replaced`, `C87_limits`

### C88 Which extend tags are expanded  (proved)

After loading an orderly template (one in which what directly follows an extend that brings only text or nothing has nothing to expand itself) no extend tag is left in it: each was replaced by the content it names, in place and in order.

*Model and proof:* Template.v: structural functions over trees of tags; induction on the tree.  
*Theorems:* `C88_expanded`, `C88_nothing_to_do`, `C88_limits`

### C89 What was written into a line is read back  (proved)

If the variables of a template line are words set off by blanks, then for a text line made by putting words in their places, the search finds that line and the captured values are exactly those words, in the right variables, whatever text comes before and after.

*Model and proof:* FormRegex.v generates the text of an expression, reads it back as an expression of Regex.v; the matcher is proved sound and complete for the relational semantics of SpecRegex.v, and the expression of a line to match exactly the lines SpecLine.v describes.  
*Theorems:* `C89_values`, `C89_round_trip`

### C90 A line with two variables of one name is rejected at load  (proved)

The expression of a template line compiles iff its captured variables have different names (after characters that are not word characters became `_`).

*Model and proof:* FormRegex.v generates the text of an expression, reads it back as an expression of Regex.v; the matcher is proved sound and complete for the relational semantics of SpecRegex.v, and the expression of a line to match exactly the lines SpecLine.v describes.  
*Theorems:* `C90_distinct_names`

### C91 Which groups are open  (proved)

At any point of an input the open groups are the group recorded last, its parent, that one's parent and so on, up to where a parent was not open when its child started; starting a group closes everything that is not on that line. A normal line of a group that is neither the one being recorded nor one of its ancestors is dropped: the results are as if the line were not there. (`_line_` groups close nothing.)

*Model and proof:* Results.v make_results as a fold over match events; invariants of the state (current record, started groups, ended groups) and refinement to a left-to-right reading of the events (SpecRecords.v, SpecOpen.v, SpecChoice.v); group functions are arbitrary.  
*Theorems:* `C91_step`, `C91_exact`, `C91_lineage`, `C91_dropped`

### C92 Lines of enclosing groups  (proved)

A normal line of a group whose record is not the current one becomes that group's current record if the group is open, and changes nothing otherwise. When a group starts, exactly that group and the groups that were open from its parent outwards are open afterwards; a start by a `_line_` variable closes nothing. So a line of an enclosing group can be lost once a nested group was opened again.

*Model and proof:* Results.v make_results as a fold over match events; invariants of the state (current record, started groups, ended groups) and refinement to a left-to-right reading of the events (SpecRecords.v, SpecOpen.v, SpecChoice.v); group functions are arbitrary.  
*Theorems:* `C92_line`, `C92_open`, `C92_open_line`, `C92_limits`

### C93 When non-strict path selection raises  (proved)

traverse (and the path of table, csv and dict_to_list) with strict=False raises (AttributeError) exactly when a dictionary among the data has something else than a dictionary in the way of the path, and returns a structure otherwise.

*Model and proof:* Outputs.v; SpecOutput.v; induction on the path and on nested values.  
*Theorems:* `C93_limits`, `C93_raises`

### C94 What dict_to_list gives  (proved)

The entries of the dictionary before the first one that is not a dictionary get their key stored under the key name, which overwrites only a value already stored under that name. If all entries are dictionaries the result is the list of the entries in order, otherwise the dictionary itself (with the marked entries). A value that is neither list nor dictionary becomes an empty list.

*Model and proof:* Outputs.v; SpecOutput.v; induction on the path and on nested values.  
*Theorems:* `C94_dict`, `C94_other`, `C94_limits_lost`, `C94_limits_unchanged`

### C95 What an output without the self returner does to the results  (proved)

An output without the self returner gives back the data it was given, but dict_to_list marks it in place: exactly the entries (before the first non-dictionary) of the dictionaries that are converted get the key; nothing else of the data changes, and nothing at all if the first entry is not a dictionary.

*Model and proof:* Outputs.v; SpecOutput.v; induction on the path and on nested values.  
*Theorems:* `C95_changed`, `C95_output`, `C95_kept`, `C95_limits`

### C96 What is_equal compares  (proved)

is_equal gives a verdict exactly when the results are a dictionary, a list without the text '_anonymous_' as an item, or a text that does not contain it; otherwise it raises TypeError. It compares the value under '_anonymous_' of a dictionary that has one (ignoring the rest), else the results themselves; each results value determines one compared value.

*Model and proof:* Outputs.v; SpecOutput.v; induction on the path and on nested values.  
*Theorems:* `C96_verdict`, `C96_one_value`, `C96_limits_ignored`, `C96_limits_raises`

### C97 When a csv table loads  (proved)

csv text with distinct headers, among them the key, loads exactly when every row fits: it has no more cells than the header row and has a cell under the key.

*Model and proof:* Loaders.v (csv reader automaton, splitlines) and the csv formatter; SpecCsv.v; the automaton is run symbolically over a printed table.  
*Theorems:* `C97_limits`, `C97_fits`

### C98 Which cache file contents are survived  (proved)

Start-up succeeds with exactly the functions of the package iff the cache file does not hold a foreign pickled object and, if it holds a cache of this version and Python, that cache lists the functions of the package.

*Model and proof:* Cache.v: the package's files, the pickle (an arbitrary partial decoding) and the table of functions as states; invariants over histories of calls; whose dictionary a module sees as an explicit heap.  
*Theorems:* `C98_raises_limits`, `C98_stale_limits`, `C98_exactly`

### C99 When the cache that was written is used  (proved)

After a run that wrote the cache, the next run of the same version and Python uses it instead of scanning the package again exactly when the first run had found a readable cache (of another version); a cache written when none could be read is not used by the next run, which writes it again, and the run after that uses it. The functions are the same in all these runs.

*Model and proof:* Cache.v: the package's files, the pickle (an arbitrary partial decoding) and the table of functions as states; invariants over histories of calls; whose dictionary a module sees as an explicit heap.  
*Theorems:* `C99_limits`, `C99_second`, `C99_third`, `C99_exactly`

### C100 Every function name runs its own function  (proved)

After any history of creating parsers, calling functions and adding custom functions, calling a function a parser did not replace runs the function the package offers under that name (with the name map applied); a name nobody offers or added is an error.

*Model and proof:* Cache.v: the package's files, the pickle (an arbitrary partial decoding) and the table of functions as states; invariants over histories of calls; whose dictionary a module sees as an explicit heap.  
*Theorems:* `C100_call`, `C100_unknown`

### C101 When a custom function stays in place  (proved)

A function registered with add_function under a new name runs under that name from then on. One that replaces a package function stays as long as the parser has not used the module (called a function of it that was not replaced), and forever if the parser had used the module before the registration; if the parser first uses the module after the registration, the package's function is back.

*Model and proof:* Cache.v: the package's files, the pickle (an arbitrary partial decoding) and the table of functions as states; invariants over histories of calls; whose dictionary a module sees as an explicit heap.  
*Theorems:* `C101_limits`, `C101_new_name`, `C101_after_call`, `C101_exactly`

### C102 Whose state a function works on  (proved)

A function called by a parser works on the variables, lookups and results of the parser whose first call of the function's module came last among all parsers of the process; so it is the calling parser when the process has only one parser, and can be another one otherwise.

*Model and proof:* Cache.v: the package's files, the pickle (an arbitrary partial decoding) and the table of functions as states; invariants over histories of calls; whose dictionary a module sees as an explicit heap.  
*Theorems:* `C102_limits`, `C102_sees`, `C102_one_parser`

### C103 The record of a matched line  (proved)

The record of a matched line holds, under each variable's name, the captured value after all its functions, plus the fields the functions add; written variable by variable in line order, a variable's value before the fields its functions add, later writes winning. If a function of any variable rejects its value, there is no record: a start line counts as a rejected start, any other line as no match.

*Model and proof:* Parser.v with arbitrary compiled expressions and arbitrary function chains; invariants over the folds of matches, regexes and groups; windows of text as slices.  
*Theorems:* `C103_record`

### C104 let, copy and void  (proved)

let with one argument replaces the value and goes on with the other functions; let with two arguments keeps the value and adds the named field with the given value; copy keeps the value and adds it under the given name; void rejects the line.

*Model and proof:* Parser.v with arbitrary compiled expressions and arbitrary function chains; invariants over the folds of matches, regexes and groups; windows of text as slices.  
*Theorems:* `C104_let_value`, `C104_let_field`, `C104_copy`, `C104_void`, `C104_line`

### C105 macro as a match function  (proved)

A macro that answers True or False accepts or rejects the value; None keeps it; a pair of a value and a dictionary replaces the value and adds the dictionary's fields to the record; any other answer that is not a tuple replaces the value. A macro name that is not defined keeps the value, and what a macro raises is raised.

*Model and proof:* Parser.v with arbitrary compiled expressions and arbitrary function chains; invariants over the folds of matches, regexes and groups; windows of text as slices.  
*Theorems:* `C105_answers`, `C105_unknown`, `C105_raises`, `C105_fields`

### C106 Function names that are not match functions  (proved)

A name that is not a match function is looked up as an attribute or method of the value: a bool answer accepts or rejects, any other answer replaces the value, and without such an attribute the value is kept. The same happens if a match function itself raises KeyError; no other exception is handled.

*Model and proof:* Parser.v with arbitrary compiled expressions and arbitrary function chains; invariants over the folds of matches, regexes and groups; windows of text as slices.  
*Theorems:* `C106_attribute`, `C106_match_function`

### C107 to_int, to_str, to_list, resub and resuball  (proved)

to_int turns the text of a whole number (blanks around, optional sign, digits with single underscores) into that number and keeps every other text; it raises TypeError for None, lists and dictionaries. to_str gives the text of a value, to_list a list of it. resub replaces a pattern, or the literal text of the template variable its name stands for; resuball applies in order every pattern its arguments and the variables they name stand for.

*Model and proof:* MatchFuncs.v, one function per file of ttp/match; specification in SpecMatch.v; mostly induction on strings or lists.  
*Theorems:* `C107_to_int`, `C107_to_int_other`, `C107_to_int_inverse`, `C107_to_str`, `C107_resub`, `C107_resuball`, `C107_resuball_one`

### C108 Which templates and inputs add_input, clear_input and set_input touch  (proved)

add_input, clear_input and set_input act on exactly the template of the given name, or on all templates for '_all_'; other templates, all results, groups and outputs stay as they were. add_input changes only the named input, creating it after the existing ones; data that loads to nothing changes nothing. clear_input removes all inputs. After set_input an addressed template has exactly the named input with exactly the given items, each once, in order, or no input when there are none.

*Model and proof:* Session.v: the ttp object as a record, calls as state transformers; induction over histories of calls, the parsing function arbitrary.  
*Theorems:* `C108_add_input`, `C108_clear_input`, `C108_set_input`

### C109 What the built-in patterns match  (proved)

WORD matches non-empty text without white space; DIGIT non-empty digits; _line_ non-empty text within one line; PHRASE two or more words with single spaces, ORPHRASE one or more, ROW two or more words with any number of spaces between them; IP four numbers of one to three digits (any value), PREFIX the same with /n; IPV6 two to eight fields of up to four hexadecimal digits (nine when it ends in ::), PREFIXV6 the same with /n; MAC six pairs or three quadruples of hexadecimal digits with any of : . - between them. They match nothing else and capture nothing.

*Model and proof:* FormRegex.v generates the text of an expression, reads it back as an expression of Regex.v; the matcher is proved sound and complete for the relational semantics of SpecRegex.v, and the expression of a line to match exactly the lines SpecLine.v describes.  
*Theorems:* `C109_WORD`, `C109_DIGIT`, `C109_line`, `C109_PHRASE`, `C109_ORPHRASE`, `C109_ROW`, `C109_IP`, `C109_PREFIX`, `C109_IPV6`, `C109_PREFIXV6`, `C109_MAC`, `C109_names`

### C110 User-written character classes  (proved)

re("[parts]+") with single characters and ranges matches exactly the non-empty texts all of whose characters are among the parts, re("[^parts]+") those none of whose characters is.

*Model and proof:* FormRegex.v generates the text of an expression, reads it back as an expression of Regex.v; the matcher is proved sound and complete for the relational semantics of SpecRegex.v, and the expression of a line to match exactly the lines SpecLine.v describes.  
*Theorems:* `C110_class`

### C111 Orders of per_input results under multiprocessing  (proved)

With n worker processes the results of per_input mode come in exactly the orders in which n workers can deliver them: every order in which each worker's results keep the order of the items it took, and no other; with one worker the order of the items. With at least two workers any item can come last.

*Model and proof:* Workers.v: labelled transition system; invariants (permutation of jobs, accounting of workers), a termination measure over all executions, and the exact set of reachable orders (SpecWorkers.v).  
*Theorems:* `C111_orders`, `C111_one_worker`, `C111_any_last`

### C112 The template's XML reaches the parser as written  (proved)

For a template without extend tags, the element tree that groups, variables, inputs and lookups are made of is the tree of the template's text: the same elements with the same attributes, texts and tails in the same order, although the library writes the tree out and reads it again. The only change is that carriage returns given as character references become line feeds; a text without '&' is unchanged.

*Model and proof:* Xml.v (writer and reader of the fragment of XML that expat and ElementTree accept here), Load.v; induction on trees: what is written is read back (XmlFacts.v, LoadFacts.v).  
*Theorems:* `C112_tree_survives`, `C112_unchanged`, `C112_write_read`, `C112_read_is_writable`

### C113 Template and group tags are optional  (proved)

A template text without tags means one group named _anonymous_ that contains the text between two line breaks. A text with tags but without an enclosing template element means the same as the text between template tags; an enclosing template element with tags inside is taken as it is. A text that is not well-formed even between template tags is refused with ParseError.

*Model and proof:* Xml.v (writer and reader of the fragment of XML that expat and ElementTree accept here), Load.v; induction on trees: what is written is read back (XmlFacts.v, LoadFacts.v).  
*Theorems:* `C113_plain_text`, `C113_template_element`, `C113_no_template_element`, `C113_malformed`

### C114 A template of plain lines extracts exactly the words its lines describe  (proved)

Let a template be lines of literal text with {{ name }} variables separated by blanks, given as bare text or inside a group with a name. For any texts added as inputs, parsing succeeds and the results are, for each different text in the order of first appearance, the records of that text: every line of the text that is the first template line - same literal text, runs of blanks and digits of any length, one word without blanks for each variable, blanks or a carriage return at the end allowed - starts a record with its words; every other line that is one of the further template lines (the first that fits) adds its words to the open record; all other lines change nothing. No record gives an empty dictionary, one record itself, several a list; a group's name is the key they are saved under. The structures list, dictionary and flat_list show the same results. Variables, files, clock and the order of sets do not matter.

*Model and proof:* Run.v, the whole program, on templates built by SpecProgram.v: the line's regular expression is read by the parser of regular expressions and its matches are characterized (PlainLine.v, FindLines.v), then the matches on the text (LineRun.v), the records (PlainRun.v, PlainResult.v) and the session (PlainTop.v).  
*Theorems:* `C114_plain_program`, `C114_named_program`, `C114_determined`

### C115 Texts are parsed independently unless a function records  (proved)

Take any template text, with any groups, child templates and functions, that has no input tags, uses results=per_input, and in which no match variable uses record, count or gpvlookup and no group uses record. Then parsing texts together succeeds exactly when parsing each by itself succeeds, and the results are, template by template, the results of the texts by themselves, one per different text in the order of first addition. So no text can influence the result of another, whatever the regular expressions, defaults and functions are. With a recording function this fails: a later text sees what an earlier one recorded.

*Model and proof:* Run.v, the whole program; the functions of FuncTable.v that leave the shared variables alone (IsolationFuncs.v), invariance through the parser and the results machine (QuietFacts.v), then the session (Isolation.v).  
*Theorems:* `C115_isolated`, `C115_append`

### C116 A match function either tests the value or changes it, never both  (proved)

The functions startswith_re, endswith_re, contains_re, notstartswith_re, notendswith_re, exclude_re, exclude, equal, notequal, contains, isdigit, notdigit, greaterthan, lessthan, is_ip and void, with whatever arguments, never change the value or a variable and answer True or False; so a match variable with only such functions is saved exactly as matched when all of them accept it, and its line is dropped exactly when one rejects it after those before accepted. The functions copy, count, item, joinmatches, let, lookup, rlookup, gpvlookup, mac_eui, resub, resuball, record, sformat, join, append, prepend, print, replaceall, truncate, to_str, to_list, to_int, to_unicode, to_cidr, unrange and uptimeparse never reject: a match variable with only such functions loses no line, unless a function raises. (set and macro do both, raise always raises; cidr_match is C136; to_float, to_ip, to_net, ip_info, dns, geoip and sprintf are not modelled in the table.)

*Model and proof:* FuncTable.v, every entry of the table of match functions inspected with its argument binding (FilterFacts.v), then induction over the chain.  
*Theorems:* `C116_filter`, `C116_filters`, `C116_transformer`, `C116_transformers`

### C117 What vars tags with a name put into the results  (proved)

The variables of all <vars> tags that carry name=path are saved in the results at that path, with the values the variables have when the results are made, each name once and in the order of first mention; variables that do not exist are left out. The paths are handled in ascending string order, whatever the order of the tags, each exactly as a record of a group with that path would be saved, and all of them before any group's matches. They are saved only if some group matched something in the text: otherwise the result stays as it was. Tags of the same path add up, tags without a name save nothing, and the template's variables are those of all tags with later values replacing earlier ones.

*Model and proof:* Results.v (save_vars, make_results), Load.v (parse_vars); insertion sort gives the unique ascending permutation, then induction over the paths and over the tags (VarsFacts.v).  
*Theorems:* `C117_vars_first`, `C117_one_order`, `C117_keys`, `C117_no_match`, `C117_tags`

### C118 What the attributes of a group tag mean  (proved)

Attribute names are read without regard to case and of several spellings the last one counts. method is lower-cased and stripped, group if not given; input and output are comma separated lists with the white space around the items removed, and count only for top groups; default is the variable of that name or the text itself. Without a name, a top group has the path _anonymous_* and a child the path of its parent, and the identifier ends in ._anonymous_. A name that does not begin with a slash continues the parent's path, one that does starts over (below an item _anonymous_ it starts with _anonymous_*, and a single slash is _anonymous_*). Every other attribute is a function with the value as its arguments; chain and functions add those of the named variable's functions (a text or a list of texts) that are group functions, in order; loading succeeds with respect to attributes exactly when each of them can be read so. The group object has exactly these attributes, its functions are the concatenation in the order of the attributes, and each child gets its number, its parent's path and its parent's identifier.

*Model and proof:* Template.v (attributes), Compile.v (func_attributes, compile_group); closed form of the fold over the attributes (GroupAttrs.v).  
*Theorems:* `C118_no_name`, `C118_name`, `C118_functions`, `C118_group`

### C119 The complete loader makes the described groups  (proved)

For every template that loads, the groups the complete loader makes (with real attribute parsing, chain variables, patterns and compiled expressions) are those of the structural description: the same identifiers, parents, names, paths, methods, inputs and outputs, and each list of expressions consists of the compiled expressions of the lines with that role - end lines those marked _end_; start lines the first line, lines marked _start_ and every line of a table, with a start action; normal lines the others and all those after a child group - where functions reached through chains of any depth count like written ones. The expression of a line of ordinary variables is the one whose matches C38, C39, C89 and C90 describe.

*Model and proof:* Compile.v against Template.v: simulation of extract_functions with chains by the names, then of lines, lists and group trees (GroupRefine.v); CompileFacts.v for the expressions.  
*Theorems:* `C119_groups`, `C119_roles`, `C119_regex`, `C119_template`

### C120 What the text of functions and arguments means  (proved)

The text of a match variable or of a function attribute is cut at bars, white space around the pieces is removed and empty pieces are dropped. A piece is a word, or a name followed (after at most one white space) by brackets that reach to its end, the name being as short as possible. What stands in the brackets is read by the rules of Python literals: texts in either quotes with the escapes of Python (one-letter, octal, hexadecimal, unknown ones kept), raw texts, texts one after the other joined, integers, lists, dictionaries, brackets, positional before named arguments, names given once; in addition a bare word is its own text, true/false/none in any case are the constants, and the names of the reading module are its objects. The grammar gives each line one meaning at most; the functions read are exactly those of the grammar, and every line outside of it ends with SystemExit. Consequently the printed form (repr) of any arguments - texts with any characters, integers, constants, nested lists and dictionaries - is read back as these arguments.

*Model and proof:* Attributes.v against a grammar (SpecAttr.v): tokens (LexFacts.v, LexFacts2.v), values and arguments by mutual induction on the fuel and on the derivations (GrammarFacts.v, GrammarFacts2.v), the printed form is in the grammar (ReprFacts.v).  
*Theorems:* `C120_line`, `C120_exit`, `C120_one_meaning`, `C120_round_trip`

### C121 What a match variable is  (proved)

The text between {{ and }} is a name followed by functions. Chains are replaced by the functions that the named template variable holds (a text, or a list of texts), to any depth; a chain of an undefined variable stands for nothing, and chains that lead back to themselves make no variable. After that each function does one thing, in order: ignore, _start_, _end_, _headers_, _exact_, columns mark; re, _line_ and the pattern names add a regular expression (a template variable that is not empty, else a pattern, else the text itself); set keeps the line's text for the match, or gives a default if the line has no other text; default gives a default (None unless it has exactly one argument; not for _start_, _end_, _line_, ignore); functions of contains and equal kind get the values of variables named by their arguments; any other function is kept with its arguments. The last of _start_, _end_, _headers_, _line_, joinmatches decides how the match is saved. The variable's name has each run of non-word characters replaced by one underscore and an underscore before a leading digit; names that are words stay. In the line's regular expression it stands for (?P<name>(?:e1)|(?:e2)...), ignore for \S+, for its one expression, or (two or more arguments) is left as it is.

*Model and proof:* MatchVar.v (extract_functions with chains, get by name, defaults) against inductive rules (SpecVariable.v): a chain of different variables is no longer than their number, so the fuel is enough (VariableFacts2.v); VariableFacts.v for each function, VariableFacts3.v for names, endless chains and the expression.  
*Theorems:* `C121_variable`, `C121_name`, `C121_name_good`, `C121_name_kept`, `C121_endless`, `C121_source`

### C122 A headings line cuts each table row at the heading positions  (proved)

A template line of headings followed by {{ _headers_ }} describes a table. It gives a usable expression exactly when the number of required columns is at least one (two less than there are headings, or what the last columns(n) says, clipped between one and the number of headings) and the headings are distinct names; otherwise the template is unusable (one heading without columns raises IndexError, two headings without columns never compile). The rows found in the data are then exactly the lines longer than the columns before the last required one, in order; each is cut where the headings start (the indentation belongs to the first column, a tab counting four places), the last column takes the rest, and the cells put together are the row again. Each heading is a variable whose value is stripped, and a row holding the heading itself in its column is rejected.

*Model and proof:* SpecHeaders.v has widths, cells, required columns and column variables; HeadersFacts*.v show what the produced expression text compiles to, and that matching it at a line is cutting it, so finditer over any text is a flat_map over its lines.  
*Theorems:* `C122_when`, `C122_rows`, `C122_nothing_lost`, `C122_variables`, `C122_column`

### C123 What a group tag becomes, with its default values  (proved)

A group tag is accepted exactly when its attributes are, it has text, something stands after each child tag, and all its used lines (not blank, not starting with ##, with a variable) give expressions; child groups likewise. A line's expression is built from its variables in order; the first variable that starts a record decides what a match does, otherwise the last one, ignore never; a line with an unconditional set gives no expression but a default. Lines marked _end_ are end lines; the first line, lines marked _start_ and all lines of a table are start lines; the others, and all lines after a child group, are normal lines. The default value of a name is: what the group's dictionary of defaults says; otherwise the last default or unconditional set of a variable with the name; otherwise the text of the group's default attribute, for the names of variables other than _start_, _end_, _line_ and ignore. A record of defaults is made for a group that never matches exactly when a start line has a variable with a default, or there is no start line and the default is a dictionary. Values of several matches of a variable are joined with the separator of its first joinmatches.

*Model and proof:* SpecMade.v gives the rules (used lines, line_gives, lists_made, default_of, default_only, group_from); MadeFacts*.v show each step of the loader equal to them and close the lists of expressions and the dictionary of defaults into filters and a last-one-wins lookup, by induction on lines, tails and trees.  
*Theorems:* `C123_used`, `C123_line`, `C123_group`, `C123_groups`, `C123_defaults`, `C123_joins`

### C124 Functions called by name get the arguments their definitions say  (proved)

A match or group function named in a template is called by Python's rules: values in order, values by name, defaults for the rest, extra values only for functions with *args, names only once and only if the definition has them; anything else is a TypeError. Giving leading arguments by name instead of by place changes nothing. The function that runs is the one of that name, with each argument in the role its definition gives it; a name no function has is a KeyError (after which TTP tries a method of the value).

*Model and proof:* read_def parses the verbatim def lines; binds states Python's calling rules; match_does/group_does say per function which named argument goes where; the table of FuncTable is proved equal to them by iff  
*Theorems:* `C124_arguments`, `C124_by_name`, `C124_match`, `C124_group`, `C124_unknown`, `C124_misfit`

### C125 String methods, format strings, wildcards and pattern searches do what they say  (proved)

A name in a variable's function chain that is no match function is tried as a method of the matched text: upper, lower, strip, lstrip, rstrip, split, replace, startswith and endswith give exactly the text, pieces or answer their definitions describe (leftmost cutting, maximal words, characters stripped from the sides only), and a name that is no method is an AttributeError. A format string succeeds exactly when all its fields have values, and every field becomes its value. gpvlookup's wildcards match by * and ?. The pattern tests (contains_re and the like) say yes exactly when the pattern occurs in the value - at its beginning with ^, at its end or before a final line break with $ - and resub replaces the leftmost matches, at most as many as told, by what the replacement text makes of each.

*Model and proof:* inductive relations for letters, words, cutting, stripping, formats, wildcards, and the existing declarative regex relation for occurrence and replacement; each executable function is proved equivalent  
*Theorems:* `C125_methods`, `C125_no_method`, `C125_format`, `C125_wildcard`, `C125_search`, `C125_substitute`

### C126 Paths, JSON, Python text and the loaders of vars and lookup tags give exactly what they describe  (proved)

A path is the file at it, else that file in TTP_TEMPLATES_DIR, else the directory's files (in directory order, those with a wanted extension in whose names every filter pattern occurs), else the text itself; data that is no text is passed on as it is. The JSON loader accepts exactly the texts of the JSON grammar - blanks, literals, integers, escapes, lists, objects with the last of equal keys winning - and gives the value they spell; a text that is not JSON gives None with a logged error. The Python loader gives the dictionary of the assignments in the text, statements being able to run over lines, or else the one literal it is. The include attribute adds the files' texts on new lines; the load attribute picks the loader in any case, python by default; another loader name is a KeyError.

*Model and proof:* Files.load_files, json_loads, load_python and load_struct are proved equivalent to the inductive descriptions of SpecFiles (loads, json_text, python_gives, struct_gives): soundness by induction on fuel, completeness by mutual induction on the grammar. What JSON has and the model has not (floats, Infinity, code points) is listed by extended; outside of it a text without a value is a ValueError.  
*Theorems:* `C126_files`, `C126_json`, `C126_json_error`, `C126_python`, `C126_load`, `C126_unknown`

### C127 An input tag makes exactly the input its attributes and text describe  (proved)

Each attribute of an input tag, and each attribute its text gives where the load attribute stands, does one thing, in the order they stand: name, load, groups, extensions, filters, url, functions, extract_commands, in upper or lower case; a function's own name adds that function; others are ignored. Groups that name the input take the place of the groups attribute's; a group with an input attribute is never picked by groups. With load text the data is the tag's text, else the files of the urls after the base path. Tags of one name are one input: groups are joined, data already there is not added again, a tag without data makes the files be read again. A name that only a group's input attribute gives is a path, read with the template, and gets that group only.

*Model and proof:* SpecInputs gives the effect of each attribute as an inductive relation, mutually with the attributes the text loads; InputFacts proves read_attrs, tag_input, put_input and template_inputs equivalent to it (both directions).  
*Theorems:* `C127_tag`, `C127_attributes`, `C127_same_name`, `C127_inputs`

### C128 The host name and the commands' outputs are the ones the data's prompts show  (proved)

gethostname gives the host in the first line, apart from the first and last, that has the first of seven prompt forms that any line has, with byte order marks removed; nothing if no line has one, and then the variable is not set; getfilename gives the path of the data. extract_commands keeps of the text, for each command in the order given, the first place where the prompt is followed by the command alone on its line and the output up to the next prompt or the end, each between newlines; the text stays as it is if there is no host name or no output.

*Model and proof:* SpecHost says what lines have which prompt form and which host is preferred; HostFacts proves gethostname (finditer over the seven expressions) equal to it both ways; CommandFacts proves the same for the expression that extract_commands formats from host and command.  
*Theorems:* `C128_hostname`, `C128_no_hostname`, `C128_commands`, `C128_variables`

### C129 The json format of results is readable JSON of the same results  (proved)

The json formatter's text has one item per line, indented by four spaces per level, with the entries of every dictionary in the order of their keys, and only printable ASCII characters. It exists exactly for results without objects whose dictionaries have keys of one kind, else the formatter fails with TypeError. Reading it with a JSON loader gives the same results, equal to the ones that were formatted if every key is a text (other keys become texts).

*Model and proof:* JsonDump models json.dumps with the arguments the formatter gives; SpecJson says which texts print a value; JsonDumpFacts proves them equal, that the texts are in C126's JSON grammar and denote the value, by induction on values.  
*Theorems:* `C129_text`, `C129_total`, `C129_read`, `C129_same`, `C129_limits`

### C130 Output tags and result() arguments run as they are written  (proved)

An output tag, or result(**kwargs), means the output that its attributes and text say: comma and dot separated lists, functions in the order written, a condition, defaults for what is not given. Running it gives exactly what the condition, the functions (traverse, dict_to_list, is_equal), the formatter (raw, json, table, csv) and the returners (self, terminal, file) say: the returned results, and what is printed or written. Without the self returner the results stay as the functions left them. Several outputs are applied one after the other. result(templates, structure, **kwargs) runs the output for each template asked for, in their order, and gives what it returned as a list, as a dictionary by template name (templates without a name left out, the last of a name counting) or as a flat list.

*Model and proof:* OutputTags.v models __init__, extract_load, get_attributes and run; SpecOutputTags.v states what attributes, functions, formatters and returners mean as inductive relations on the specifications of C56-C61, C93-C96 and C126-C129; the theorems are equivalences (Ok results of the model <-> the relation), by induction over attributes, functions, returners and values.  
*Theorems:* `C130_tag`, `C130_arguments`, `C130_function`, `C130_format`, `C130_run`, `C130_outputs`, `C130_result`

### C131 Loading a template: every tag becomes what its rules say, and nothing else  (proved)

Adding a template reads its text as a tree of tags (wrapping it in a template tag, or in one group if it has no tags), runs its macro tags, replaces its extend tags by what the files hold (changed by the extend tag's macro, if it names one), and then makes of it exactly: its name, results mode and path character from the tag's attributes; its variables from the variables tags in order (later ones win, a tag's name puts its keys into the results), split into plain variables and those computed for every input; its lookup tables by name; its groups; its outputs, distributed over the groups that name them; its inputs with the groups they feed; its macros. Child templates replace the template; they are named by their number unless they have a name. Every other text fails to load.

*Model and proof:* The loader model (Load.v) is characterised by relations for every tag (SpecLoaded), composed of those of C123, C126, C127 and C130; each is an exact equivalence with the function, up to load_template.  
*Theorems:* `C131_bytes`, `C131_tree`, `C131_vars`, `C131_lookups`, `C131_macros`, `C131_template`, `C131_child`, `C131_load`

### C132 Macros do in match variables, groups, inputs and outputs exactly what their returned values say  (proved)

A macro function that a template's macro tag defines is called by name. In a match variable True and False decide whether the match is valid, None keeps the value, a value with a dictionary gives the value and adds the dictionary's fields, and anything else is the new value. In a group, one or more names (also comma separated) run one after the other: False drops the group's results, True (or what equals it) and None keep them, anything else replaces them. In an input True and None keep the text, False keeps the text and stops the input's other functions, a string is the new text. A name that is not defined changes nothing; of several macro tags that define one name the last one counts. Outputs see the macros of their own template; a template without macros uses those left by the template before, or by the template parsed last.

*Model and proof:* the return-value cases as inductive relations over arbitrary macro functions, each proved equivalent to the model's function; for outputs the macros seen are characterized over all lists of templates by induction  
*Theorems:* `C132_match`, `C132_group`, `C132_input`, `C132_inputs`, `C132_outputs`

### C133 Every outcome of every match variable function, failures included  (proved)

For every value of a match and all arguments, each built-in match variable function (exclude, contains, the regular expression checks, join, append, prepend, replaceall, resub, resuball, truncate, unrange, lookup from lookup tags, templates and groups, rlookup, gpvlookup, count, set, let, copy, isdigit, notdigit, greaterthan, lessthan, to_int, to_str, to_list, void, joinmatches) has exactly the outcome that is written down for it: the new value, whether the match is valid, the fields that are added and the variables that are recorded, or the exception that is raised - TypeError, AttributeError, ValueError or IndexError, and only where it is said.

*Model and proof:* SpecOutcome.v gives every function as a relation between arguments and outcomes, with one rule per case; for each function the theorem says that its outcome is r exactly if the relation holds of r, whatever r is - so no case is missing, none is ambiguous and no exception is unaccounted for.  
*Theorems:* `C133_exclude`, `C133_contains`, `C133_join`, `C133_append`, `C133_prepend`, `C133_replaceall`, `C133_resuball`, `C133_resub`, `C133_search`, `C133_truncate`, `C133_unrange`, `C133_lookup`, `C133_rlookup`, `C133_gpvlookup`, `C133_count`, `C133_set`, `C133_let`, `C133_isdigit`, `C133_notdigit`, `C133_greaterthan`, `C133_lessthan`, `C133_to_int`, `C133_plain`, `C133_limits`

### C134 Every outcome of the group functions  (proved)

For every record, whatever its data is, each group function (contains, containsall, contains_val, del, equal, exclude, exclude_val, excludeall, expand, itemize, items2dict, lookup, macro, record, set, sformat, str_to_unicode, to_int, to_ip, void) gives exactly the data, the validity, the path, the variables and the saved results that its documentation describes - or exactly the exception that Python raises, for instance KeyError when items2dict gets the same name twice, AttributeError when a dotted name goes through a value that is no dictionary, TypeError for keyword arguments that are no texts.

*Model and proof:* For each function an inductive relation (SpecGroupOutcome.v) lists its outcomes, exceptions included; the model's function equals r iff the relation holds of r, by induction over the arguments and case analysis of the data.  
*Theorems:* `C134_contains`, `C134_containsall`, `C134_exclude`, `C134_excludeall`, `C134_equal`, `C134_exclude_val`, `C134_contains_val`, `C134_del`, `C134_items2dict`, `C134_set`, `C134_record`, `C134_to_int`, `C134_expand`, `C134_itemize`, `C134_macro`, `C134_sformat`, `C134_to_ip`, `C134_lookup`, `C134_void`, `C134_str_to_unicode`

### C135 Lookups in the results of templates and groups see exactly what was parsed before them  (proved)

When templates are parsed, they are processed in their order and each of the functions lookup(template=...), lookup(group=...) of match variables and groups sees every template by its name: those before with the complete results of their parsing, those after with their still empty results, and its own with the results of its data parsed earlier (per_input: each datum's results join after it is parsed; per_template: nothing until all are). Results are those before outputs: outputs run when all templates are parsed. A match variable lookup(template='a.b') gives the row of the table at that path for the value and the value itself otherwise; groups also see what is being saved for the current datum. A program that does not need such lookups behaves as without them.

*Model and proof:* RunSeen.v extends the complete program with the view of results; induction over templates, data and runs proves the session equal to the relational account of SpecSeen and that it refines the program without lookups  
*Theorems:* `C135_refines`, `C135_session`, `C135_match_template`, `C135_match_group`, `C135_group_template`, `C135_group_group`, `C135_group_own`

### C136 is_ip and cidr_match read addresses, masks and networks as written, and test membership exactly  (proved)

is_ip keeps the match and holds exactly when the text writes an IPv4 or IPv6 address or interface of the version asked for: four decimal numbers up to 255 without leading zeros; eight hexadecimal groups of up to four digits, the last two possibly in IPv4 form, one run of zero groups possibly left out as ::, possibly with a scope; a prefix length after a slash (or a space) as a number, a netmask or an inverted netmask. cidr_match(prefix) - the prefix a template variable or itself - requires a network written with its first address, otherwise the function fails; it holds exactly when the versions are the same and the match's network (an address alone is its own) and the given one have an address in common, and leaves a match that is no address alone.

*Model and proof:* Ip.v models the reading of addresses with what it uses of Python's ipaddress module; SpecIp.v is a grammar and arithmetic on prefixes; the reading is proved to accept exactly the grammar with its value, and the masking to be division by powers of two  
*Theorems:* `C136_is_ip`, `C136_cidr_match`, `C136_one_reading`, `C136_member`

### C137 Any sequence of calls on one parser object  (proved)

On one ttp object add_template, add_vars, add_lookup, add_input, set_input, clear_input, parse(one=True), clear_result and result may be called in any order. The object's templates are those of the texts given, in the order of the calls; each text is read with the variables given before it, and a loaded template is afterwards changed only by add_vars and add_lookup: every variable has the value of the last add_vars with its name since the template was loaded, every lookup table that of the last add_lookup with its name, and tables given before a template was loaded are unknown to it. add_template succeeds exactly if every text its path leads to is a template, and a path to several files is the same as one call for each text. Adding variables and tables changes no results and no inputs, inputs change no results, a new template comes with its own inputs and no results and leaves the others alone. Every parse uses the variables, tables and inputs of the moment, keeps the results of earlier parses, and runs the outputs with the variables and macros of the moment. One add_template, inputs and one parse are the single-run program of C135.

*Model and proof:* Api.v runs lists of calls on an object that holds the loaded templates (Load.v) and the session (Session.v, RunSeen.v). SpecApi.v says which templates a history has (inductively, over loads and template_is of C126, C131) and what later calls tell them; ApiFacts proves by induction over the history that run leads there, that the session's templates go with them (an invariant over all calls), and characterises variables and tables by the last call with their name; parsing is shown equivalent to all_parsed of C135 from any state, with the outputs of the moment; C137_path and C137_one_parse are equations of programs.  
*Theorems:* `C137_history`, `C137_accepted`, `C137_vars`, `C137_template_vars`, `C137_given`, `C137_lookups`, `C137_frame`, `C137_parse`, `C137_path`, `C137_one_parse`

### C138 uptimeparse reads a written time as the sum of its counts, or leaves the text  (proved)

uptimeparse takes a text that writes counts of years, months, weeks, days, hours, minutes and seconds, in that order, each optional, with the words and abbreviations of the unit in small or capital letters, blanks anywhere between, and a comma or slash after a unit other than seconds; if all counts are whole numbers the result is their sum in seconds (so any choice of whole counts, written out with the names of the units and commas, is read back as its sum), or with format dict a dictionary of the counts written, by unit; with a fractional count, another format, a blank text or any other text, the text is left. A value that is no text fails. A text is read in one way unless a digit or dot directly follows an abbreviation of years or months (1 yr12 weeks), which can take that character as its own.

*Model and proof:* Uptime.v builds the regular expression from the parts the code builds it from, for the matcher of Regex.v; SpecUptime.v is a grammar; the expression is proved to match exactly the texts of the grammar with its counts as groups, by induction on the units; that there is one reading by comparing runs of digits and letters  
*Theorems:* `C138_uptimeparse`, `C138_one_way`, `C138_exact`, `C138_written`, `C138_no_text`

### C139 get_input_load gives what the text of each input tag loads  (proved)

get_input_load returns a dictionary from the names of the templates to a dictionary from the names of the inputs of that template to their loads. The load of an input tag is the dictionary that the tag's load attribute (python if not given) loads from the tag's text, and {} for the text loader or when nothing or an empty value is loaded; if the loaded dictionary has a load attribute of its own that loads an included file, that one takes its place. Of two tags of a template with the same name the first one's load stays; of two templates with the same name the last one's. Inputs that only add_input or a group's input attribute has made have {}, and add_input changes no load that is there.

*Model and proof:* InputLoad.v models the parameters attribute next to the input model; SpecInputLoad.v says with relations which loads happen; equivalence by induction on the depth of loads and the list of attributes; of the two merges by induction on the tags and templates; of the calls with the session invariants of C03; InputLoadText.v composes it with the template loader of C131  
*Theorems:* `C139_tag`, `C139_plain`, `C139_template`, `C139_template_when`, `C139_names`, `C139_get`, `C139_inputs`, `C139_calls`, `C139_program`

### C140 add_template's name and filters decide which templates of a text are loaded  (proved)

add_template(text, template_name, filters) names the text's own template by its name attribute or else template_name. Without filters, or when filters have that name, the template is loaded; of its child templates those are loaded that have a name attribute in filters (all without filters), in order, and they take the template's place; if there are none, the template itself is added. When filters do not have that name one template is added that has no groups, inputs, outputs, macros and lookups, and none of the child templates is loaded, whatever their names. With the defaults this is what ttp(template=text) loads.

*Model and proof:* AddTemplate.v models the two filter checks around the template loader; SpecAddTemplate.v says with relations which children are wanted; equivalence with the loader's specification of C131 by case analysis  
*Theorems:* `C140_add`, `C140_default`, `C140_root_not_wanted`, `C140_set`

