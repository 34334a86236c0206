[["1-4","Results.v save_curelements and dynamic_path_ on value trees; results are read through addresses (SpecTree.v); induction on the path, then on the history of saves."],
["5-8,15-16,65,91-92","Results.v make_results as a fold over match events; invariants of the state (current record, started groups, ended groups) and refinement to a left-to-right reading of the events (SpecRecords.v, SpecOpen.v, SpecChoice.v); group functions are arbitrary."],
["9-12","form_path over the regular expression engine of Regex.v, shown equal to the description of SpecPath.v, then induction on the path."],
["13-14","joins and tail merges of Results.v, described by reads of the results before and after (SpecMerge.v)."],
["17-22,73,103-106","Parser.v with arbitrary compiled expressions and arbitrary function chains; invariants over the folds of matches, regexes and groups; windows of text as slices."],
["23-28,37,81,83-85,108","Session.v: the ttp object as a record, calls as state transformers; induction over histories of calls, the parsing function arbitrary."],
["82","SessionHeap.v: results lists as mutable objects in a heap; what an address shows after each call."],
["29-32,86-87,111","Workers.v: labelled transition system; invariants (permutation of jobs, accounting of workers), a termination measure over all executions, and the exact set of reachable orders (SpecWorkers.v)."],
["33-36,40,88","Template.v: structural functions over trees of tags; induction on the tree."],
["38-39,89-90,109-110","FormRegex.v generates the text of an expression, reads it back as an expression of Regex.v; the matcher is proved sound and complete for the relational semantics of SpecRegex.v, and the expression of a line to match exactly the lines SpecLine.v describes."],
["41-50,66-72,107","MatchFuncs.v, one function per file of ttp/match; specification in SpecMatch.v; mostly induction on strings or lists."],
["51-55,74-80","GroupFuncs.v, one function per file of ttp/group, run inside the machine of Results.v; SpecGroup.v."],
["56,58-61,93-96","Outputs.v; SpecOutput.v; induction on the path and on nested values."],
["57,62,97","Loaders.v (csv reader automaton, splitlines) and the csv formatter; SpecCsv.v; the automaton is run symbolically over a printed table."],
["63,98-102","Cache.v: the package's files, the pickle (an arbitrary partial decoding) and the table of functions as states; invariants over histories of calls; whose dictionary a module sees as an explicit heap."],
["64","Leaves of values (SpecLeaves.v); an invariant of the whole results state."],
["112-113","Xml.v (writer and reader of the fragment of XML that expat and ElementTree accept here), Load.v; induction on trees: what is written is read back (XmlFacts.v, LoadFacts.v)."],
["114","Run.v, the whole program, on templates built by SpecProgram.v: the line's regular expression is read by the parser of regular expressions and its matches are characterized (PlainLine.v, FindLines.v), then the matches on the text (LineRun.v), the records (PlainRun.v, PlainResult.v) and the session (PlainTop.v)."],
["115","Run.v, the whole program; the functions of FuncTable.v that leave the shared variables alone (IsolationFuncs.v), invariance through the parser and the results machine (QuietFacts.v), then the session (Isolation.v)."],
["116","FuncTable.v, every entry of the table of match functions inspected with its argument binding (FilterFacts.v), then induction over the chain."],
["117","Results.v (save_vars, make_results), Load.v (parse_vars); insertion sort gives the unique ascending permutation, then induction over the paths and over the tags (VarsFacts.v)."],
["118","Template.v (attributes), Compile.v (func_attributes, compile_group); closed form of the fold over the attributes (GroupAttrs.v)."],
["119","Compile.v against Template.v: simulation of extract_functions with chains by the names, then of lines, lists and group trees (GroupRefine.v); CompileFacts.v for the expressions."],
["120","Attributes.v against a grammar (SpecAttr.v): tokens (LexFacts.v, LexFacts2.v), values and arguments by mutual induction on the fuel and on the derivations (GrammarFacts.v, GrammarFacts2.v), the printed form is in the grammar (ReprFacts.v)."],
["121","MatchVar.v (extract_functions with chains, get by name, defaults) against inductive rules (SpecVariable.v): a chain of different variables is no longer than their number, so the fuel is enough (VariableFacts2.v); VariableFacts.v for each function, VariableFacts3.v for names, endless chains and the expression."],
["122","SpecHeaders.v has widths, cells, required columns and column variables; HeadersFacts*.v show what the produced expression text compiles to, and that matching it at a line is cutting it, so finditer over any text is a flat_map over its lines."],
["123", "SpecMade.v gives the rules (used lines, line_gives, lists_made, default_of, default_only, group_from); MadeFacts*.v show each step of the loader equal to them and close the lists of expressions and the dictionary of defaults into filters and a last-one-wins lookup, by induction on lines, tails and trees."],
["124", "read_def parses the verbatim def lines; binds states Python's calling rules; match_does/group_does say per function which named argument goes where; the table of FuncTable is proved equal to them by iff"],
["125", "inductive relations for letters, words, cutting, stripping, formats, wildcards, and the existing declarative regex relation for occurrence and replacement; each executable function is proved equivalent"],
["126", "Files.load_files, json_loads, load_python and load_struct are proved equivalent to the inductive descriptions of SpecFiles (loads, json_text, python_gives, struct_gives): soundness by induction on fuel, completeness by mutual induction on the grammar. What JSON has and the model has not (floats, Infinity, code points) is listed by extended; outside of it a text without a value is a ValueError."],
["127", "SpecInputs gives the effect of each attribute as an inductive relation, mutually with the attributes the text loads; InputFacts proves read_attrs, tag_input, put_input and template_inputs equivalent to it (both directions)."],
["128", "SpecHost says what lines have which prompt form and which host is preferred; HostFacts proves gethostname (finditer over the seven expressions) equal to it both ways; CommandFacts proves the same for the expression that extract_commands formats from host and command."],
["129", "JsonDump models json.dumps with the arguments the formatter gives; SpecJson says which texts print a value; JsonDumpFacts proves them equal, that the texts are in C126's JSON grammar and denote the value, by induction on values."],
["130", "OutputTags.v models __init__, extract_load, get_attributes and run; SpecOutputTags.v states what attributes, functions, formatters and returners mean as inductive relations on the specifications of C56-C61, C93-C96 and C126-C129; the theorems are equivalences (Ok results of the model <-> the relation), by induction over attributes, functions, returners and values."],
["131", "The loader model (Load.v) is characterised by relations for every tag (SpecLoaded), composed of those of C123, C126, C127 and C130; each is an exact equivalence with the function, up to load_template."],
["132", "the return-value cases as inductive relations over arbitrary macro functions, each proved equivalent to the model's function; for outputs the macros seen are characterized over all lists of templates by induction"],
["133", "SpecOutcome.v gives every function as a relation between arguments and outcomes, with one rule per case; for each function the theorem says that its outcome is r exactly if the relation holds of r, whatever r is - so no case is missing, none is ambiguous and no exception is unaccounted for."],
["134", "For each function an inductive relation (SpecGroupOutcome.v) lists its outcomes, exceptions included; the model's function equals r iff the relation holds of r, by induction over the arguments and case analysis of the data."],
["135", "RunSeen.v extends the complete program with the view of results; induction over templates, data and runs proves the session equal to the relational account of SpecSeen and that it refines the program without lookups"],
["136", "Ip.v models the reading of addresses with what it uses of Python's ipaddress module; SpecIp.v is a grammar and arithmetic on prefixes; the reading is proved to accept exactly the grammar with its value, and the masking to be division by powers of two"],
["137", "Api.v runs lists of calls on an object that holds the loaded templates (Load.v) and the session (Session.v, RunSeen.v). SpecApi.v says which templates a history has (inductively, over loads and template_is of C126, C131) and what later calls tell them; ApiFacts proves by induction over the history that run leads there, that the session's templates go with them (an invariant over all calls), and characterises variables and tables by the last call with their name; parsing is shown equivalent to all_parsed of C135 from any state, with the outputs of the moment; C137_path and C137_one_parse are equations of programs."],
["138", "Uptime.v builds the regular expression from the parts the code builds it from, for the matcher of Regex.v; SpecUptime.v is a grammar; the expression is proved to match exactly the texts of the grammar with its counts as groups, by induction on the units; that there is one reading by comparing runs of digits and letters"],
["139", "InputLoad.v models the parameters attribute next to the input model; SpecInputLoad.v says with relations which loads happen; equivalence by induction on the depth of loads and the list of attributes; of the two merges by induction on the tags and templates; of the calls with the session invariants of C03; InputLoadText.v composes it with the template loader of C131"],
["140", "AddTemplate.v models the two filter checks around the template loader; SpecAddTemplate.v says with relations which children are wanted; equivalence with the loader's specification of C131 by case analysis"]]
