
## Findings

Behaviour of the pinned commit that contradicts what a user would expect; each has a witness computed in Coq.

| property | what happens |
|---|---|
| C04 | saving below a list of lists replaces the inner list |
| C10, C12 | dynamic path values are substituted through `re.sub`, so backslashes are interpreted or raise; a second record saved on a key of digits loses the container (`None`), and a superscript digit raises ValueError |
| C11 | `_` in the middle of a path is created as a key |
| C13 | joinmatches of values of different types raises |
| C14, C92 | lines of an enclosing group after a nested group are lost or overwrite, when the group's last item is not the one they belong to |
| C21 | matches on the line after the last `_end_` line, or starting at the same place, survive |
| C31 | with `per_template`, multi-process parsing keeps the result of one datum only |
| C35 | group ids are not unique (`a.b` at top level and `b` inside `a`) |
| C36 | an output name that does not exist, next to one that does, shifts the removal and stays in |
| C39 | the test for `_exact_` is a substring test, which `_exact_space_` meets: digits become literal too |
| C57 | the csv formatter does not double quotes inside values |
| C65 | a rejected start does not mute groups nested two levels deeper |
| C71, C72 | append/prepend do not look up global variables; replaceall with a string variable replaces nothing |
| C81 | an output that turns the results list into something else makes the next parse() raise |
| C82 | result() hands out the parser's own list |
| C84 | results="Per_Template" gives no results at all |
| C85 | groups of an input are kept in a set; `list({1, 8})` is `[8, 1]` in CPython, so the order can change |
| C86 | an exception in a worker hangs parse() forever |
| C87 | add_function() in the parent removes the built-in functions of that scope in workers |
| C88 | the tag after an extend that brings only text is skipped |
| C94, C96 | dict_to_list loses a value stored under the key name; is_equal ignores part of the structure or raises |
| C98 | a damaged cache file makes the import of ttp fail |
| C99 | the first cache written lacks its version and is never used |
| C101 | the first call of another function of the same file overwrites a function set by add_function |
| C102 | functions of a module see the variables of the parser whose first call of that module came last |
