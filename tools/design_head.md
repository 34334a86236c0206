# A Rocq model of dmulyalin/ttp

`/verif/rocq/theories` holds a model of the Python package in `/repo/ttp`, written function by function, and
theorems about it.  Statements of the properties are in `properties.jsonl`, the theorems proved for each in
`MANIFEST.json`, and both are put side by side at the end of this file (`tools/design.py` writes that part).

## How the model is written

* Python values are the inductive type `val` (PyBase.v): None, booleans, integers, strings (lists of `ascii`),
  lists and dictionaries.  Dictionaries are association lists in insertion order; keys are strings, integers or None.
* Exceptions are values: a function that can raise returns `res A` (`Ok a` or `Raise e`), and `do x <- e; k`
  is sequencing.  A theorem that says `= Ok ...` says that nothing is raised.
* Functions that mutate an object return the new value.  Where *aliasing* is what a property is about (C82, C102:
  what an object handed out shows later), a heap is modelled explicitly (SessionHeap.v, Cache.v).
* Loops are `Fixpoint`s over the list walked, or a bounded iteration whose bound is proved large enough
  (`free_key`, the regex matcher's star).
* Concurrency (C29-C32, C86, C87) is a transition system: parent, queue, any number of workers, results; a theorem
  about it quantifies over every execution (`steps`), i.e. every schedule.
* What a user can put in is universally quantified: group functions, match functions of a custom kind, compiled
  regular expressions (in Parser.v), output functions, file contents, file sizes.
* Every definition of a model file cites the lines of /repo it stands for, and says where it simplifies.
* `Spec*.v` are small specifications that do not refer to the code's helpers; `*Facts.v`, `*Exact.v`, ... are proofs;
  `Properties_*.v` contain only property theorems, an example for each (hypotheses met, result computed), and
  `Print Assumptions`.

Theorem names: `C12_...` belongs to property C12.  `_partial`: only part of the property; `_refuted`: the property
as stated is false of the code, the theorem is a proof of its negation by a concrete run (status "partial").
`_limits`: the property is an exact characterization, proved; the theorem shows that the more generous claim one
might expect is false.

## Trusted base

* Coq 8.16.1: its kernel, including the `vm_compute` machine used by examples and by the witnesses of `_refuted` /
  `_limits` theorems.
* `Print Assumptions` of every property theorem answers "Closed under the global context": no axiom is used, neither
  of the standard library nor of this development.  (Only the standard library is imported; loading `ssreflect`-free
  standard library files makes checkers list `Coq.ssr.ssrunder` parameters as present in the environment; no theorem
  depends on them.)
* That the model says what the code says: the reading of /repo, cited line by line.
* The model of the host: PyBase.v (str, int, list, dict methods), Regex.v (backtracking `re`), Loaders.v (csv.reader,
  splitlines), Workers.v (multiprocessing queues), Cache.v (pickle as an arbitrary partial decoding).

## What is modelled

MODELTABLE

## What is not modelled

* `re` is modelled for the constructs ttp generates (Regex.v, FormRegex.v: literals, escapes, classes, `.`, groups,
  alternation, `* + ?`, bounded repetition, look-ahead/behind used by ttp); user-written patterns outside it, flags and
  Unicode classes are not.  Parser.v does not depend on it (a compiled expression is an arbitrary finder).
* Text is 8-bit characters; Unicode case mapping and Unicode digits are not modelled.
* XML is modelled for what templates use (Xml.v: tags, attributes, text, comments, CDATA, the predefined entities and
  character references); processing instructions, document types, namespaces are not.
* Third-party optional functions and formatters: deepdiff, jinja2, excel, tabulate, ttp_templates, cerberus, netmiko, `dns`,
  `rdns`, `geoip_lookup`; `to_ip`, `to_net` and `ip_info` (they leave objects or texts made from them; `is_ip` and
  `cidr_match` are modelled with the parts of `ipaddress` they use, Ip.v); `to_float`; what a macro's Python
  code means (macros are arbitrary functions of their argument); the yaml, ini, json and python loaders (csv and text are
  modelled, and the world gives what the others return where the complete program asks for it); syslog; the command line
  tool.
* Logging, timing and memory.
