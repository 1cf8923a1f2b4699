# A formal model of dill in Rocq (Coq)

Code: `/repo` (uqfoundation/dill, pinned commit), Python, read as text, never run.
Proof assistant: Coq 8.16.1, standard library only. (This file is generated by `tools/design.py`
from `tools/design_head.md`, `tools/design_how.txt`, `tools/design_areas.md` and the claim table;
MANIFEST.json and properties.jsonl are generated by `tools/manifest.py` and `tools/props.py`.)

## Layout and conventions

`rocq/theories/` holds one group of files per area of the code:

* `XModel.v` – executable Gallina functions, one per Python function, each with a comment citing the
  lines modelled and the simplifications made; no proofs.
* `XSpec.v` – the independent specification, when it is more than a few lines; otherwise the
  specification definitions stand just above the theorem that uses them.
* `XProofs.v` (and `CoreSim`, `CoreStep`, `CoreReduce`, `CoreObj`, `CoreProc`, `CoreMain`, `CoreReach`,
  `CoreTerm`, `CoreTotal` for the pickling core) – lemmas.
* `XProps.v`, `XExamples.v` – the property theorems, and beside each an `Example` showing a concrete,
  non-trivial case that meets its hypotheses.
* `PyDict.v` – Python dictionaries as insertion-ordered association lists with unique keys.

A theorem is named after its property (`C17_...`). Where the code violates the property as stated, a
theorem `C.._refuted` gives the witness (or the class of all witnesses), and the strongest true statement
that could be proved carries the suffix `_partial`; the property is then `partial` in MANIFEST.json. A
theorem without suffix inside a partial claim is exact (it says what the code does, in all cases).

Theorems have been tested against wrong programs: `seeded/LOG.jsonl` lists, for each seeded bug, the
definition edited, the claim it breaks, the theorems that failed and the theorems tightened because of it.

## Trusted base

* Coq's kernel (8.16.1) and `coqc`. No kernel check is switched off; no axioms, no `Admitted`, no functors,
  no plugins.
* `Print Assumptions` on every theorem listed in MANIFEST.json says "Closed under the global context":
  `ASSUMPTIONS.txt`, written by `tools/assumptions.py`, has the line for each. (The `library_axioms`
  vcheck reports, `Coq.ssr.ssrunder.Under_rel.*`, are the fields of a module type inside the standard library's
  ssreflect, loaded by `Lia`'s dependencies; no theorem here depends on them.)
* The reading of the Python code. The model is written by hand; each definition cites what it models, and
  the simplifications are stated there and collected below.
* The facts about CPython that the models take over: pickle.py 3.11 (pickler, unpickler, framing, opcodes),
  `open`/`os.open`/`os.fdopen`, `_thread` locks, `type.__new__` and the C3 linearisation,
  `collections.namedtuple`, `warnings` filters, `logging`, `dis`, weak reference reprs. Each is stated
  where it is used.
