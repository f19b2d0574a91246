# Formal model of rez-next: design

Source: `/repo` (Rust), read as text, never built or run.  Prover: Coq 8.16.1
(`rocq/`, logical root `Verif`).

## Layout

Every area `X` of the code has up to four files in `rocq/theories`:

| file            | content |
|-----------------|---------|
| `X_model.v`     | Gallina transcription of the Rust functions; every definition cites the file and lines it models; no proofs |
| `X_spec.v`      | small specification, written without the model's helpers |
| `X_proofs.v`    | lemmas and proofs |
| `P_X.v`         | only the property theorems (`exact lemma`), the examples that meet their hypotheses, and `Print Assumptions` |

## Modelling conventions

* Text is `text := list ascii` (bytes). Rust strings are UTF-8; the model is exact on
  ASCII text. Unicode-only behaviour (Unicode white space in `trim`, Unicode
  `is_alphabetic`, char boundaries) is outside the model unless stated.
* `usize`/lengths are `nat`; `u64`/`i64` values are `N`/`Z` with explicit range checks
  where the code parses or could overflow.
* A panic is an explicit result (`Panic`), an `Err` is an explicit result (`None` or a
  constructor).
* `HashMap`/`HashSet` iteration order is an explicit argument (any permutation);
  theorems hold for all orders or exhibit two orders that disagree.
* `sort_by` is modelled as a stable insertion sort (Rust's `sort_by` is stable).
* Clock readings, file-system contents and schedules are explicit inputs.
* A loop without an obvious bound runs on fuel and returns an explicit out-of-fuel
  value.

A property that is false of the code is kept in `properties.jsonl` at full strength:
the development then proves `..._refuted` (a concrete witness) and, when there is one, a
positive `..._partial` theorem under an explicit extra hypothesis. Its status is `partial`.

## Plan by property

| id | modelled | how |
|----|----------|-----|
| C01, C02, C03 | `Version` compare/eq/hash | algebra of a lexicographic order; witnesses for the failing laws |
| C04, C05, C06 | `Version::parse`, state-machine tokenizer | equivalence with an inductive grammar |
| C07–C13 | `VersionRange` parse, contains, intersect, union, subtract, subset, serde | refinement to sets of versions; witnesses |
| C14–C17 | requirement constraints, parser, display | structural induction; round trip |
| C18, C19 | package orderers | permutation + sortedness |
| C20–C24 | dependency resolver and its state | invariant over every step of the search; a lexicographic measure (packages not yet rejected, weighted state of every family, queue length) for termination; witnesses |
| C25–C27 | dependency graph | invariants over edit histories, graph theory |
| C28–C30 | rex actions, expansion, script quoting | fold semantics; quoting round trips |
| C31–C33 | environment manager, context validation | map algebra |
| C34, C35 | package filters | iff + round trip |
| C36, C37 | base-26 names and symlinks | order isomorphism with positive naturals |
| C38, C39 | suites | invariant over edit histories |
| C40–C42 | payload cache | crash/interleaving semantics of its file operations |
| C43, C44 | two-level cache | refinement to a map, invariant |
| C45, C46 | repository cache | lock semantics with arbitrary schedules; invariant |
| C47, C48, C101, C102 | repository manager, simple repository | refinement |
| C49, C50 | emptiness, universality, compatible release | set semantics; witnesses |
| C51–C53 | conversion of requests, platform and environment conditions | structural induction; witnesses |
| C54, C55 | orderer configuration, orderer lists | JSON round trip; first match |
| C56–C61 | what the resolver returns: origin, cycles, pruning, strictness, best version, constraints | invariants over the search; witnesses |
| C62–C66 | accessibility, depth, conflicts, keys of the graph | transitive closure, longest chain |
| C67–C73 | payload cache: lookup, removal, listing, space, interruption, cleaning | step semantics with stops and interleavings |
| C74–C77 | glob, range and digest of filters | independent matcher; witnesses |
| C78–C80 | rex expansion, parsing, scripts | readers of the generated text as the specification |
| C81–C89 | environment generation, contexts, fingerprints, files | fold semantics, sortedness, round trips |
| C90–C94, C112 | saving, loading, priority and editing of suites | round trip with the YAML library as a parameter; crash points |
| C95–C98 | two-level cache in detail and under concurrent use | refinement, schedules |
| C99, C100 | repository cache statistics and restart | invariant, round trip |
| C103–C106 | resolved contexts | denotation of export lines |
| C107–C111 | searcher, reverse dependencies, depends, plugins | breadth-first layers, completeness; witnesses |
| C113–C116 | copying, moving and removing packages on disk | tree semantics, any failing calls |
| C117–C122 | the A* search for a resolution | invariants over any heuristic, hash and clock; no lost solution; least cost |
| C123–C129 | the cache of package definitions | invariants over histories with failing writes and restarts; schedules |
| C130–C135 | package.py files | agreement with a small Python semantics by induction on syntax trees; command text against the Rex parser |
| C136–C145 | writing packages to files and reading them | a reader of Python literals and round trips through libraries given by hypotheses |
| C146 | wildcards in requirements | the text cut at its first star; callbacks that know names |
| C147–C155 | settings: trees merged in layers, variables, files of the commands | paths through tables, which tree settles a path, exact characterisation of settings after merges and overrides |
| C156–C162 | comparing contexts and packages | exact entries for any order of maps; witnesses |
| C163–C169 | the search command, times and paths of the command line | spec of matching, sorted prefix of all matches, best of each name by a fold invariant |
| C170–C171 | resolving and collecting conflicts | fold invariant; histories of calls |
| C172–C179 | the release manager: refused repositories, dry runs, what is touched, success, failure, install path | one account of the state after every step; refutations |
| C180–C184 | the release command: success, failure, checks, existing tags, selected variants | exact characterisation of success; inverse for failure |
| C185–C199 | pip packages: names, requirements, the pip command, files it writes | accepted releases as sets of number lists; exact output of the readers; package.py loaded back; disk before and after |
| C200–C209 | the repository on disk: ignoring, removing, cleaning, names, listing | disk before and after at every path; listed versions defined from the disk; failures and what they leave as parameters |
| C210–C219 | bundles: manifests, arguments, names, copies, activation script | disk before and after at every path; lists of texts that show; the reader of bash from C30; failures and what they leave as parameters |
| C220–C235 | building packages | steps as any function of a world, interleavings as lists of turns; disk before and after at every path; the reader of bash from C30; expansion of all places at once |
| C236–C247 | tests, commands and completion | patterns by an inductive relation; commands as any function of a world; words and quotes of a shell; layers of variables; lines by their words |
| C248–C260 | programs of the system as packages | numbers and lines by their shape; files by an inductive reading and by loading; disks as trees with frames |
| C261–C275 | repositories that are scanned | disks as functions, reachable directories inductively, caches faithful to a record of all times, sorting and stability |
| C276–C285 | updating the program | trees with frames, two runs compared, witnesses with a whole release |
| C286–C292 | helpers for texts and times | induction on texts, arithmetic with bounds |
| C293–C300 | results of a resolution and collections beside the solver | histories of uses, refinement to a reference by name |
| C301–C306 | package data as Python code and YAML | reading back by a small reader of Python, induction on values |
| C307–C312 | packages by URI, handle and repository | lemmas on the parts of paths, first success of a list of searches |
| C313–C318 | suite commands | each command is one step, simulation of the files by a suite in memory, sorting by distinct names |
| C319–C322 | release hooks | latest registration by induction from the end, extensions of paths |

## Trusted base

* Coq's kernel (8.16.1) and its `vm_compute` reduction machine. No axiom is declared, no
  kernel check is switched off, nothing is admitted.
* `Print Assumptions` stands beside every property theorem in the `P_*.v` files and
  prints `Closed under the global context` for each of them: no theorem depends on an
  axiom, of the standard library or otherwise. `coqchk` lists the axioms of the loaded
  standard library files (`ssrunder`), on which no theorem depends.
* The reading of `/repo` recorded in the comments of the `*_model.v` files. Nothing
  links the Gallina text to the Rust text but these comments.

## What is modelled, and what is not

In all areas: text is ASCII; arithmetic does not overflow unless a file says otherwise;
log output, error texts, timing and memory use are left out; Rust's `sort_by` is a stable
insertion sort (on comparison functions that are not total orders Rust may also panic
or return another permutation; theorems about such comparisons say so); libraries are
correct only as far as a hypothesis says.

| area (files) | modelled | left out |
|----|----|----|
| Version | tokens, separators, order, equality, hash, both parsers | Python bindings, Unicode classes |
| Range | bounds, parser, contains, algebra, serde text | regex of the parser is a scanner |
| Requirement | constraints, parser, display, platform and environment conditions, conversion | solver-side caching |
| Order | all orderers, lists, plain-data form | the YAML front end |
| Solver | resolver, its state, backtracking, pruning, cycle check, request constraints | statistics, error texts, the package cache in front of the repositories |
| A* search | states, successors, conflict check, closed set, limits, the three heuristics that say they are admissible, listing of the result; heap order, hash and clock are arbitrary functions | rounding of costs, statistics, the composite and adaptive heuristics, repositories that change during a search |
| Graph | nodes, edges, conflicts, accessibility, depth, topological order | metadata, rendering |
| Base26, Payload | names, unique links; the payload cache as file-system steps with stops and interleavings | I/O errors, the background daemon |
| Filter | both filter crates, rules, digest text | regex and glob libraries (parameters), SHA-1 (a parameter) |
| Rex, Env, Rctx | actions, parser, expansion, scripts for each shell, environment generation, contexts and their files | running shells; JSON library (parameter or plain data) |
| Suite | suites, contexts, tools, saving and loading, search path | YAML library (a pair of parameters with a stated round-trip hypothesis, met by `Codec.v`), I/O errors |
| Cache, Rcache, Locks | both caches, statistics, eviction as an arbitrary ranking, tokio locks with any schedule | floating-point priorities, tuning, preheating |
| Repo, Search | simple repository, manager, searcher, package search, depends | descriptors are loaded by a fixed outcome; scanner crate |
| Defs | the package-definition cache in memory and in files, with failing and interrupted writes, restarts and threads | JSON library (a pair of parameters), the hash of paths (a parameter), changes of a file during one lookup |
| Pyfile | the package.py loader after the Python parser: expressions, fields, command functions, validation | the Python parser (rustpython), floating point numbers, imports, fields no rule knows |
| Pkgfile | all writers and readers of packages: package.py (three writers), JSON, YAML, TOML, binary, XML, gzip; options, formats of names | the printers and parsers of JSON, YAML, TOML, gzip, bincode and Python (parameters with round-trip hypotheses, met by `sample`), I/O errors, floating point numbers |
| Expand | expansion of wildcards in requirements | the random placeholders (a parameter), other users of the module |
| Config | both readers of settings: layers, merging, variables, search places, fields | TOML, YAML and JSON (parameters), floating point values, Windows, two names of one file, plain YAML scalars in fields of text, the plain text output of `rez config` |
| Diff | comparison of contexts (Python API) and `rez diff`: reading the packages, the previous version, the changes | printing, JSON; the fields of a package besides name, version, requirements, variants, tools are functions of one opaque value |
| Query | `rez search` from options to shown results; relative times, lists of paths, home directory | regular expressions and chrono (parameters), lower case outside ASCII, printing, failing repositories |
| Clash | conflict resolver and collection of conflicts | severity (never read), the cache of the resolver (never filled) |
| Release | release manager, version control systems, release command | git, hg, svn, python, SHA-256, the reader of package files, the build itself and refusals of the system (parameters); tests change no files; names hold no wildcard of git tag -l |
| Shelf | the filesystem package repository: listing, ignoring, removing, cleaning | links are not followed; calls that read succeed, except for the age of a marker; package files and variants are not read; the clock is the age of each marker; what fails and what a failed removal leaves are parameters |
| Bundle | the Python functions for bundles and `rez bundle` after the arguments: names, copies, files, the script for bash | resolver, JSON, clock, requirement parser, home directory (parameters); links are not followed; a source is read before it is written over; a directory copied into itself does not end; scripts for PowerShell and cmd are texts only; Unix |
| Build | steps, events, cancelling, manager, environment, script, detection of build systems, tests, copying, placeholders, source addresses, variants of `rez build`, artifacts | what a step does, outcomes of commands, hash of a variant, requirement parser, checksum (parameters); times and display; what archive and pypi systems install; fetching sources; links are not followed; Unix |
| Try | choosing and running tests, exit code, summary, finding the package, its test environment, commands in a context, shells, completion of lines, `which` | regular expressions other than letters, dots and stars, what a command does, resolver, requirement parser, loading a package, files (parameters); printing and times; a child that is no longer awaited goes on (tokio's default); Unix |
| Bind | detecting programs and their versions, `rez bind`, its files and quick start, the bind library, built-in binders, list and search | what a program prints (a function of its arguments), `regex` except the two patterns used, Python text except the forms that are written, links, other systems than Linux, printing |
| Scan | the repository that reads directories: initialising, finding, versions, variants, statistics; the scanner with patterns, depth and cache; the fast scanner and its cache | loading of package files (a function), changes of the disk during a scan, concurrency except waiting for permits, times, clean-up in the background, patterns with other special characters |
| Update | replacing the program by a released one: version, target, download, sums, extraction, finding and replacing, the temporary directory | Windows, permissions, links, SHA-256, tar and the network (functions), other failures of the operating system, text that is printed |
| Util | helpers for names, identifiers, shortening, indenting, lists, durations and differences of times | characters beyond ASCII, dates |
| Outcome | results of a resolution: lookup, patterns, summary, check, environment and bash script; lists of requirements, cache of variants, reductions | rate of hits, other shells, patterns with other signs of regular expressions |
| Attr | package data as Python code (texts, values, lists, order of keys) and as block of YAML | numbers with fractions, files, other formats |
| Uri | packages by URI, by handle and from a repository, families of a repository | loading of files, how the repositories are searched, variants by URI (always an error), Windows paths and dots in paths |
| Scmd | suite commands: create, add and remove a context, alias and hide a tool, tools | failures of the file system, listing and printing of suites, padding of rows |
| Hook | registry of release hooks, built-in hooks and their configuration | JSON and TOML (parameters), what hooks log, the locks |
| Pip | Python API for pip packages, pip command | pip, the order of directories, the reader of Python (parameters, with the fixed commands function as a hypothesis); temporary directories are empty at first; copies of empty directories are left out |
| Files | copy, move, remove and their commands, with any failing calls | permissions, links on the way to a package, Windows |

Functions of `/repo` without a model are outside all claims. Hypotheses that stand for
libraries (JSON, YAML, regex, glob) are arguments of the theorems; the examples beside the
theorems meet them.
