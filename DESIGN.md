# Formal model of cgwavefront_obj in Rocq (Coq 8.16.1)

The source in `/repo` is modelled function by function in Gallina. Properties of its public functions are stated
against separate specifications and proved for all inputs. Nothing was run: the model was written from the source
text. Build: `cd rocq && coq_makefile -f _CoqProject -o Makefile && make -j4` (a few minutes).

## Trusted base

1. Coq's kernel (and `vm_compute`, used in examples and witnesses).
2. Axioms, all from Coq's standard library, as listed by the `Print Assumptions` after each theorem:
   * `ClassicalDedekindReals.sig_not_dec`, `ClassicalDedekindReals.sig_forall_dec` (the real numbers),
   * `FunctionalExtensionality.functional_extensionality_dep`,
   * `Classical_Prop.classic`.

   They come in through Coq's reals and Flocq, and only the theorems about rounding and those that write numbers use
   them (also the comparison of colours as real numbers, and what rests on C47): `C11_nearest`, `C11_nearest_unique`, `C11_every_f64`, `C33_writer`, `C33_readable_iff`,
   `C33_readable_bytes_iff`, `C35_read_back`, `C35_parsed_read_back`, `C29_writer`, `C29_writer_complete`, `C47_only`,
   `C47_all`, `C47_again`, `C49_obj`, `C52_color`, `C52_transitive`, `C52_total`, `C52_parsed`, `C53_object`, `C63_vertex`, `C63_texture_vertex`, `C63_normal_vertex`, `C63_fewest_digits`, `C75_obj`, `C75_mtl`, `C75_object_set`, `C75_material_set`, `C75_number`, `C75_number_read`, `C76_obj`, `C76_mtl`, `C77_library`, `C77_use`, `C79_object`, `C79_object_set`, `C79_parsed`, `C79_alike` (all four axioms); `C11_long_exponent_refuted`, `C71_area`, `C72_tiles`, `C72_weakly_convex`, `C72_polygon_is_hull`, `C72_concave_refuted` (`sig_forall_dec` and functional
   extensionality). Every other theorem of the `Prop*.v` files is closed under the global context. There are no axioms
   of our own.
3. The model says what the source says. Every definition of the model files cites the lines it models. Evidence
   beyond reading: the crate's own unit and integration tests, translated statement by statement, hold of the model
   (`ConformLexer.v`, `ConformObj.v`, `ConformTeapot.v`, `ConformMtl.v`), and so do the examples of the documentation.
4. The functions of the Rust standard library that the crate calls behave as documented: `str::parse::<isize>`,
   `::<usize>`, `::<f64>`, `str::split`, integer and `f64` `Display`, `Vec`, `Option` (`RustStd.v`, `RustFmt.v`).
   `str::parse::<f64>` is modelled by exact rational arithmetic and rounding, not by the algorithm of `core`; the
   saturation of its exponent at 65536 is modelled. `Display` of `f64` is modelled as the shortest decimal number that
   reads back, the nearest one of these, without exponent. `Debug` of `f64`, `str`, `Vec`, `Option`, `Result` and what
   `derive(Debug)` writes are in `RustDebug.v` (for `{:#?}` in `PrettyModel.v`); what depends on the version of the standard library (which characters
   beyond ASCII are escaped, which numbers have an exponent) is a parameter there, and theorems hold for any choice.

## What is modelled

| Source | Model | How |
|---|---|---|
| `src/lexer.rs` 1-199 | `Lexer.v` | byte-level state machine; `PeekableLexer` with its cache; all of its methods |
| `src/obj.rs` 111-690 | `ObjTypes.v`, `ObjModel.v`, `DisplayModel.v` | data types, `has_same_type_as`, `get_vtn_triple`, `Group::default`, errors, all `Display` implementations |
| `src/obj.rs` 663-1700 | `ParserBase.v`, `ObjModel.v` | every method of `Parser`, `parse` |
| `src/mtl.rs` 70-792 | `MtlTypes.v`, `MtlModel.v`, `DisplayModel.v` | data types, `Material::new`, every method of `Parser`, `parse`, `Display` of the error |
| derived `PartialEq` of both files | `EqModel.v` | field by field; `f64` by IEEE comparison |
| derived `Debug` of both files (`{:?}`, `{:#?}`) | `DebugModel.v`, `PrettyModel.v` | over `RustDebug.v`; not for `Shape`, which nothing uses |
| derived `PartialOrd`/`Ord` of `Color`, `IlluminationModel`; derived `Default` | `OrdModel.v` | see C52 |
| derived `Hash` of `mtl::ErrorKind` | `HashModel.v` | see C80 |
| `obj.rs`, `mtl.rs` and `lexer.rs` with words of another size | `NarrowModel.v`, `NarrowMtlModel.v`, `NarrowLexerModel.v` | see C81 |

Conventions:

* Bytes are `ascii`, strings and slices are lists of bytes.
* A parser method is a function from the parser state to an outcome `Ok | Err | Panic | Diverge` and a new state. `?`
  is `bind`. `Panic` covers slice indexing, arithmetic overflow (debug build) and `debug_assert!`.
* Loops take fuel, and `Diverge` is what they return when it runs out. `parse` gives one round per byte of input plus a
  constant; C01 and C02 prove that this always suffices, so fuel does not limit anything.
* The build mode is the parameter `dbg` (overflow checks and debug assertions on).
* `usize` counters bounded by the input length are `nat`; `UsizeModel.v` has them as 64-bit words, and C73
  proves that this is the same for every input of at most `isize::MAX` bytes. The only arithmetic on numbers from
  the input (`calculate_index`) has wrap-around or overflow as in Rust in both. `usize` has 64 bits, except in `NarrowModel.v` (any number of
  bits; C81 compares).
* The parser is written for any token source; the crate's parser is the instance at the peekable lexer.

Not modelled: derived `Clone`, `Copy` (values of the model are copied anyway); `impl Error` (empty); failing of a `fmt::Formatter`;
allocation (running out of memory); `AsRef<str>` conversions; benches and `examples/teapot.rs` (no library code). No
part of the parsers is left out or simplified otherwise than said above.

## Layers

1. Model: `Lexer`, `ParserBase`, `RustStd`, `RustFmt`, `ObjTypes`, `ObjModel`, `MtlTypes`, `MtlModel`, `DisplayModel`,
   `EqModel`, `OrdModel`, `HashModel`, `UsizeModel`, `NarrowModel`, `NarrowMtlModel`, `NarrowLexerModel`, `RustDebug`, `DebugModel`, `PrettyModel`.
2. Specifications, which do not mention the parser model: `TokenSpec` (tokens, UTF-8), `NumberSpec`, `FloatSpec`
   (numbers as text and as reals), `ObjSpec`, `ObjErrorSpec`, `ObjView` (what an OBJ text says, where it is wrong,
   how to look at the result), `MtlSpec`, `ObjWriteSpec`, `MtlWriteSpec`, `LineSpec`, `ObjImageSpec` (writers, possible
   results), `IndexSpec`, `DisplaySpec`, `DisplayTextSpec`, `EqSpec`, `OrdSpec`, `GrammarSpec` (GRAMMAR.md),
   `RewriteSpec`, `MtlRewriteSpec` (texts with the same meaning), `PlaceSpec`, `MtlLineSpec` (places and lines),
   `SizeSpec` (sizes), `CountSpec` (the counting lexer; the one that mentions the lexer model),
   `BlankSpec`, `DocMtlSpec`, `DocObjSpec` (the statements of docs/mtl_spec.md and docs/obj_spec.pdf and what they mean),
   `SurfaceSpec`, `AreaSpec`, `TileSpec` (edges, areas and points of polygons), `NameSpec` (where names stand), `DebugSpec` (string literals), `PrettySpec` (texts of several lines), `NarrowSpec` (how results on two platforms compare).
   They share with the model the data types of the results and, for what a word means as a number, `RustStd`'s
   `parse_*` functions, which C11 and C38 prove equal to the independent `NumberSpec`/`FloatSpec`.
3. Proofs: everything else.
4. Properties: `Prop*.v` contain the theorems (`exact` of a lemma), `Print Assumptions`, and examples that meet the
   hypotheses.

How the big steps go: the lexer is proved to compute the declared tokens (`LexerProofs`); a relational argument through
every parser function (`RelProofs`) turns the parser over the lexer into the parser over the token list, more fuel into
the same result, and the debug build into the release build up to overflow panics; each parser function over a token list is characterized
by a relation of `ObjSpec`/`ObjErrorSpec`/`MtlSpec`: success with which value and rest, or error with which line, kind
and message, or panic (`RunProofs`, `ObjAccept`, `ObjElements`, `ObjBody`, `ObjState`, `ObjFile`, `MtlRun`). `ObjTop` and
`MtlTop` put this together for whole texts. The properties are then consequences about readings of texts.

## Properties

"refuted" means that the natural expectation is false of the code: a theorem `..._refuted` gives a witness, and the
true part is a theorem of its own.

* **C01, C02** termination, `mtl` never panics (`PropTotal`). The fuelled model never returns `Diverge`, for any input
  and both build modes; each loop round consumes a token (`ConsumeProofs`, `TotalProofs`).
* **C03** exact condition for a release-build panic; "never panics" refuted. From the run characterization: a panic
  happens only in `parse_geometries`, for an object that has neither element nor `usemtl`.
* **C04** debug against release: overflow panic exactly for the described literals, otherwise the same result; no
  `debug_assert!` fails (`ObjDebug`, a two-run relation through every function).
* **C05, C06** tokens are valid UTF-8 slices, and exactly the declared ones, under any interleaving of peeks (`LexerProofs`, `LayoutProofs`).
* **C07, C08** edits that leave the token list unchanged, hence the result, errors included.
* **C09** doubling a newline, by induction over readings; `obj` and `mtl`.
* **C10, C12-C20, C22** the returned object against the statements of the file: vertex data, indices, triangulation,
  groups, smoothing groups, geometries, libraries. All follow from C30 and facts about `ObjSpec.file_means`
  (`ObjMeaning`, `ObjFacts`); `ObjState` relates the index tables of `parse_object` to that meaning.
* **C11** accepted float tokens are Rust's grammar; the value is the nearest binary64 number in Coq's reals (through
  Flocq), unique, and every binary64 number can be written. Refuted beyond the exponent cut-off of the standard library.
* **C21** objects in order with their names; appending objects keeps the earlier ones.
* **C23** an unknown statement after a well-formed prefix is an error of kind `InvalidObjectStatement` on its line, and
  that kind arises in no other way.
* **C24** error lines: the declarative error relation of `ObjErrorSpec`/`MtlSpec` (line, kind, message) holds exactly
  when `parse` returns that error; bounds; the line is that of the failing statement or the next one.
* **C25** relative indices: refuted; every reference at most 0 is rejected or dropped.
* **C26** all references kept: refuted; exactly the longest valid prefix is kept.
* **C27** CRLF files: refuted; a carriage return where a statement may start is an error. No OBJ text with a line that is empty or a single `v`, `vt`, `vn`, `s`, `usemtl` or `o` statement is accepted with CRLF line ends, and in MTL texts a CR in place of any line end (that is not a name) is an error on its line.
* **C28** line continuation: refuted; a backslash is a space.
* **C29** any layout of a written model, and a concrete writer, read back; the writer covers everything a text can say.
* **C30, C31** `parse` returns `Ok set` exactly if the text has a reading in the declarative grammar, and `set` is its
  meaning; readings are unique. Both directions, all inputs, both build modes.
* **C32** last setting wins, defaults, independence of fields and materials.
* **C33** written materials in any layout are read back; exactly which materials can be read.
* **C34** `illum`: accepted values, the two errors, end of input.
* **C35** displayed indices, elements, vertices and smoothing groups read back; also for whole parsed objects.
* **C36, C37** lookup and form of indices, against `IndexSpec`.
* **C38** integer tokens, against `NumberSpec`.
* **C39** names are slices of the text (tokens), and stand after their keyword (`NameSpec`, `NameProofs`).
* **C40** a second `parse_objset`/`parse_mtlset` on the same parser returns the empty set.
* **C41** `Display` of objects and sets: exact text. "Never panics" is refuted for a hand-made object with index
  `usize::MAX` in a debug build; proved for parsed objects.
* **C42** sizes of the result are bounded by the input length; the lists of groups of all elements together by its square, and there are texts (`SizeSpec.many_groups`) for which they grow like that.
* **C43, C44** newline names and elements without group: refuted, with the true parts.
* **C45** text of errors, and that it determines line and message.
* **C46** derived `==` of sets, errors, triples and `Shape`: exactly equality up to the sign of zeros and without NaN.
* **C47** exactly which object sets `obj::parse` returns; every one can be written and read back.
* **C48** an error depends on the lines before it only (`Locality`, a two-run relation).
* **C49** concatenating MTL files; for OBJ texts refuted; merging object sets.
* **C50** GRAMMAR.md, transcribed in `GrammarSpec`: which of its texts are read, refutations in both directions. The
  transcription adds what the grammar leaves open: one statement per line.
* **C51** a line that starts with an unknown word, or a free-form keyword, makes the file unacceptable.
* **C52** derived orders of colours (lexicographic in the extended reals, NaN incomparable where reached) and
  illumination models; laws of `PartialOrd`.
* **C53** `Default` values: the default object is never equal to a parsed one, shows without panic, resolves no index.
* **C54** an object at another place in another file, with its indices shifted (`moved`, `RewriteSpec`), gives the same
  `Object`.
* **C55-C57** texts with the same meaning: adjacent independent statements exchanged, elements split up or put
  together, unused materials removed. For a debug build the conclusion has the alternative of C04 (an index next to
  `-2^63` behind the references of an element, which a release build swallows).
* **C58** blank and comment lines at the top shift the line numbers of errors and change nothing else, for every
  outcome; a final newline keeps a result (refuted for errors).
* **C59** replacing data and names by functions of them commutes with parsing (OBJ and MTL).
* **C60** every error is right about the text (`MessageSpec`, `MtlMessageSpec`): line, and quoted token at the place where
  reading stopped; two kinds are never returned, every other one is.
* **C61** texts that differ in the notation of numbers (`RespellSpec`, `MtlRespellSpec`) have the same outcome; by a
  simulation of the reading relations (`ObjSimulate`).
* **C62** several calls on one parser (`AgainSpec`): each one parses what is left; unknown statements stay.
* **C63** texts of coordinates (`FmtSpec`): the shortest decimal number that is read back, the nearest one of these (the larger of two), written without exponent or superfluous zeros; that `core::fmt` does so is part of the model (`RustFmt`), not code of the repository; that the search there finds just this number is proved.
* **C64** removing a property statement that a later one overwrites does not change the result.
* **C65** `PlaceSpec.line_starts`: behind every newline token of an accepted text a statement may start; hence the first word of every line (`at_line`). MTL likewise.
* **C66** `PlaceSpec.cut_file`, `front_set`: reading only depends on the statements in front of the cut.
* **C67** `reaches_extend`: what is in front of the statement that fails is read the same in front of `usemtl m`. `CutDebug`: a debug build overflows in the shorter text only if it does in the whole text.
* **C68** The parser model runs over a counting lexer (`CountSpec`). `CostProofs` gives each call credits (`pays`): a request for a token takes one, a token that is used up brings eight. `C68_each_*` and `C68_volume_*` run it over a lexer that keeps a record of its answers and of the bytes read at each answer (`LogSpec`, where `placed` says where the tokens of a text end; `C68_places`: in one way); `LogProofs` follows how often the next token may still be asked for (`lasts`), and the examples show that eight and four are reached. The work inside `for` loops over data is not counted (C42 bounds the data), nor is the work of string and number conversions of a single token.
* **C69** `DocMtlSpec` has the statements of docs/mtl_spec.md (colour forms, options, reflection maps) as a type, the line of each, and which settings of `Material` they describe; written from the document, not from the parser. `DocMtl` goes through the statements: each is either read as described or stops the parser. The examples of the document are in `PropDoc`.
* **C70** `DocObjSpec` has the polygonal statements of docs/obj_spec.pdf and a drawing machine for them (`pen`, `picture`): global numbering, relative references, state that stays on until changed, as in the document. `keep = false` is the same machine with groups, smoothing and material set back at `o`. `DocObj` shows that a supported file is one of `ObjWriteSpec` and compares the meanings. Free-form geometry, display attributes and the options of the document that the parser has no keyword for are not in the type of statements (they are unknown statements, C48). The polygonal example files of the document are in `PropDocObj`.
* **C71** `surface_boundary`: by induction along the fan, in any commutative group; used with Z (edges), and with vectors of reals (areas). `value` (FloatSpec) is the real number of an f64; infinities and NaN count as 0 there.
* **C72** `TileProofs`: a point left of all edges is left of the first diagonal and right of the last, so between two neighbouring ones (`crossing`); `barycentric` turns that into a point of the triangle. `HullProofs`: corners may be repeated or on a line; by induction on the corners, each one adds one triangle to the convex hull (`hull_grows`), or all are on a line (`line_covers`). For strictly convex polygons both descriptions of the set of points agree (`C72_polygon_is_hull`).
* **C73** `UsizeModel`: lexer and OBJ parser with checked or wrapping additions and wrapping casts. `UsizeProofs`: a program logic (`agree`) that carries "tokens read plus tokens to come, at most the length of the input" through the parser, and bounds every counter by the tokens read. The MTL parser has no counters of its own; `C73_mtl_reached` and `C73_calls` are about its `peek` and `next`. `Vec` lengths and capacities of the standard library are not modelled.
* **C74** `FirstWord`, from the error specifications (`ObjErrorSpec`, `MtlSpec`): nothing but blank lines can be read in front of an unknown word.
* **C75** `DebugProofs`: every text shows where it ends, by recursion over the types; strings by the meaning of Rust literals (`DebugSpec`, `DebugText`), numbers by reading them back (`DebugNumber`). The same is refuted for `Display`.
* **C76** `PrettyProofs`: the texts are trees of items (`good`, `fine`), whose lines are known (`rows`); `PrettyText` shows this of the text of every type. What a line break, an indentation and a text without line breaks are is said in `PrettySpec`. `PrettyOnly` shows that this leaves one text: read from the left, two such texts that are the same without line breaks have the same first line (`same_lines`); `C76_text_obj` and `C76_text_mtl` say the text completely. `sparing` was added because a program that writes an empty vector on two lines met the rest.
* **C77** `UseProofs`: what C33 and C47 say about names is put together. `UseSpec` says which materials a set uses and gives a set that uses given ones. The two parsers are never run on each other's texts in the code, so this is about which names each can read; `C77_distinct_refuted` has two materials of one name.
* **C78** `CompleteProofs`: C01, C03, C04, C24 and C30 (C02, C24 and C31 for MTL) put together into one description of every outcome, `CompleteSpec`.
* **C79** `DisplayText`: the texts of `DisplayTextSpec` are functional, and `show_*` writes them, so each is an equivalence;
  a parsed set can be taken apart again because its names and groups have no space. For hand-made sets that is refuted
  (`C79_every_set_refuted`): group names can imitate the text between two entries.
* **C80** `PropHash`, model `HashModel` (what `derive(Hash)` gives a hasher, any hasher): by cases on the kinds; the hasher that
  keeps everything it is given tells sequences apart.
* **C81** `NarrowModel` (the OBJ parser with words of any size), `NarrowSpec`, `NarrowProofs`, `PropNarrow`: a program logic like
  that of C73, relating the two parsers instead of equating them. An index that names an element is in range on both platforms, any
  other one is an error or an overflow on both; reading and checking an index are treated as one step, since a large index may already
  fail to be an `isize`. A smoothing group that is too large fails on the small
  platform and, if the parse succeeds with 64 bits, is in the result; so `C81_ok` is an equivalence. `NarrowDebug`: a debug build panics or does
  the same as a release build. Plain equality is refuted (`C81_same_refuted`). `NarrowMtlModel`, `NarrowMtl`: the same for the
  MTL parser, whose only word is the number of an illumination model. `NarrowLexerModel`, `NarrowLexer`: the counters of the lexer
  (`C81_calls`), as in C73; `NarrowMoves`: the parsers read by `peek` and `next` only.

Nothing listed in `properties.jsonl` was left out as not expressible.

## Mutation testing

`seeded/LOG.jsonl` has one line per wrong program: the model was edited in a scratch copy like a realistic bug, everything was rebuilt with
each failing proof replaced by an admission, and `Print Assumptions` then told which property theorems no longer hold
up. `failed` lists these. This means that the proof as it is written no longer goes through, not that the statement was
shown to be false: a lemma that many theorems need takes all of them with it, and `obj_debug_release`, which does not
change what the parser does, makes 94 fail. What can be relied on is `survived`: a theorem that still proves is true of
the wrong program. That the descriptions themselves admit no wrong parser is C78: `C78_obj_only` and `C78_mtl_only`
say that any program that differs from the model for one text violates them. A file that could not be rebuilt even so (a computation in it ran out of time, or a statement
no longer made sense) says nothing about its theorems or those of the files that need it: they are not in `failed`, and
`not_checked_count` is their number. Earlier versions of the log counted them as failed, and had a wrong program
(`r3_ka_first`) that was not even well-typed. `inconclusive` marks the lines where nothing about the claim itself was
rebuilt. In lines without `rerun`, a proof that took more than 400 s of wall time also counts as failed, and some of
these runs were suspended for a while; lines with `rerun` were made with a limit on processor time, only for the files
that the claim is about, and say in `timed_out` which proofs ran into it.

`refuted` is the stronger test. The edited file was compiled under another name beside the unchanged development, and the
negation of a property theorem, with the edited definitions in place of the model's, was proved from a text for which they
differ. The specification is untouched, so this does not depend on any proof script: the English claim is false of the
wrong program and so is the theorem. It was done for the wrong programs in `ObjModel.v`, `MtlModel.v`, `Lexer.v`,
`EqModel.v`, `DisplayModel.v`, `OrdModel.v`, `HashModel.v`, `NarrowModel.v`, `NarrowMtlModel.v`, `NarrowLexerModel.v` and part of
`RustStd.v`; `obj_debug_release`, `show_digits`, `r11_saturate` and `r12_wrap`, which change nothing a claim is about, have no entry, nor has `show_wrap`,
of which the refutation `C41_every_object_refuted` fails.
