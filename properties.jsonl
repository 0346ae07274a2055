{"id": "C01", "title": "obj::parse always terminates", "statement": "For every input string, obj::parse stops after finitely many steps: it returns Ok, returns Err, or panics, and the number of loop iterations is bounded by the number of tokens of the input. It never loops forever.", "quantifier": "every input string (any length, any bytes)", "why_tests_cant": "A hang can hide behind any token sequence; tests only run finitely many inputs.", "anchors": ["src/obj.rs:parse", "src/obj.rs:Parser::parse_objset", "src/obj.rs:Parser::parse_object", "src/obj.rs:Parser::parse_objects", "src/lexer.rs:Lexer::next_token"]}
{"id": "C02", "title": "mtl::parse is total: it terminates and never panics", "statement": "For every input string, mtl::parse returns Ok or Err; it never panics and never loops forever.", "quantifier": "every input string", "why_tests_cant": "Panic freedom on all inputs is a universal claim; tests sample it.", "anchors": ["src/mtl.rs:parse", "src/mtl.rs:Parser::parse_mtlset", "src/mtl.rs:Parser::parse_material"]}
{"id": "C03", "title": "Exactly when obj::parse panics", "statement": "In a release build obj::parse panics if and only if the input is well formed up to the end of some object that contains neither a usemtl statement nor any p/l/f element. (So the natural expectation 'obj::parse never panics' is false: \"v 0 0 0\" panics.) No other panic (slice index, usize underflow) is reachable.", "quantifier": "every input string, release build", "why_tests_cant": "The panic needs an object without elements and without material; the test assets never contain one, and absence of every other panic is universal.", "anchors": ["src/obj.rs:Parser::parse_geometries", "src/obj.rs:Parser::parse_object", "src/obj.rs:triangulate", "src/obj.rs:Parser::parse_shape_entries"]}
{"id": "C04", "title": "Debug and release builds agree", "statement": "For every input, the debug build (overflow checks and debug assertions on) either returns exactly what the release build returns, or panics with an integer overflow caused by an index literal so negative that (number of vertices - literal) exceeds isize::MAX. No debug_assert ever fails.", "quantifier": "every input string, both build modes", "why_tests_cant": "Only one adversarial integer literal range separates the two builds; a test suite runs one build.", "anchors": ["src/obj.rs:Parser::calculate_index", "src/obj.rs:Parser::parse_shape_entries"]}
{"id": "C05", "title": "from_utf8_unchecked is always called on valid UTF-8", "statement": "Given an input that is valid UTF-8 (as every &str is), every token the lexer hands to str::from_utf8_unchecked is itself valid UTF-8, so the unsafe block is sound.", "quantifier": "every valid UTF-8 input, every token", "why_tests_cant": "Soundness of unsafe code for all multi-byte inputs cannot be established by sampling.", "anchors": ["src/lexer.rs:PeekableLexer::next_token", "src/lexer.rs:PeekableLexer::peek", "src/lexer.rs:Lexer::next_token"]}
{"id": "C06", "title": "Tokenization is exactly the declared one", "statement": "The sequence of tokens the parsers see is exactly: maximal runs of non-separator bytes, plus one single-byte token per newline byte (\\n or \\r); spaces, tabs, backslashes and '#'-comments up to (not including) the next newline byte contribute nothing; nothing else is dropped or invented; peeking never changes the sequence.", "quantifier": "every input string, every interleaving of peek and next calls", "why_tests_cant": "The claim ranges over all byte strings and all peek/next histories.", "anchors": ["src/lexer.rs:Lexer::next_token", "src/lexer.rs:Lexer::skip_while", "src/lexer.rs:Lexer::skip_comment", "src/lexer.rs:PeekableLexer::peek", "src/lexer.rs:PeekableLexer::next_token"]}
{"id": "C07", "title": "Amount and kind of horizontal whitespace is irrelevant", "statement": "Replacing any non-empty run of spaces/tabs/backslashes by any other non-empty run, anywhere in the file, does not change the result of obj::parse or mtl::parse (result, error kind, message and line number included).", "quantifier": "all prefixes, suffixes and whitespace runs", "why_tests_cant": "Any position in any file may carry any whitespace layout.", "anchors": ["src/lexer.rs:is_whitespace", "src/lexer.rs:Lexer::skip_whitespace"]}
{"id": "C08", "title": "Comments are invisible", "statement": "Deleting or inserting a comment ('#' up to the end of the line) anywhere does not change the result of obj::parse or mtl::parse, line numbers of errors included.", "quantifier": "all prefixes, comment texts and suffixes", "why_tests_cant": "Any comment text (including keywords, quotes, multi-byte text) at any position.", "anchors": ["src/lexer.rs:Lexer::skip_comment"]}
{"id": "C09", "title": "Blank lines never break a file that parses", "statement": "If a file parses successfully, doubling any of its newlines leaves the parsed ObjectSet (MaterialSet) unchanged.", "quantifier": "all files that parse and all newline positions in them", "why_tests_cant": "Each statement form treats its line end differently; all combinations must be covered.", "anchors": ["src/obj.rs:Parser::skip_zero_or_more_newlines", "src/obj.rs:Parser::skip_one_or_more_newlines", "src/obj.rs:Parser::parse_vtn_indices"]}
{"id": "C10", "title": "Vertex data is preserved in order and defaulted correctly", "statement": "In every successful parse each object's vertex_set, texture_vertex_set and normal_vertex_set hold exactly the data of the v, vt, vn statements of that object, in file order, with w defaulting to 1 for v, and v and w defaulting to 0 for vt. (The documentation comment of Vertex::w says that it defaults to 0; that is refuted.)", "quantifier": "every input that parses", "why_tests_cant": "Order/count preservation must hold for every interleaving of statements.", "anchors": ["src/obj.rs:Parser::parse_vertex", "src/obj.rs:Parser::parse_texture_vertex", "src/obj.rs:Parser::parse_normal_vertex", "src/obj.rs:Parser::parse_object"]}
{"id": "C11", "title": "Numbers are the correctly rounded binary64 values", "statement": "Every coordinate/colour component is the IEEE-754 binary64 value nearest (ties to even) to the decimal number written in the file, overflowing to infinity; exactly the strings of Rust's float grammar (decimal, exponent, inf, infinity, nan) are accepted. (For tokens of at most 60000 bytes or with a written exponent below 65536 in absolute value; beyond, the standard library cuts off the exponent and the claim is false.)", "quantifier": "every token", "why_tests_cant": "The set of decimal strings is infinite.", "anchors": ["src/obj.rs:Parser::parse_f64", "src/mtl.rs:Parser::parse_f64"]}
{"id": "C12", "title": "An index k denotes the k-th vertex of the file", "statement": "In every successful parse, an element reference whose text has vertex number k (1-based, counted over the whole file) denotes, through get_vtn_triple on the containing object, exactly the data of the k-th v statement of the file; likewise for texture and normal numbers.", "quantifier": "every input that parses, every element, every reference, every number of objects", "why_tests_cant": "Depends on all preceding objects and statements: an unbounded history.", "anchors": ["src/obj.rs:Parser::calculate_index", "src/obj.rs:Parser::parse_vtn_index", "src/obj.rs:Object::get_vtn_triple"]}
{"id": "C13", "title": "Every index in a parsed object resolves", "statement": "For every object returned by obj::parse, every VTNIndex occurring in its element_set satisfies get_vtn_triple(index).is_some().", "quantifier": "every input that parses, every element", "why_tests_cant": "A dangling index could appear for any combination of objects and statement order.", "anchors": ["src/obj.rs:Parser::calculate_index", "src/obj.rs:Object::get_vtn_triple"]}
{"id": "C14", "title": "All vertices of an element have the same form", "statement": "In every returned object every Line and Face has vertices of one single VTN form (has_same_type_as holds pairwise), and every Point is a plain vertex index.", "quantifier": "every input that parses, every element", "why_tests_cant": "Universal over statements.", "anchors": ["src/obj.rs:verify_vtn_indices", "src/obj.rs:Parser::parse_line", "src/obj.rs:Parser::parse_face", "src/obj.rs:Parser::parse_point"]}
{"id": "C15", "title": "Polygons are triangulated as a fan", "statement": "A face statement with n >= 3 vertex references r1..rn contributes exactly the n-2 faces (r1, r_{i+1}, r_{i+2}) in order: none lost, none duplicated, winding preserved.", "quantifier": "every face statement, every n", "why_tests_cant": "Number of polygon vertices is unbounded.", "anchors": ["src/obj.rs:triangulate", "src/obj.rs:Parser::parse_face"]}
{"id": "C16", "title": "Polylines and point lists are expanded completely", "statement": "A line statement with n >= 2 references contributes exactly the n-1 consecutive segments in order; a point statement with n >= 1 numbers contributes exactly those n points in order.", "quantifier": "every p and l statement, every n", "why_tests_cant": "Unbounded statement length.", "anchors": ["src/obj.rs:Parser::parse_line", "src/obj.rs:Parser::parse_point"]}
{"id": "C17", "title": "Shape entries are in bijection with elements", "statement": "In every returned object shape_set has the same length as element_set, and shape_set[i].element = i for every i; every group index is < group_set.len() and every smoothing group index is < smoothing_group_set.len().", "quantifier": "every input that parses, every shape entry", "why_tests_cant": "Requires an invariant over arbitrary interleavings of g, s, usemtl and element statements.", "anchors": ["src/obj.rs:Parser::parse_shape_entries", "src/obj.rs:Parser::parse_object"]}
{"id": "C18", "title": "Every element belongs to the groups active where it is written", "statement": "For every element, the names of the groups its shape entry refers to are exactly the names of the last g statement before the element in the same object (the group \"default\" if there was no g statement so far). A g statement without names is ignored before the first element or named g, and later means no group at all. group_set lists all group names in order of declaration, after \"default\" if an element precedes them.", "quantifier": "every input that parses, every element", "why_tests_cant": "Unbounded histories of g statements interleaved with elements.", "anchors": ["src/obj.rs:Parser::parse_groups", "src/obj.rs:Parser::parse_object", "src/obj.rs:Parser::parse_shape_entries"]}
{"id": "C19", "title": "Every element has the smoothing group active where it is written", "statement": "For every element, the smoothing group its shape entry refers to is the one of the last s statement before the element in the same object (off = 0, and 0 if there was none). smoothing_group_set lists all declared smoothing groups in order.", "quantifier": "every input that parses, every element", "why_tests_cant": "Unbounded histories of s statements interleaved with elements.", "anchors": ["src/obj.rs:Parser::parse_smoothing_group", "src/obj.rs:Parser::parse_shape_entries"]}
{"id": "C20", "title": "Geometries partition the elements by active material", "statement": "Concatenating the shapes of an object's geometry_set gives 0,1,...,n-1 (n = number of elements): each element is in exactly one geometry, in order; and the geometry containing an element has as material_name the name of the last usemtl before the element in the same object (None if there was none).", "quantifier": "every input that parses, every element", "why_tests_cant": "Unbounded histories of usemtl statements interleaved with elements.", "anchors": ["src/obj.rs:Parser::parse_geometries", "src/obj.rs:Parser::parse_material_name", "src/obj.rs:Parser::parse_object"]}
{"id": "C21", "title": "Objects come out in order, with their names, and later objects do not affect earlier ones", "statement": "objects are returned in file order, one per o statement (plus one unnamed leading object if statements precede the first o), with their names; if a file parses and another file text starting with an o statement is appended after a newline and the result parses, then the first objects are unchanged.", "quantifier": "every pair of texts", "why_tests_cant": "Ranges over all file pairs.", "anchors": ["src/obj.rs:Parser::parse_objects", "src/obj.rs:Parser::parse_object_name"]}
{"id": "C22", "title": "Material library names are collected completely and in order", "statement": "material_libraries is exactly the concatenation, in order, of the names on the mtllib lines that start the file.", "quantifier": "every input that parses", "why_tests_cant": "Any number of lines and names.", "anchors": ["src/obj.rs:Parser::parse_material_library_line", "src/obj.rs:Parser::parse_material_libraries"]}
{"id": "C23", "title": "Unsupported statements are rejected, never skipped", "statement": "If, after a well-formed prefix, a statement starts with a word that is not one of g, s, usemtl, v, vt, vn, p, l, f, o (for example vp, curv, or a mtllib after the first object statement), obj::parse returns Err with kind InvalidObjectStatement and the line number of that word.", "quantifier": "every well-formed prefix, every unknown word, every continuation", "why_tests_cant": "The set of unknown statements and contexts is infinite.", "anchors": ["src/obj.rs:Parser::parse_object"]}
{"id": "C24", "title": "Error line numbers", "statement": "The line number of every error (obj and mtl) is 1 plus the number of \\n bytes of the input consumed when it was raised; it lies between 1 and 1 + number of \\n in the file. It is the line L of the statement that fails, or L+1 when the failure was noticed at the newline ending that line.", "quantifier": "every input that fails", "why_tests_cant": "Ranges over every failing input.", "anchors": ["src/obj.rs:Parser::next", "src/obj.rs:Parser::error", "src/mtl.rs:Parser::next", "src/mtl.rs:Parser::error"]}
{"id": "C25", "title": "Relative (negative) indices", "statement": "Negative indices should count back from the latest vertex (the OBJ spec, docs/obj_spec.pdf). In the code an index <= 0 never resolves: in a point statement, or among the first two references of a line or the first three of a face, it makes the parse fail; later references of lines and faces that are not valid are dropped (C26).", "quantifier": "every non-positive index literal, every number of vertices", "why_tests_cant": "Universal over literals and vertex counts.", "anchors": ["src/obj.rs:Parser::calculate_index"]}
{"id": "C26", "title": "A face or line statement keeps all its references", "statement": "Every reference written on a face or line line should end up in the elements or the file should be rejected. (False of the code: the first bad token after the mandatory ones is swallowed together with its error.) True part: the references kept are exactly the longest prefix of valid in-range references.", "quantifier": "every face/line statement", "why_tests_cant": "Depends on position of the bad token in arbitrarily long statements.", "anchors": ["src/obj.rs:Parser::parse_vtn_indices"]}
{"id": "C27", "title": "Line-ending convention", "statement": "A file with CRLF line endings should parse like the same file with LF. (False of the code: \\r is a token of its own.)", "quantifier": "every file", "why_tests_cant": "Universal over files; the test assets use LF only.", "anchors": ["src/lexer.rs:is_newline", "src/lexer.rs:Lexer::next_token", "src/obj.rs:Parser::parse_object"]}
{"id": "C28", "title": "Line continuation", "statement": "A backslash at the end of a line should join it with the next one (OBJ spec). (False of the code: the backslash is plain whitespace and the newline still ends the statement.) True part: a backslash is equivalent to a space everywhere.", "quantifier": "every file", "why_tests_cant": "Universal over files.", "anchors": ["src/lexer.rs:is_whitespace"]}
{"id": "C29", "title": "Complete: every well-formed OBJ model can be written and read back", "statement": "For every abstract model (libraries, objects with vertices, groups, smoothing groups, materials, points, polylines, polygons, whose references are in range), writing it in OBJ syntax with any layout and parsing the text gives back exactly the ObjectSet the model denotes.", "quantifier": "every abstract model, every layout", "why_tests_cant": "Infinite family of models.", "anchors": ["src/obj.rs:parse", "src/obj.rs:Parser::parse_objset"]}
{"id": "C30", "title": "obj::parse accepts exactly the documented language and returns its meaning", "statement": "obj::parse(input) = Ok(set) if and only if the token sequence of input is derivable in the (declarative) statement grammar and set is the meaning of that derivation.", "quantifier": "every input, every ObjectSet", "why_tests_cant": "An equivalence over all inputs.", "anchors": ["src/obj.rs:Parser::parse_objset"]}
{"id": "C31", "title": "mtl::parse accepts exactly the declared language and returns its meaning", "statement": "mtl::parse(input) = Ok(set) if and only if the tokens of the input form a sequence of materials, each newmtl NAME followed by property statements, and set lists one Material per newmtl in order with that meaning.", "quantifier": "every input, every MaterialSet", "why_tests_cant": "An equivalence over all inputs.", "anchors": ["src/mtl.rs:Parser::parse_mtlset", "src/mtl.rs:Parser::parse_material"]}
{"id": "C32", "title": "MTL properties: last one wins, others keep their defaults", "statement": "In each returned Material every field has the value of the last statement for that field in that material, and its default if there is none (colours 0, specular exponent 0, dissolve 1, no optical density, illumination model 2, no maps); statements for different fields commute and a material is not affected by other materials.", "quantifier": "every input that parses, every material and field", "why_tests_cant": "Unbounded sequences of property statements.", "anchors": ["src/mtl.rs:Parser::parse_material", "src/mtl.rs:Material::new"]}
{"id": "C33", "title": "MTL round trip", "statement": "For every list of materials with finite or non-finite numbers and token-like names, writing it in MTL syntax with any layout and parsing it gives it back exactly.", "quantifier": "every list of materials", "why_tests_cant": "Infinite family.", "anchors": ["src/mtl.rs:parse"]}
{"id": "C34", "title": "Illumination models", "statement": "illum n is accepted exactly for the unsigned integers 0, 1, 2, mapped to Ambient, AmbientDiffuse, AmbientDiffuseSpecular; any other integer gives UnknownIlluminationModel and a non-integer ExpectedInteger.", "quantifier": "every argument token", "why_tests_cant": "Infinite set of tokens.", "anchors": ["src/mtl.rs:Parser::parse_illumination_model", "src/mtl.rs:Parser::parse_usize"]}
{"id": "C35", "title": "Display of indices and elements is re-parsable", "statement": "The Display text of a VTNIndex or Element (1-based) parses back, as a statement of a file whose object has the referenced vertices, to the same VTNIndex or Element.", "quantifier": "every VTNIndex and every Element the parser can produce", "why_tests_cant": "All index values.", "anchors": ["src/obj.rs:impl Display for VTNIndex", "src/obj.rs:impl Display for Element"]}
{"id": "C36", "title": "get_vtn_triple is total lookup", "statement": "get_vtn_triple(index) is Some exactly when each component of the index is below the length of the corresponding vector, and then it holds exactly the vector entries at those positions, in the same form as the index; otherwise None. It never panics.", "quantifier": "every Object, every VTNIndex", "why_tests_cant": "All objects and indices.", "anchors": ["src/obj.rs:Object::get_vtn_triple"]}
{"id": "C37", "title": "has_same_type_as is the equivalence 'same form'", "statement": "has_same_type_as is reflexive, symmetric and transitive, and true exactly when the two indices have the same set of components.", "quantifier": "all VTNIndex pairs", "why_tests_cant": "All values.", "anchors": ["src/obj.rs:VTNIndex::has_same_type_as"]}
{"id": "C38", "title": "Integer tokens", "statement": "isize tokens are accepted exactly when they are an optional sign followed by one or more decimal digits with value in [-2^63, 2^63); usize tokens exactly when an optional + followed by digits with value < 2^64; the value is the usual one.", "quantifier": "every token", "why_tests_cant": "Infinite set of tokens.", "anchors": ["src/obj.rs:Parser::parse_isize", "src/obj.rs:Parser::parse_smoothing_group", "src/mtl.rs:Parser::parse_usize"]}
{"id": "C39", "title": "Names are copied verbatim", "statement": "Every object, group, material, library and texture-map name in a result is a contiguous slice of the input (or \"default\"/empty for an unnamed one), is non-empty, and contains no space, tab, backslash or '#'. It stands in the text as the word after its o, usemtl, newmtl or map keyword, or on the line of its g or mtllib keyword.", "quantifier": "every input that parses, every name", "why_tests_cant": "All names.", "anchors": ["src/obj.rs:Parser::parse_groups", "src/obj.rs:Parser::parse_object_name", "src/mtl.rs:Parser::parse_newmtl"]}
{"id": "C40", "title": "A parser is used up by a successful parse", "statement": "After Parser::parse_objset (parse_mtlset) has returned Ok, calling it again on the same parser returns Ok with no libraries and no objects (no materials).", "quantifier": "every input that parses", "why_tests_cant": "Any history of a Parser.", "anchors": ["src/obj.rs:Parser::parse_objset", "src/mtl.rs:Parser::parse_mtlset"]}
{"id": "C41", "title": "Display of objects and object sets", "statement": "Displaying an Object or ObjectSet never panics and reports for each set its true length and its first and last entry.", "quantifier": "every Object and ObjectSet", "why_tests_cant": "All values.", "anchors": ["src/obj.rs:DisplayObjectCompositor", "src/obj.rs:impl Display for ObjectSet"]}
{"id": "C42", "title": "Output size is bounded by input size", "statement": "The number of vertices, texture vertices, normals, groups, smoothing groups, elements, shapes and materials returned is at most the number of bytes of the input. All names together are not longer than the input (plus 7 bytes per object for the default group). The group lists of all shape entries together have at most n*n entries for an input of n bytes, and this is the true order of growth: some inputs of 4k+12 bytes give k*k entries.", "quantifier": "every input that parses", "why_tests_cant": "Amplification bounds are universal.", "anchors": ["src/obj.rs:parse", "src/mtl.rs:parse"]}
{"id": "C43", "title": "Statement names are never line ends", "statement": "The name given by o, usemtl, newmtl and map statements should never be a newline. (False of the code: a statement whose name is missing takes the newline token as its name.) True part: group and library names never are, and the other names only where a statement has no name on its line.", "quantifier": "every input that parses", "why_tests_cant": "Universal over files.", "anchors": ["src/obj.rs:Parser::parse_material_name", "src/obj.rs:Parser::parse_object_name", "src/mtl.rs:Parser::parse_newmtl", "src/mtl.rs:Parser::parse_map_diffuse"]}
{"id": "C44", "title": "Every element belongs to at least one group", "statement": "Every shape entry's groups list should be non-empty (the test suite asserts it of its assets). False of the code: a nameless g after a named one makes it empty. True part: it is non-empty whenever every g statement has a name.", "quantifier": "every input that parses", "why_tests_cant": "Universal over files; the test assets have no nameless g.", "anchors": ["src/obj.rs:Parser::parse_groups", "src/obj.rs:Parser::parse_object"]}
{"id": "C45", "title": "Display of errors", "statement": "The Display text of every obj and mtl ParseError is \"Parse error at line N: M\" with N the decimal line number and M the message; two errors with the same text have the same line number and message.", "quantifier": "every ParseError", "why_tests_cant": "All line numbers and messages, including messages that contain colons and digits.", "anchors": ["src/obj.rs:impl Display for ParseError", "src/mtl.rs:impl Display for ParseError"]}
{"id": "C46", "title": "Equality of results", "statement": "Two ObjectSets (MaterialSets) compare equal with == if and only if they are identical up to the sign of zeros and the first contains no NaN; the same for VTNTriples; two Shapes are equal if and only if they are identical; two ParseErrors are equal if and only if they have the same line, kind and message. In particular a result is equal to itself exactly when it has no NaN; that parse(x) == parse(x) always holds is false (a vertex with the number nan).", "quantifier": "every pair of ObjectSets, every pair of MaterialSets", "why_tests_cant": "All values; the failing case needs a file with nan.", "anchors": ["src/obj.rs:ObjectSet", "src/obj.rs:Vertex", "src/mtl.rs:MaterialSet", "src/mtl.rs:Material"]}
{"id": "C47", "title": "Exactly which ObjectSets obj::parse returns, and every one of them can be written", "statement": "An ObjectSet is returned by obj::parse for some text if and only if: its libraries and groups are names (no newline), its objects after the first have names, vertex data are f64s and smoothing groups usizes, element indices are in range and all of one form, shape entries number the elements 0,1,2,..., their smoothing groups never go back, their groups are those of the element before or a run of later groups or (once there are groups) none, and the geometries partition the elements in order with only the last possibly empty and only the first without material. Any such set can be written as an OBJ text which parses back to it; in particular the result of any parse can be written out and read back.", "quantifier": "every ObjectSet; every text", "why_tests_cant": "Quantifies over all results of all inputs, and needs an exporter that is right for every set.", "anchors": ["src/obj.rs:parse", "src/obj.rs:ObjectSet"]}
{"id": "C48", "title": "An error depends only on the text up to the line it reports", "statement": "If parsing p + newline + z gives an error reported for a line of p (line number at most that of p's last line), then parsing p + newline + z' gives exactly the same error (line, kind, message) for every other rest z', for obj::parse and mtl::parse.", "quantifier": "every p, z, z'", "why_tests_cant": "Universal over all continuations of a file.", "anchors": ["src/obj.rs:Parser::next", "src/obj.rs:Parser::error", "src/mtl.rs:Parser::next", "src/mtl.rs:Parser::error", "src/lexer.rs:PeekableLexer::peek"]}
{"id": "C49", "title": "Files can be put together", "statement": "If two MTL texts parse, their concatenation (with a newline between) parses to the concatenation of their materials. For OBJ texts this is false (indices count from the top of the file); but for two ObjectSets that have been read, of which the second has no unnamed object, the set with all their libraries and objects is again read back from a text.", "quantifier": "every pair of texts that parse", "why_tests_cant": "Infinite families of pairs.", "anchors": ["src/mtl.rs:Parser::parse_mtlset", "src/obj.rs:Parser::parse_objset"]}
{"id": "C50", "title": "The parsers and GRAMMAR.md", "statement": "GRAMMAR.md says the parser implements its grammars. True part: a text of the OBJ grammar without vp lines and with indices and smoothing groups in 0..2^63 is read as what it says whenever its references are in scope and every object has an element or material; a text of the MTL grammar without Tf lines and with illumination models 0, 1, 2 is always read. False in general: vp and Tf lines are never accepted; there are texts of the grammar with a negative index or illum 3 that are rejected; an object without elements panics. Conversely the parsers accept texts outside the grammars (two-vertex lines, integers as coordinates, usemtl, other names, map_Ns).", "quantifier": "every text of the grammars", "why_tests_cant": "Infinite languages.", "anchors": ["GRAMMAR.md", "src/obj.rs:parse", "src/mtl.rs:parse"]}
{"id": "C51", "title": "Unknown statements and free-form geometry are never accepted", "statement": "If any line of an OBJ (MTL) text starts with a word that is not a statement keyword of the crate, parse does not return Ok. In particular an OBJ text with a line starting with a free-form geometry keyword (vp, cstype, deg, curv, surf, parm, trim, end, ...) is never accepted (README).", "quantifier": "every text with such a line, wherever the line is and whatever is around it", "why_tests_cant": "Any context; words that follow a valid statement on the same line are sometimes silently dropped.", "anchors": ["README.md", "src/obj.rs:parse_object_statements", "src/mtl.rs:parse_material"]}
{"id": "C52", "title": "Ordering of colours and illumination models", "statement": "<, <=, >, >= and == on Color compare (r, g, b) lexicographically as extended real numbers (-0 equal to 0), and a comparison that reaches a NaN is false; == holds exactly when partial_cmp is Some(Equal), a < b exactly when b > a, < is transitive, and colours without NaN are totally ordered. IlluminationModels are ordered like their numbers in an illum statement.", "quantifier": "all colours and illumination models", "why_tests_cant": "Infinitely many values; NaN, infinities, signed zeros.", "anchors": ["src/mtl.rs:Color", "src/mtl.rs:IlluminationModel"]}
{"id": "C53", "title": "Default values", "statement": "Object::default() is not equal to any object returned by obj::parse; displaying it does not panic and get_vtn_triple on it is always None. SmoothingGroup::default() displays as off.", "quantifier": "every input that parses; every index", "why_tests_cant": "Universal over inputs.", "anchors": ["src/obj.rs:Object", "src/obj.rs:SmoothingGroup"]}
{"id": "C54", "title": "Objects can be moved to other places and files", "statement": "If the same object (same name, same statements, with the element indices shifted by the difference in the number of vertices, texture vertices and normals before it) occurs in two texts that parse, as the i-th object of one and the j-th of the other, then the two returned Objects are identical.", "quantifier": "every pair of texts that parse; every object", "why_tests_cant": "Quantifies over everything that can precede an object.", "anchors": ["src/obj.rs:Parser::parse_objects", "src/obj.rs:Parser::calculate_index"]}
{"id": "C55", "title": "Independent statements may change places", "statement": "Exchanging two adjacent statements of different kinds in an object does not change the result of obj::parse, provided that neither is an element next to a g, s or usemtl. Without the proviso it is false. (In a debug build the second text may instead have the overflow panic of C04.)", "quantifier": "every text that parses; every adjacent pair", "why_tests_cant": "All contexts around the pair.", "anchors": ["src/obj.rs:Parser::parse_object"]}
{"id": "C56", "title": "Elements may be written one by one", "statement": "Replacing one element statement by several that together write the same elements (a p line by one p per vertex, a polyline by its segments, a polygon by its fan of triangles), or the other way round, does not change the result of obj::parse. (In a debug build the second text may instead have the overflow panic of C04.)", "quantifier": "every text that parses; every element statement in it", "why_tests_cant": "All contexts, lengths and ways of splitting.", "anchors": ["src/obj.rs:Parser::parse_point", "src/obj.rs:Parser::parse_line", "src/obj.rs:Parser::parse_face"]}
{"id": "C57", "title": "A material without elements is as if it were not there", "statement": "Removing a usemtl statement that is followed by another usemtl of the same object, with no element between them, does not change the result of obj::parse. (In a debug build the second text may instead have the overflow panic of C04.)", "quantifier": "every text that parses with such a statement", "why_tests_cant": "All contexts.", "anchors": ["src/obj.rs:Parser::parse_object", "src/obj.rs:Parser::parse_geometries"]}
{"id": "C58", "title": "Blank lines at the top and at the end", "statement": "Putting blank or comment lines in front of a text gives exactly the same outcome of obj::parse and mtl::parse (result, error kind and message, panic), except that the line number of an error grows by the number of these lines. Adding a final newline to a text that parses does not change the result (but can turn an error into a result).", "quantifier": "every text, of every outcome; every header", "why_tests_cant": "Universal over texts and headers, over all outcomes.", "anchors": ["src/obj.rs:Parser::next", "src/mtl.rs:Parser::next", "src/lexer.rs:Lexer::next_token"]}
{"id": "C59", "title": "Data and names do not influence anything else", "statement": "If the coordinates, group names, smoothing group numbers, material names, object names and library names of a text that parses are replaced by any function of them (keeping \"default\" and 0), the result of obj::parse is the old one with the same replacements, and otherwise identical (elements, shapes, geometries, indices). Likewise for the colours, numbers and names of mtl::parse. (In a debug build the second text may instead have the overflow panic of C04.)", "quantifier": "every text that parses; every replacement", "why_tests_cant": "Quantifies over all replacements of data.", "anchors": ["src/obj.rs:Parser::parse_object", "src/obj.rs:Parser::parse_material_libraries"]}
{"id": "C60", "title": "Errors are right about the text", "statement": "Every error of obj::parse and mtl::parse is right about the text: its line number is the line of the place where reading stopped, its kind and message tell what is the matter with the token (or the end of the text) there, and a token quoted in the message is the token at this place. The kinds ElementMustBeAPointLineOrFace (obj) and ExpectedTagStatement (mtl) are never returned; every other kind is, for some text.", "quantifier": "every text that is an error; every kind", "why_tests_cant": "Universal over texts; a claim that two kinds never occur cannot be tested.", "anchors": ["src/obj.rs:Parser::parse_object", "src/obj.rs:Parser::parse_vtn_index", "src/mtl.rs:Parser::parse_mtlset", "src/obj.rs:ParseError", "src/mtl.rs:ParseError"]}
{"id": "C61", "title": "The notation of numbers does not matter", "statement": "Two texts that differ only in how the numbers of v, vt, vn, p, l, f and s lines (for MTL: of colours, Ns, d, Ni and illum) are written, each token being replaced by one that is read as the same number (1 / +1 / 01 / 1.0 / 1e0), give the same result of parse, the same panic, or an error of the same kind on the same line.", "quantifier": "every pair of such texts; both modules; every outcome", "why_tests_cant": "Universal over pairs of texts and over all notations of a number.", "anchors": ["src/obj.rs:Parser::parse_f64", "src/obj.rs:Parser::parse_vtn_index", "src/mtl.rs:Parser::parse_f64", "src/mtl.rs:Parser::parse_color"]}
{"id": "C62", "title": "Asking a parser again", "statement": "If parse_objset (or parse_mtlset) is called several times on one parser, each call returns what parsing the part of the text left over by the call before, as a text of its own, would return, except that the lines of errors are counted from the start of the whole text; after a success nothing is left over, and after an error the text behind the place of the error is. An unknown OBJ statement (other than mtllib), and an unknown MTL statement, stay where they are: from then on every call returns an error for that statement.", "quantifier": "every text and number of calls; both modules and build modes", "why_tests_cant": "Quantifies over all sequences of calls.", "anchors": ["src/obj.rs:Parser::parse_objset", "src/mtl.rs:Parser::parse_mtlset"]}
{"id": "C63", "title": "Display of coordinates is the shortest text that reads back", "statement": "The Display text of a Vertex, TextureVertex or NormalVertex is its keyword and its coordinates, each written as the decimal number with the fewest significant digits among those that parse as that coordinate, the nearest to it of these and the larger in magnitude of two equally near, without exponent, leading or trailing zeros; zeros keep their sign, and infinities and NaN are inf, -inf and NaN.", "quantifier": "every vertex, texture vertex and normal vertex, of any f64 coordinates", "why_tests_cant": "Quantifies over all 2^64 numbers and all decimal texts.", "anchors": ["src/obj.rs:impl Display for Vertex", "src/obj.rs:impl Display for TextureVertex", "src/obj.rs:impl Display for NormalVertex"]}
{"id": "C64", "title": "MTL: overwritten statements may be left out", "statement": "In an MTL text that parses, a property statement that is followed in the same material by another one for the same property can be removed without changing what mtl::parse returns.", "quantifier": "every MTL text that parses and every such statement in it", "why_tests_cant": "Quantifies over all texts and positions.", "anchors": ["src/mtl.rs:Parser::parse_material"]}
{"id": "C65", "title": "Every line starts a statement", "statement": "In a text that obj::parse or mtl::parse accepts, no statement goes on over the end of a line: the first word of every line is a statement keyword (OBJ: o, mtllib, g, s, usemtl, v, vt, vn, p, l, f; MTL: newmtl or the name of a property). The only place where what follows a newline is not the start of a statement is an OBJ object whose name is the newline itself.", "quantifier": "every text that parses, every line", "why_tests_cant": "Quantifies over all texts; the grammar of the code does not separate statements by lines at all, so this is a consequence of how each statement ends.", "anchors": ["src/obj.rs:Parser::parse_object", "src/obj.rs:Parser::next_string", "src/obj.rs:Parser::skip_zero_or_more_newlines", "src/mtl.rs:Parser::parse_material"]}
{"id": "C66", "title": "Texts that are cut off at the end of a line", "statement": "If obj::parse accepts a text, then what it returns for the text up to any line end is the first objects of the whole result, the last one of them possibly with the first part of its data only (vertices, groups, smoothing groups, elements, shape entries); the only other outcome is the panic for an object without elements and material (C03). It is never an error, unless the line is a bare o. mtl::parse accepts every such part of a text it accepts, with the first materials.", "quantifier": "every text that parses, every line end", "why_tests_cant": "Quantifies over all texts and all cuts.", "anchors": ["src/obj.rs:Parser::parse_objset", "src/obj.rs:Parser::parse_object", "src/mtl.rs:Parser::parse_mtlset"]}
{"id": "C67", "title": "Errors are found at the first statement that is wrong", "statement": "If obj::parse returns an error, the text in front of the statement that is reported is fine: followed by a line `usemtl m` it parses. That statement starts on the reported line or on the line before it. The same holds for the text up to any line end at least two lines before the reported line (unless that line ends in a bare o), and for the text in front of the object end at which parse panics, or of the first overflow of a debug build. For mtl::parse, the text in front of the reported statement parses as it is. Together with C48 (nothing behind the reported place can repair a text): errors are reported neither late nor early.", "quantifier": "every text that is rejected", "why_tests_cant": "Quantifies over all rejected texts.", "anchors": ["src/obj.rs:Parser::parse_objset", "src/obj.rs:Parser::parse_object", "src/mtl.rs:Parser::parse_mtlset"]}
{"id": "C68", "title": "The lexer is asked linearly often", "statement": "Whatever the input, obj::parse and mtl::parse ask the lexer for a token (peek or next) at most 8 times per token of the text, plus 9 (plus 4 for MTL), before they return; and the lexer goes over the bytes of the text at most once, never back. The tokens are handed out in the order of the text, and each single one at most 8 times (4 for MTL), and at that moment the lexer has gone over the text exactly up to the end of that token; so all tokens handed out together have at most 8 (4) times the bytes of the text.", "quantifier": "every input text, valid or not; both build modes for OBJ", "why_tests_cant": "A timing test sees a few sizes on one machine and cannot exclude inputs (crafted newlines, empty objects, malformed references) on which the parsers back up or look at the same token again and again.", "anchors": ["src/obj.rs:708-732", "src/obj.rs:1292-1550", "src/mtl.rs:291-351", "src/mtl.rs:628-792", "src/lexer.rs:40-199"]}
{"id": "C69", "title": "The material format as documented", "statement": "docs/mtl_spec.md describes the MTL format. If mtl::parse accepts a file written in the documented statements (with any documented options and optional values), then the result is what the document says the file means; a documented statement is never misread. It accepts exactly the files whose statements have the supported forms: Ka, Kd, Ks with three values, d without -halo, Ns, Ni, illum 0 to 2 and maps without options. Optional values of colours are not supported, although Material could hold the result: `Ka 0.5` is rejected (refuted as a claim).", "quantifier": "every file of documented statements, any number of materials and blank lines", "why_tests_cant": "Quantifies over all documented files.", "anchors": ["src/mtl.rs:Parser::parse_mtlset", "docs/mtl_spec.md"]}
{"id": "C70", "title": "The object format as documented", "statement": "docs/obj_spec.pdf describes the OBJ format. A file made of its polygonal statements (v, vt, vn, p, l, f, g, s, o, usemtl, mtllib, comments and blank lines) is accepted if mtllib comes first, every reference is a positive number of something declared before it in the same object, and every object has an element or a material. The elements of the result, in order, are then the points, lines and triangles (polygons as fans) that the document says the file draws: each with the vertices, texture vertices and normals that the references name, and with the groups, smoothing group, material and object that are in force, except that groups, smoothing group and material are set back at each o. If there is nothing but vertex data in front of any o, the result is what the document says without exception. That state stays on across o, that relative references mean what is documented or are rejected, that references may go to earlier objects, and that mtllib may come anywhere, is refuted.", "quantifier": "every file of the documented polygonal statements, of any length", "why_tests_cant": "Universal over files; the meaning is a second, independent definition written from the document.", "anchors": ["src/obj.rs:Parser::parse_objset", "src/obj.rs:Parser::parse_object", "src/obj.rs:Parser::parse_face", "src/obj.rs:708-1550"]}
{"id": "C71", "title": "Splitting polygons keeps the surface", "statement": "In every successful parse, for each object: the triangles bound what the polygons of its f statements bound, so that anything added up along directed edges (counting an edge and its reverse with opposite signs) gives the same total. A closed surface stays closed and an open one open; the area of the triangles as a vector, in exact real arithmetic, is that of the polygons (Newell's formula), whether they are planar or not; the segments of an l statement run from its first to its last vertex; and the vertices used by the elements are exactly those referred to in the statements.", "quantifier": "every text that parses, every object, polygons of any number of corners", "why_tests_cant": "Universal over files and polygon sizes; the totals range over all edge functions and real coordinates.", "anchors": ["src/obj.rs:Parser::parse_face", "src/obj.rs:Parser::parse_line", "src/obj.rs:Object::get_vtn_triple"]}
{"id": "C72", "title": "Convex polygons are tiled by their triangles", "statement": "In every successful parse: if the corners of an f statement, at the places that its references name, lie in a plane and form a strictly convex polygon, then the triangles it contributes cover exactly the polygon, do not overlap (no point is strictly inside two of them), and all face to the same side as the polygon. If corners may also be repeated or lie on a line (no three of them, in order, turn the other way), the triangles still cover exactly the polygon, those that are not degenerate do not overlap any other, and none is turned over. For concave planar polygons, which README.md also allows, this is false (refuted): triangles can be turned over and lie outside the polygon.", "quantifier": "every text that parses, every f statement, any number of corners, all points of space", "why_tests_cant": "Quantifies over all points of the plane and all convex polygons; exact real geometry.", "anchors": ["src/obj.rs:Parser::parse_face", "src/obj.rs:Object::get_vtn_triple", "README.md:56-58"]}
{"id": "C73", "title": "No counter overflows", "statement": "For every text that fits into memory (at most isize::MAX bytes, the largest allocation), no usize counter overflows while it is read, in either build mode: the line and position counters of the lexer, the line counters of both parsers, and all the element, vertex, index and range counters of the OBJ parser. Counting with machine words (overflow panics in a debug build, wraps in a release build; casts to isize wrap) gives for every text the same result as exact counting.", "quantifier": "every text of at most isize::MAX bytes, both build modes, every state a parser can be in", "why_tests_cant": "Overflow of a 64-bit counter needs texts far larger than any test.", "anchors": ["src/lexer.rs:Lexer::advance", "src/lexer.rs:Lexer::next_token", "src/obj.rs:Parser::next", "src/obj.rs:Parser::parse_object", "src/obj.rs:Parser::calculate_index", "src/mtl.rs:Parser::next"]}
{"id": "C74", "title": "A wrong first word is reported", "statement": "If the first word of a text (behind any blank lines and comments) starts no statement, the parse fails at that word: for OBJ (a word that is not mtllib, o, g, s, usemtl, v, vt, vn, p, l or f) with InvalidObjectStatement, for MTL (a word that is not newmtl) with ExpectedEndOfInput, with the line of the word and its text in the message, whatever follows and in either build mode. So a text that starts with a UTF-8 byte order mark is never accepted, by either parser, even if the text without the mark is.", "quantifier": "every text, every first word, both build modes", "why_tests_cant": "Every first word and every continuation; in particular texts with invisible bytes in front.", "anchors": ["src/obj.rs:Parser::parse_object", "src/obj.rs:Parser::parse_objset", "src/mtl.rs:Parser::parse_mtlset"]}
{"id": "C75", "title": "Debug text determines the value", "statement": "Two calls of obj::parse that return (an object set or an error) and whose results have the same {:?} text returned the same result; likewise for mtl::parse. The same holds of object sets, material sets and parse errors that were not parsed. In these texts every string is a Rust string literal that means exactly this string (so no name, however strange, can imitate other parts of the text), and every finite number has the digits of {} and a point or an exponent and reads back as the same f64. Display ({}) has no such property: object sets that differ in their material libraries have the same text. (NaNs are not told apart; whatever characters beyond ASCII the standard library escapes, and whether or not it writes large numbers with an exponent.)", "quantifier": "every pair of inputs, every pair of values, both build modes, every Unicode table", "why_tests_cant": "Universal over pairs of results, including names with quotation marks, backslashes, control characters and any Unicode.", "anchors": ["src/obj.rs:ObjectSet", "src/obj.rs:Object", "src/obj.rs:ParseError", "src/mtl.rs:MaterialSet", "src/mtl.rs:ParseError"]}
{"id": "C76", "title": "Pretty debug text", "statement": "The {:#?} text of what obj::parse or mtl::parse returns (also of object sets, material sets, errors and vtn triples that were not parsed) is the {:?} text with line breaks: taking these out again gives exactly the {:?} text. There is a line break behind every bracket that opens something and behind every comma, but none inside a string, however many commas and brackets a name contains; every item has a comma behind it; every line is indented by four blanks for every bracket that is open there, a closing bracket like the line that opened it. There are no other line breaks (in particular none between brackets that nothing stands between), and these rules leave only one text. Hence two calls whose results have the same {:#?} text returned the same result.", "quantifier": "every result, every pair of inputs, both build modes, every Unicode table", "why_tests_cant": "Universal over results, including names with line breaks, commas, brackets and quotation marks.", "anchors": ["src/obj.rs:ObjectSet", "src/obj.rs:Object", "src/obj.rs:ParseError", "src/mtl.rs:MaterialSet", "src/mtl.rs:ParseError"]}
{"id": "C77", "title": "Material names in both formats", "statement": "The names that can follow usemtl in an OBJ text are exactly those that can follow newmtl in an MTL text. For every OBJ text that is read there is an MTL text whose materials are, in order, the ones the OBJ text uses; for every MTL text that is read there is an OBJ text (naming any libraries) that uses all its materials in order, each for a point of its own. The stronger claim that a name singles out a material of a library is false: mtl::parse returns materials of the same name.", "quantifier": "every UTF-8 OBJ text and every UTF-8 MTL text that is read, both build modes", "why_tests_cant": "Universal over names in two languages read by two different parsers; a test can only try single names.", "anchors": ["src/obj.rs:parse_material_name", "src/mtl.rs:parse_newmtl", "src/obj.rs:parse", "src/mtl.rs:parse"]}
{"id": "C78", "title": "What the parsers give is said completely", "statement": "For every text and build mode exactly one outcome (a result, an error with its kind, message and line, or a panic) is described by the declared languages, their meaning, and the declared places of errors and panics, and it is the outcome of obj::parse (of mtl::parse). So any other program of which the description is true gives the same outcome for every text.", "quantifier": "every input not longer than isize::MAX bytes (for MTL every input), both build modes, every outcome, every other program", "why_tests_cant": "Completeness of a description over all inputs and all programs cannot be tested.", "anchors": ["src/obj.rs:parse", "src/mtl.rs:parse"]}
{"id": "C79", "title": "The Display texts, exactly, and what they determine", "statement": "Display shows an index, element, group, smoothing group, parse error, object or object set as one declared text and no other: 1-based positions and counts without superfluous zeros, coordinates as the shortest decimal text of the number, the first and the last entry of each list. Two parsed object sets have the same text exactly when they have as many objects, with the same names, whose lists have the same lengths and the same first and last entries.", "quantifier": "every value whose indices are below usize::MAX and whose numbers are f64, every byte string as the text; every two texts that parse, all build modes", "why_tests_cant": "That a text is shown for no other parsed set is a statement about all pairs of inputs; tests compare single texts.", "anchors": ["src/obj.rs:fmt", "src/obj.rs:compose_set", "src/obj.rs:compose"]}
{"id": "C80", "title": "Hashing of error kinds", "statement": "The hash of an mtl::ErrorKind (the only type of the crate that can be hashed) agrees with ==: two kinds, or two sequences of kinds, are equal exactly when every hasher, from every state, ends in the same state for both. A kind is given to the hasher as one number from 0 to 6.", "quantifier": "every pair of kinds and of sequences of kinds, every hasher (any state, any write_isize), every state", "why_tests_cant": "Tests can use one hasher; the contract of Hash and Eq is about all of them.", "anchors": ["src/mtl.rs:ErrorKind"]}
{"id": "C81", "title": "Platforms with smaller words", "statement": "Where usize and isize have fewer than 64 bits, obj::parse in a release build gives the same objects, the same panic, or an error in the same line as with 64 bits, unless a smoothing group has a number that is no usize of the platform, which is then the error SmoothingGroupNameMustBeOffOrInteger. The errors are equal, except that an index out of range may be reported as no integer, or with another number in the message. In a debug build the only further difference is a panic because of an overflow, on either side. mtl::parse gives the same result, except that an illumination model whose number is no usize of the platform is the error ExpectedInteger instead of UnknownIlluminationModel, in the same line. The positions and line numbers of the lexer do not overflow.", "quantifier": "every word size from 8 to 64 bits, every text of at most isize::MAX bytes of that platform, both build modes", "why_tests_cant": "A test runs on one platform; the differences need indices and group numbers near the limits of the words.", "anchors": ["src/obj.rs:parse", "src/obj.rs:Parser::calculate_index", "src/obj.rs:Parser::parse_isize", "src/obj.rs:Parser::parse_smoothing_group", "src/mtl.rs:Parser::parse_usize"]}
