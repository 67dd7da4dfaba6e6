{"id": "C01", "title": "Bit-depth normalisation is undone by the matching denormalisation", "statement": "normalizedToBitDepth(bitDepthToNormalized(v, d), d) gives back v, and the other order does too; a depth string that is not one of 8i/10i/12i/16i leaves v as it is in both directions; bitDepthSize(d) is the code value that normalises to 1.", "quantifier": "every numeric value v and every bit-depth string d (known or not), in exact arithmetic", "why_tests_cant": "the value range is continuous and the set of depth strings is infinite", "anchors": ["python/aces/clf/ProcessNode.py: bitDepthToNormalized, normalizedToBitDepth, bitDepthSize"]}
{"id": "C02", "title": "A clamping Range never leaves its output interval", "statement": "If a Range has all four limits, clamps (style absent or 'clamp') and minOut <= maxOut, every component of the result of process lies between minOutValue and maxOutValue, whatever the input component is; with NaN or infinite inputs (IEEE arithmetic) the value clamped is still a number within the interval and NaN goes to the lower limit.", "quantifier": "every buffer length and content, all limits with minOut <= maxOut, every pair of bit depths, NaN and infinities included", "why_tests_cant": "tests sample a few inputs; the claim is about all reals and all IEEE special values", "anchors": ["python/aces/clf/Range.py: Range.process", "python/aces/clf/Common.py: clamp"]}
{"id": "C03", "title": "A Range with four limits is the affine map through its two anchor points", "statement": "A Range with four limits and minIn < maxIn sends minInValue to minOutValue and maxInValue to maxOutValue, is order preserving when minOut <= maxOut (a clamping Range needs minOut <= maxOut for its anchors too: with minOut > maxOut it is constantly maxOut), and in noClamp style is exactly the affine map through the two anchors; the Range with input and output sides exchanged undoes it (noClamp always; clamping for inputs inside [minIn, maxIn]).", "quantifier": "every set of limits with minIn < maxIn, every input value, every pair of bit depths, exact arithmetic", "why_tests_cant": "an identity over a continuum of parameters and inputs", "anchors": ["python/aces/clf/Range.py: Range.process"]}
{"id": "C04", "title": "Range with incomplete limits", "statement": "A Range that has both minimum limits but not both maximum limits shifts by minOut-minIn and (clamping) is bounded below by minOut; with both maximum limits but not both minimum limits it shifts by maxOut-maxIn and is bounded above by maxOut; with any other incomplete combination and no defaultRange attribute it converts the bit depth and does nothing else (never clamps, whatever the style); with a defaultRange attribute present, missing limits count as 0 and 1.", "quantifier": "every subset of the four limits, every style, every value", "why_tests_cant": "16 subsets of limits times a continuum of values", "anchors": ["python/aces/clf/Range.py: Range.process, Range.setDefaultRange"]}
{"id": "C05", "title": "Range works element by element on the caller's own buffer", "statement": "Range.process ignores the stride: every element of the buffer, alpha and incomplete trailing pixels included, is mapped by the same scalar function of that element alone; the length is kept; the array passed in is overwritten and is the object returned.", "quantifier": "every buffer length and content, every stride", "why_tests_cant": "all lengths and contents; aliasing is invisible to value tests", "anchors": ["python/aces/clf/Range.py: Range.process"]}
{"id": "C06", "title": "When Range.process fails", "statement": "Range.process raises only ZeroDivisionError, and does so exactly when the buffer is not empty, all four limits are in force and the two normalised input limits coincide.", "quantifier": "every Range built through the API and every buffer", "why_tests_cant": "absence of any other failure over all inputs", "anchors": ["python/aces/clf/Range.py: Range.process"]}
{"id": "C07", "title": "Matrix.process is the affine map its array describes", "statement": "For dim [n, n, c] or [n, n+1, c] and pixels of at least n channels, output channel i < n is the sum over j of m[i][j]*in[j] (plus the last column when there are n+1 columns); channels n and up are copied; bit depths do not enter.", "quantifier": "every n, every matrix, every pixel width >= n and every number of pixels", "why_tests_cant": "all sizes and a continuum of coefficients", "anchors": ["python/aces/clf/Matrix.py: Matrix.process, Matrix.setMatrix"]}
{"id": "C08", "title": "Matrices compose like matrices", "statement": "Running matrix A and then matrix B over a buffer equals running the single matrix of the product affine map; the identity matrix leaves every buffer of whole pixels as it is.", "quantifier": "every size n, every pair of n x n / n x n+1 matrices, every buffer; exact arithmetic", "why_tests_cant": "an identity over all sizes and coefficients", "anchors": ["python/aces/clf/Matrix.py: Matrix.process"]}
{"id": "C09", "title": "When Matrix.process fails", "statement": "With an array of the size its dimensions announce, Matrix.process succeeds exactly when the pixel has at least dim[0] channels; with fewer channels it raises IndexError (it never silently uses a smaller matrix).", "quantifier": "every dimension and pixel width", "why_tests_cant": "all sizes", "anchors": ["python/aces/clf/Matrix.py: Matrix.process"]}
{"id": "C10", "title": "Pixels are processed independently", "statement": "Processing a buffer of k whole pixels with a stride equals processing each pixel on its own and concatenating, for every node type except ExposureContrast and hence for every ProcessList (with Groups and References) built from the others.", "quantifier": "every node and parameter, every process list, every stride >= 3, every number of pixels, any arithmetic", "why_tests_cant": "all list lengths, nesting depths and pixel counts", "anchors": ["python/aces/clf/ProcessList.py: ProcessList.process", "python/aces/clf/Matrix.py", "python/aces/clf/LUT1D.py", "python/aces/clf/LUT3D.py", "python/aces/clf/ASCCDL.py", "python/aces/clf/ExtensionGamma.py", "python/aces/clf/ExtensionLog.py", "python/aces/clf/Range.py", "python/aces/clf/ExtensionGroup.py", "python/aces/clf/ExtensionReference.py"]}
{"id": "C11", "title": "Extra channels pass through colour nodes unchanged", "statement": "LUT1D, LUT3D, ASC_CDL, Gamma and Log return channels 4 and up of every pixel bit-for-bit as they came in; ExposureContrast does so only for the first pixel: every later pixel receives the first pixel's extra channels.", "quantifier": "every node, stride and number of pixels, any arithmetic", "why_tests_cant": "all strides and pixel counts", "anchors": ["python/aces/clf/LUT1D.py: LUT1D.process", "python/aces/clf/ExtensionExposureContrast.py: ExposureContrast.process (line 166)"]}
{"id": "C12", "title": "Length is preserved and an incomplete trailing pixel becomes zeros", "statement": "Every node and every ProcessList returns as many values as it was given; when the length is not a multiple of the stride, the stride-based nodes return zeros for the left-over values instead of the input.", "quantifier": "every node, buffer and stride", "why_tests_cant": "all lengths", "anchors": ["python/aces/clf/Matrix.py: Matrix.process", "python/aces/clf/LUT1D.py: LUT1D.process"]}
{"id": "C13", "title": "ProcessList.process is a pure function of the list and the values", "statement": "ProcessList.process never modifies the sequence passed in, while a node's own process does overwrite an array passed to it (the input afterwards holds the node's output) for LUT1D, LUT3D, ASC_CDL, Gamma, Log and Range but not for Matrix.", "quantifier": "every process list, node, buffer, stride, compatibility setting", "why_tests_cant": "aliasing over all nestings", "anchors": ["python/aces/clf/ProcessList.py: ProcessList.process (346)", "python/aces/clf/LUT1D.py: LUT1D.process (168-169)"]}
{"id": "C14", "title": "A process list is the composition of its nodes", "statement": "If the nodes next to the seam are not bypassed, processing with list A+B equals processing with A and feeding the result to B, including failures; the empty list only rounds to float32.", "quantifier": "every pair of lists, any arithmetic whose float32 rounding is idempotent", "why_tests_cant": "all list lengths", "anchors": ["python/aces/clf/ProcessList.py: ProcessList.process"]}
{"id": "C15", "title": "Bypass", "statement": "With the Autodesk feature enabled a node that carries a bypass attribute, whatever its value, is skipped: the result equals that of the list without the node whenever its neighbours are not bypassed and their depths agree, or it is first or last; with the feature disabled the attribute has no effect. In particular bypass=\"False\" in a file still bypasses the node.", "quantifier": "every list, every position, every attribute value, every compatibility word", "why_tests_cant": "all positions and lists", "anchors": ["python/aces/clf/ProcessList.py: ProcessList.process (357-389)", "python/aces/clf/ProcessNode.py: ProcessNode.read (197-201)"]}
{"id": "C16", "title": "A run of bypassed nodes rescales exactly from the depth before it to the depth after it", "statement": "In a list whose neighbouring depths agree, the effect of any interior run of bypassed nodes is the single linear change from the depth delivered by the node before the run to the depth expected by the node after it, with no clamping.", "quantifier": "every run length and position, every mix of depths, exact arithmetic", "why_tests_cant": "runs of any length", "anchors": ["python/aces/clf/ProcessList.py: ProcessList.process (378-389)"]}
{"id": "C17", "title": "A Group means the same as its nodes written inline", "statement": "With the Autodesk feature enabled (or when no grouped node carries bypass), a Group gives the same result as its nodes spliced into the list, provided its first and last node and the Group's neighbours are not bypassed; with the feature disabled it does not: a Group still skips bypassed nodes where a ProcessList runs them.", "quantifier": "every list, every group, every nesting", "why_tests_cant": "all nestings", "anchors": ["python/aces/clf/ExtensionGroup.py: Group.process (125)", "python/aces/clf/ProcessList.py: ProcessList.process (357)"]}
{"id": "C18", "title": "A resolved Reference means the same as the referenced list; an unresolved one is a no-op", "statement": "A Reference whose file exists processes exactly like the referenced process list; one whose file is missing returns the values unchanged, silently.", "quantifier": "every referenced list and buffer", "why_tests_cant": "all lists", "anchors": ["python/aces/clf/ExtensionReference.py: Reference.process, setPaths"]}
{"id": "C19", "title": "A 1D LUT returns its entries at its sample positions", "statement": "With linear interpolation, looking up the position k/(n-1) in an n-entry, 1- or 3-channel LUT gives exactly entry k of that channel, and positions below 0 or above 1 give the first or last entry.", "quantifier": "every LUT size n >= 2, every table, every k, every channel; exact arithmetic", "why_tests_cant": "all sizes and tables", "anchors": ["python/aces/clf/Array.py: lookup1D, lookup1DLinear", "python/aces/clf/LUT1D.py: LUT1D.process"]}
{"id": "C20", "title": "1D interpolation stays between the neighbouring entries and is monotone for monotone tables", "statement": "The interpolated value lies between the two entries that bracket the position; if a channel's entries are non-decreasing, so is the lookup as a function of position.", "quantifier": "every LUT size, table, position and channel; exact arithmetic", "why_tests_cant": "a continuum of positions and all tables", "anchors": ["python/aces/clf/Array.py: lookup1DLinear"]}
{"id": "C21", "title": "The channels of a 1D LUT do not influence one another", "statement": "In LUT1D.process output channel i (i < 3) depends only on input channel i; a table with a channel count other than 3 applies the same flat table to every channel.", "quantifier": "every node, pixel and stride, any arithmetic", "why_tests_cant": "non-interference quantifies over pairs of inputs", "anchors": ["python/aces/clf/LUT1D.py: LUT1D.process", "python/aces/clf/Array.py: lookup1D"]}
{"id": "C22", "title": "A LUT sampled from a function by the library reproduces it", "statement": "simpleSampledLUT(f) looked up at i/(n-1) is f(i/(n-1)), and is exact everywhere for affine f (so the default f is the identity on [0,1]).", "quantifier": "every f, resolution n >= 2, channel count 1 or 3; exact arithmetic", "why_tests_cant": "all functions and sizes", "anchors": ["python/aces/clf/LUT1D.py: simpleSampledLUT"]}
{"id": "C23", "title": "Looking up a well-formed LUT never fails", "statement": "For a 1D LUT with at least one entry and an array of the announced size (no cubic interpolation), LUT1D.process raises nothing for any float32 input including NaN and infinities; under linear interpolation NaN comes out as NaN and an infinity as that infinity (NaN if the table has one entry).", "quantifier": "every well-formed table, every input; any arithmetic", "why_tests_cant": "absence of failures over all inputs", "anchors": ["python/aces/clf/Array.py: lookup1DLinear, lookup1DHalfDomainInterpolated", "python/aces/clf/LUT1D.py: LUT1D.process"]}
{"id": "C24", "title": "interpolation='cubic' can never be used", "statement": "LUT1D.process with interpolation 'cubic' raises for every table and every buffer holding at least one pixel, with NameError when the node has no IndexMap and its array has dimensions.", "quantifier": "every node and buffer", "why_tests_cant": "a failure for all inputs", "anchors": ["python/aces/clf/Array.py: lookup1DCubic (513-514)"]}
{"id": "C25", "title": "IndexMap evaluation is total, bounded and exact at its knots", "statement": "An IndexMap with as many outputs as inputs (at least one) never fails and never divides by zero, sorted or not; results stay within the smallest and largest output; with strictly increasing inputs each knot maps to its output and values outside saturate; with non-decreasing outputs it is monotone.", "quantifier": "every knot list and every value (exact arithmetic for the bounds, any ordered arithmetic for totality)", "why_tests_cant": "all knot lists, including unsorted ones", "anchors": ["python/aces/clf/IndexMap.py: IndexMap.process, _processRaw"]}
{"id": "C26", "title": "Half-domain LUTs return the entry of the half-float code of the value", "statement": "With halfDomain, a value that is exactly a half-float gets the table entry at that half's 16-bit code if the entries next to it are finite (up to the sign of zero; false when a neighbouring entry is infinite or NaN); any finite value gets a blend of the entries of the two neighbouring half codes with weights in [0,1], values beyond the largest half but rounding to it its entry; NaN, overflow upwards (+inf) and overflow downwards (-inf) get entries 31745, 31744 and 64512.", "quantifier": "every table and every float32 input", "why_tests_cant": "2^32 inputs times all tables", "anchors": ["python/aces/clf/Array.py: lookup1DHalfDomainInterpolated"]}
{"id": "C27", "title": "A cubic 3D LUT returns its entries at its lattice points", "statement": "For an n*n*n table (blue fastest), both trilinear and tetrahedral lookup at (i,j,k)/(n-1) return exactly entry (i,j,k).", "quantifier": "every n >= 2, every table, every lattice point; exact arithmetic", "why_tests_cant": "all sizes and tables", "anchors": ["python/aces/clf/Array.py: lookup3D, lookup3DTrilinear, lookup3DTetrahedral"]}
{"id": "C28", "title": "3D interpolation stays within the surrounding entries", "statement": "Each output channel of trilinear and tetrahedral lookup lies between the least and greatest of the eight surrounding lattice entries of that channel; inputs outside [0,1] behave like the nearest input inside.", "quantifier": "every n >= 2, table and position; exact arithmetic", "why_tests_cant": "a continuum of positions and all tables", "anchors": ["python/aces/clf/Array.py: lookup3DTrilinear, lookup3DTetrahedral"]}
{"id": "C29", "title": "3D interpolation is exact on affine colour transforms", "statement": "A table sampled from an affine map of RGB (in particular the default identity table of simple3DLUT) reproduces that map at every position of the unit cube, with either interpolation.", "quantifier": "every n >= 2, every affine map, every position; exact arithmetic", "why_tests_cant": "a continuum of maps and positions", "anchors": ["python/aces/clf/LUT3D.py: simple3DLUT, LUT3D.process", "python/aces/clf/Array.py: lookup3DTrilinear, lookup3DTetrahedral"]}
{"id": "C30", "title": "Tetrahedral interpolation is continuous across its six regions", "statement": "On the planes where two interpolation fractions are equal the formulas of the adjacent tetrahedra give the same colour, so the choice of branch (> against >=) is unobservable.", "quantifier": "every set of eight corner colours and all fractions; exact arithmetic", "why_tests_cant": "a continuum", "anchors": ["python/aces/clf/Array.py: lookup3DTetrahedral (665-774)"]}
{"id": "C31", "title": "Non-cubic 3D LUTs", "statement": "For a table with different resolutions per axis in blue-fastest order, lookup does not return the stored entries in general: it uses strides dim[0]*dim[1] and dim[1] instead of dim[1]*dim[2] and dim[2], and can even fail; it is right whenever dim[0]=dim[1]=dim[2].", "quantifier": "all dimensions", "why_tests_cant": "all sizes", "anchors": ["python/aces/clf/Array.py: lookup3D (541)"]}
{"id": "C32", "title": "A well-formed cubic 3D LUT never fails", "statement": "LUT3D.process with a cubic table of the announced size and trilinear or tetrahedral interpolation raises nothing for pixels of at least three channels, including NaN and infinite inputs, and any arithmetic satisfying the clamp law; an unknown interpolation name skips the lookup and only normalises.", "quantifier": "every n >= 1, table, pixel", "why_tests_cant": "absence of failures over all inputs", "anchors": ["python/aces/clf/LUT3D.py: LUT3D.process"]}
{"id": "C33", "title": "Clamping CDL output is in range", "statement": "ASC_CDL in styles Fwd and Rev returns colour components within the output depth's full range for every input and parameter.", "quantifier": "every slope, offset, power, saturation and pixel", "why_tests_cant": "a continuum", "anchors": ["python/aces/clf/ASCCDL.py: ASCCDL.process"]}
{"id": "C34", "title": "CDL saturation preserves luma and defaults are neutral", "statement": "The saturation step of FwdNoClamp leaves the Rec.709 luma of the pixel unchanged; slope 1, offset 0, power 1, saturation 1 clamps to [0,1] in style Fwd and is the identity on all values for FwdNoClamp.", "quantifier": "every pixel and saturation; exact arithmetic", "why_tests_cant": "a continuum", "anchors": ["python/aces/clf/ASCCDL.py: ASCCDL.process"]}
{"id": "C35", "title": "CDL Rev undoes Fwd", "statement": "Rev(Fwd(x)) = x for every pixel whose intermediate values are not clamped, with slope != 0, power > 0 and saturation != 0; RevNoClamp does not undo FwdNoClamp: it clamps its saturated value to [0,1], so values above 1 are lost.", "quantifier": "every parameter set and pixel; exact arithmetic", "why_tests_cant": "a continuum; the failure needs a witness and a region", "anchors": ["python/aces/clf/ASCCDL.py: ASCCDL.process (207-223)"]}
{"id": "C36", "title": "CDL style gating and ColorCorrection", "statement": "The Autodesk style names (v1.2_Fwd, noClampFwd, v1.2_Rev, noClampRev) raise UnsupportedExtensionError unless the Autodesk feature is on and otherwise mean the same as their CLF names; an unknown style passes colours through; a ColorCorrection built by its constructor raises KeyError on every pixel of three or more channels.", "quantifier": "every node, pixel and compatibility word", "why_tests_cant": "all inputs", "anchors": ["python/aces/clf/ASCCDL.py: ASCCDL.process, ColorCorrection.__init__"]}
{"id": "C37", "title": "basicRev undoes basicFwd", "statement": "For gamma > 0 Gamma basicRev after basicFwd is the identity on non-negative values and sends negative values to 0; basicFwd is monotone.", "quantifier": "every gamma > 0 per channel and every value; exact arithmetic", "why_tests_cant": "a continuum", "anchors": ["python/aces/clf/ExtensionGamma.py: Gamma.process"]}
{"id": "C38", "title": "moncurveRev against moncurveFwd", "statement": "For gamma > 1 and offset > 0, moncurveRev undoes moncurveFwd for inputs up to the breakpoint offset/(gamma-1) and for inputs whose image exceeds offset/(gamma-1); between them (a non-empty gap exactly when offset differs from gamma-1) the wrong breakpoint test makes it return a different value.", "quantifier": "every gamma > 1, offset > 0, value; exact arithmetic", "why_tests_cant": "a continuum; a region of failure", "anchors": ["python/aces/clf/ExtensionGamma.py: Gamma.process (173-174)"]}
{"id": "C39", "title": "Log styles invert one another", "statement": "antiLog10 undoes log10 and antiLog2 undoes log2 on every value not below the float minimum, and log undoes antilog for exponents above log10 of it; logToLin and linToLog with the same parameters undo each other wherever the floor is not hit.", "quantifier": "every parameter set and value; exact arithmetic", "why_tests_cant": "a continuum", "anchors": ["python/aces/clf/ExtensionLog.py: Log.process"]}
{"id": "C40", "title": "ExposureContrast styles", "statement": "Style linear with exposure 0, contrast 1, positive pivot is the identity on non-negative values and maps the pivot to itself for any contrast; style video raises for every buffer with at least one pixel (TypeError when the pivot is positive) and style log raises NameError; channels beyond the third of every pixel become those of the first pixel.", "quantifier": "every parameter set and pixel", "why_tests_cant": "a continuum / failure for all inputs", "anchors": ["python/aces/clf/ExtensionExposureContrast.py: ExposureContrast.process"]}
{"id": "C41", "title": "Gamma, Log and ExposureContrast need three channels", "statement": "With a stride (or single-pixel length) below three these nodes raise an exception, never returning colours, whenever at least one pixel is present and the style is a known one, whereas LUT1D, Matrix (n <= stride), Range and ASC_CDL accept it.", "quantifier": "every node and buffer", "why_tests_cant": "all inputs", "anchors": ["python/aces/clf/ExtensionGamma.py: Gamma.process (146)", "python/aces/clf/ASCCDL.py: ASCCDL.process (129)"]}
{"id": "C42", "title": "Array text encodings round-trip", "statement": "Writing an Array with a bit encoding (integer16/32/64bit, hex16/32/64bit or rawHalfs) and reading the element back returns the same dimensions and, bit for bit, the values rounded to that format; with the plain text form each value comes back as the float32 nearest to a decimal within 0.5e-9 of it. A trailing incomplete row is dropped; hex32bit fails with OverflowError for finite values too large for a float32.", "quantifier": "every array shape and content", "why_tests_cant": "all arrays", "anchors": ["python/aces/clf/Array.py: Array.write, Array.read", "python/aces/clf/Common.py: hex/int conversions"]}
{"id": "C43", "title": "The integer flag of an Array never changes what is written", "statement": "Array.write produces the same text whether or not values are flagged as integers (integer bit depths do not yield integer text).", "quantifier": "every array without NaN/inf (for which the flagged array cannot be written)", "why_tests_cant": "all arrays", "anchors": ["python/aces/clf/Array.py: Array.write (154-201)"]}
{"id": "C44", "title": "Encoding feature gate", "statement": "With the Duiker Research feature off, setFloatEncoding raises and leaves 'string'; writing an array with a complete row whose encoding is not 'string' raises UnsupportedExtensionError; reading an encoded array is never refused.", "quantifier": "every array, encoding and compatibility word", "why_tests_cant": "all inputs", "anchors": ["python/aces/clf/Array.py: setFloatEncoding, write, read"]}
{"id": "C45", "title": "A process list survives write and read", "statement": "Reading back the element tree a ProcessList writes gives a list with the same attributes, descriptions, nodes, parameters and nesting (numbers as the text format keeps them: 12 significant digits for parameters, nine decimals or the chosen encoding for arrays); it processes identically if every number is kept exactly and arrays are already of the kind reading makes (a Matrix whose array holds doubles may change in the last float32 bit). The same holds for saving to and opening from a file, gzipped or not. (IndexMaps must have been given a dimension, see C77.)", "quantifier": "every process list over the modelled node types", "why_tests_cant": "all lists and nestings", "anchors": ["python/aces/clf/ProcessList.py: ProcessList.write/read", "python/aces/clf/ProcessNode.py: ProcessNode.write/read"]}
{"id": "C46", "title": "Strict reading rejects, lenient reading skips, unknown elements", "statement": "In strict mode a child of unknown type makes read raise UnknownProcessNodeError, unless earlier content already fails; otherwise the result equals that of the document without it. Inside a Group unknown children are skipped even in strict mode.", "quantifier": "every document", "why_tests_cant": "all documents and positions", "anchors": ["python/aces/clf/ProcessList.py: ProcessList.read", "python/aces/clf/ExtensionGroup.py: Group.readChild"]}
{"id": "C47", "title": "Feature gating while reading", "statement": "In strict mode a document whose top level holds an ExposureContrast, Gamma, Log or Reference (Autodesk) or a Group (Duiker Research) is rejected exactly when the feature is off; in lenient mode such nodes are kept and run; extension nodes inside a Group are never checked.", "quantifier": "every document and compatibility word", "why_tests_cant": "all documents", "anchors": ["python/aces/clf/ProcessList.py: ProcessList.read (212-222)"]}
{"id": "C48", "title": "Tag normalisation", "statement": "An element is recognised irrespective of its namespace and of '-' and '_' characters in its tag; whole documents that differ in nothing else are read alike.", "quantifier": "every tag and namespace without '}'", "why_tests_cant": "infinitely many tags", "anchors": ["python/aces/clf/ProcessNode.py: getElementType"]}
{"id": "C49", "title": "Gzip and plain files read alike; errors are masked", "statement": "With the Duiker Research feature on, a gzipped and a plain file of one document load to the same list when reading succeeds; when reading of a gzipped file fails for any reason, strict or not, the caller sees an XML parse error instead of the real one; with the feature off a gzipped file is not readable.", "quantifier": "every document", "why_tests_cant": "all documents", "anchors": ["python/aces/clf/ProcessList.py: readFile (238-257)"]}
{"id": "C50", "title": "Saving is not atomic", "statement": "If serialisation or the gzip feature check fails the target file is untouched; but the file is emptied before writing, so after a crash between opening and finishing the write the old content is lost, and an emptied file does not open.", "quantifier": "every file content and crash point", "why_tests_cant": "all crash points", "anchors": ["python/aces/clf/ProcessList.py: writeFile (150-177)"]}
{"id": "C51", "title": "Self-contained writing inlines top-level references only", "statement": "writeFile(writeSelfContained=True) replaces each top-level resolved Reference by the referenced nodes (and the written list processes the same when no bypass attribute is involved); a Reference inside a Group or inside a referenced list is still written as a reference; an unresolved one makes the write fail.", "quantifier": "every list", "why_tests_cant": "all nestings", "anchors": ["python/aces/clf/ProcessList.py: write (139-143)", "python/aces/clf/ExtensionReference.py: Reference.write", "python/aces/clf/ExtensionGroup.py: Group.write"]}
{"id": "C52", "title": "Cyclic references never load", "statement": "A file that (transitively) references itself cannot be read: with any recursion limit reading raises; for files with an acyclic reference graph the limit stops mattering once large enough, and they load if each file reached is a readable document or absent.", "quantifier": "every file system and recursion depth", "why_tests_cant": "all depths", "anchors": ["python/aces/clf/ExtensionReference.py: setPaths"]}
{"id": "C53", "title": "SPI 1D files round-trip", "statement": "Reading a .spi1d file the library wrote gives a LUT with the written resolution, channel count, samples and input range (numbers as printed), as a Range node exactly when the range is not [0,1] followed by a LUT1D; read for the inverse it gives the inverse (by IndexMaps, over the halfs or resampled, as asked) of that table over that range; reading fails on a version 1 file with a blank line. The kind of line ends, a missing last one, and blanks at the end of lines make no difference to .spi1d, .spi3d and .csp files.", "quantifier": "every resolution, channel count, sample list, range and way of printing the samples as words float() reads", "why_tests_cant": "all sizes", "anchors": ["python/aces/lutFormats/LutSPI.py: writeSPI1D, readSPI1D"]}
{"id": "C54", "title": "SPI 3D files round-trip but lose the input range", "statement": "Reading a .spi3d file the library wrote, cubic or not, gives a LUT3D whose entry (i,j,k) is sample [i][j][k] as printed; the input range given to write is not recorded, so files written for different ranges are identical.", "quantifier": "every resolution and data", "why_tests_cant": "all sizes", "anchors": ["python/aces/lutFormats/LutSPI.py: writeSPI3D, readSPI3D"]}
{"id": "C55", "title": "CSP files round-trip", "statement": "Reading a .csp file the library wrote (1D or cubic 3D) yields the same samples at the same lattice positions (red-fastest in the file, blue-fastest in the CLF table) and a Range for the written input interval, numbers with six decimals; a one-column 1D file is repeated for three channels, a two-column one reads as zeros; tables with differing resolutions are not read back right.", "quantifier": "every resolution and data", "why_tests_cant": "all sizes", "anchors": ["python/aces/lutFormats/LutCSP.py: writeCSP1D, writeCSP3D, readCSP"]}
{"id": "C56", "title": "CTL 1D export", "statement": "In a three-channel .ctl 1D LUT written by the library every one of the three tables holds the red samples; green and blue are lost. The CTL program (one or three tables, or a cube) passes each channel through its table over the interval given, and alpha unchanged. The cube of a 3D file lists every sample in order.", "quantifier": "every resolution and data", "why_tests_cant": "all sizes", "anchors": ["python/aces/lutFormats/LutCTL.py: writeCTL1D (179)"]}
{"id": "C57", "title": "Inverting a 1D LUT with an IndexMap is a true inverse", "statement": "For samples strictly increasing in every channel, the process nodes built by generateLUT1DInverseIndexMap undo the forward LUT (Range + LUT1D) for every input in [minIn, maxIn], and are undone by it for every value between the first and last entry.", "quantifier": "every LUT size n >= 2, samples, input range and value; exact arithmetic", "why_tests_cant": "a continuum and all sizes", "anchors": ["python/aces/lutFormats/Sampling.py: generateLUT1DInverseIndexMap"]}
{"id": "C58", "title": "Half-domain inversion ignores the input range", "statement": "generateLUT1DInverseHalfDomain stores for every half value its position in the table (0 at the first entry, 1 at the last) whatever minIn/maxIn are, so it undoes the forward LUT for at most one input range.", "quantifier": "every LUT and range", "why_tests_cant": "all LUTs", "anchors": ["python/aces/lutFormats/Sampling.py: generateLUT1DInverseHalfDomain"]}
{"id": "C59", "title": "Sampling covers the interval and is exact at the lattice", "statement": "sample1D / sample3D evaluate the list exactly at min + i/(n-1)*(max-min), including both end points, in order; sample3D fails whenever the first and last resolution differ, and a resolution of 1 raises ZeroDivisionError.", "quantifier": "every list, resolution and interval", "why_tests_cant": "all sizes", "anchors": ["python/aces/lutFormats/Sampling.py: sample1D, sample3D"]}
{"id": "C60", "title": "Shapers", "statement": "createShaper's forward and inverse lists undo each other on the shaper's domain (log2: ranges above the smallest float); other types give empty lists; sample1D3D1D fills the output LUT from the input shaper's inverse, so it is right only when both shapers are the same.", "quantifier": "every shaper kind and range", "why_tests_cant": "a continuum", "anchors": ["python/aces/lutFormats/Sampling.py: createShaper, sample1D3D1D (517)"]}
{"id": "C61", "title": "CLF 1D-3D-1D export", "statement": "The input shaper LUT written to a .clf is the inverse of the sampled shaper rather than the shaper; the written list agrees with the sampled transform at lattice points for the identity shaper on [0,1] and disagrees for a linear shaper on another range.", "quantifier": "every transform, resolution and range", "why_tests_cant": "all inputs", "anchors": ["python/aces/lutFormats/LutCLF.py: writeCLF1D3D1D"]}
{"id": "C62", "title": "Format dispatch does not depend on registration order", "statement": "Registry.read and Registry.write choose the same format and give the same result for every iteration order of the registry: the format is fixed by the lower-cased text after the last dot of the file name (and the kind of LUT to write); unsupported extensions and lists that cannot be sampled touch no file; write returns None whether or not it wrote.", "quantifier": "every permutation of the registry, path, request", "why_tests_cant": "all orders and paths", "anchors": ["python/aces/lutFormats/Registry.py: read, write", "python/aces/lutFormats/LutFormat.py"]}
{"id": "C63", "title": "Image filtering does not depend on the thread schedule", "statement": "With multithreading the filtered image of two or more rows equals the row-by-row map of the process list (and the pixel-by-pixel map, for lists without ExposureContrast) for every number of workers and completion order; if any row fails, nothing is written; the pool never gets stuck.", "quantifier": "every image, list, worker count and schedule", "why_tests_cant": "all interleavings", "anchors": ["python/aces/filterImageWithCLF.py: filterImageWithCLF, filterRow_parallel"]}
{"id": "C64", "title": "Single-threaded filtering processes one row only", "statement": "With multithreading off, only image row 5 is processed and all other output samples are zero, so the result differs from the multithreaded one; images of fewer than six rows raise an exception; one-row images always fail, with any number of threads.", "quantifier": "every image", "why_tests_cant": "all images", "anchors": ["python/aces/filterImageWithCLF.py: filterImageWithCLF (589-597), filterRow_stride"]}
{"id": "C65", "title": "Integer pixel packing", "statement": "Reading 10/12-bit images shifts 16-bit samples right and writing shifts left, so codes round-trip exactly; writing truncates rather than rounds, and wraps modulo the type size outside the range; NaN and infinities make writing an integer image fail; an image whose metadata carries bits per sample cannot be written as 16f or 32f (KeyError).", "quantifier": "every code and value", "why_tests_cant": "all codes", "anchors": ["python/aces/filterImageWithCLF.py: readPixelArray, writePixelArray"]}
{"id": "C66", "title": "OCIO matrix conversion", "statement": "convertMatrixToProcessNode preserves the transform for 9-, 12- and 16-element matrices when the alpha row/column is trivial and no entry it fails to inspect (11, 14, 15) matters; it drops entries 11, 14 and 15 otherwise, and drops the offset of any matrix it does not reduce.", "quantifier": "every matrix and offset; exact arithmetic", "why_tests_cant": "a continuum", "anchors": ["python/aces/convertOCIOtoCLF.py: convertMatrixToProcessNode"]}
{"id": "C67", "title": "OCIO groups are flattened and unconvertible parts vanish", "statement": "Converting a group of OCIO transforms gives the concatenated nodes of its members; an inverse matrix, a logarithm of a base other than 2 or 10 and an unknown transform contribute no node and no error, so the result is that of the group without them; logarithms of base 2 and 10 become nodes computing log and its inverse.", "quantifier": "every transform tree", "why_tests_cant": "all trees", "anchors": ["python/aces/convertOCIOtoCLF.py: convertTransformsToProcessNodes, convertLogToProcessNode"]}
{"id": "C68", "title": "Default stride", "statement": "process(values) without a stride (0) equals process(values, stride=len(values)) for every node, list and nonempty buffer: the whole buffer is one pixel, so channels after the third are left as extra channels.", "quantifier": "every node, list and nonempty buffer; every arithmetic", "why_tests_cant": "all lists and lengths", "anchors": ["python/aces/clf/ProcessList.py: process", "python/aces/clf/ProcessNode.py: process of each node"]}
{"id": "C69", "title": "Resampled inversion is exact only at its own sample points", "statement": "For strictly increasing samples the nodes built by generateLUT1DInverseResampled followed by the forward LUT return y unchanged at the 2n evenly spaced output values the inverse was sampled at (between the channel's first and last entry); between them the result may differ by a large part of full scale.", "quantifier": "every LUT size, samples and range; exact arithmetic", "why_tests_cant": "a continuum and all sizes", "anchors": ["python/aces/lutFormats/Sampling.py: generateLUT1DInverseResampled"]}
{"id": "C70", "title": "CSP preluts", "statement": "Reading a .csp file whose three shapers have the same number (three or more) of rising inputs over one interval gives a Range to [0,1] and a LUT1D with twice as many entries, each on the polyline through the shaper's points; shapers that start at different inputs raise ZeroDivisionError; the outputs of shapers with two points are ignored.", "quantifier": "every number of points and every shaper; exact arithmetic", "why_tests_cant": "a continuum and all sizes", "anchors": ["python/aces/lutFormats/LutCSP.py: generateCLFPrelut, readCSP"]}
{"id": "C71", "title": "CSP files with a shaper", "statement": "Writing a 1D-3D LUT to .csp and reading it gives the expansion of the input shaper and the 3D table, numbers with six decimals; without an input shaper writing raises TypeError; the output shaper is not written, so LUTs differing only in it give the same file; a rising shaper whose inputs print alike gives a file that cannot be read.", "quantifier": "every size, shaper and table; IEEE doubles", "why_tests_cant": "all sizes", "anchors": ["python/aces/lutFormats/LutCSP.py: write1D3D1D, writeCSP1D3D, readCSP"]}
{"id": "C72", "title": "Asking for the inverse of a .csp or .spi3d file has no effect", "statement": "Registry.read gives the same result for a .csp file whatever the direction, interpolation and IndexMap and half-domain options are, and for a .spi3d file whatever the direction is; reading any LUT file changes no file.", "quantifier": "every file content, registry order and option; every arithmetic", "why_tests_cant": "all files", "anchors": ["python/aces/lutFormats/LutCSP.py: read", "python/aces/lutFormats/LutSPI.py: read", "python/aces/lutFormats/Registry.py: read"]}
{"id": "C73", "title": "convertCLFtoLUT writes the LUT asked for, except its 3D size", "statement": "Of the options only the paths, the kind of LUT (the first asked for of 1D, 3D, 1D-3D-1D, 1D by default), the 1D size, the first 1D-3D-1D sizes, the interval and the first shapers count: --lutResolution3d and --format do nothing, and a 3D LUT has the middle 1D-3D-1D size. The .spi1d or .spi3d file written holds the samples of the list in the CLF file, read back as printed. A 1D-3D-1D .clf export is sampled with the first sizes and shapers given (1024, 33, 2 and none by default) and opens as the exported list. Without both paths the tool ends quietly, and if the CLF cannot be opened it raises; no file changes.", "quantifier": "every list of options, file and interval", "why_tests_cant": "all files and options", "anchors": ["python/aces/convertCLFtoLUT.py: main, convertCLFtoLUT"]}
{"id": "C74", "title": "Sampling into a LUT file and reading it back through the registry", "statement": "For every registry order, writing a list as a .spi1d, .spi3d or .csp LUT changes only that file, and reading it gives the samples as printed; with .spi1d and .csp also the interval.", "quantifier": "every list that can be sampled, size, interval and registry order; IEEE doubles", "why_tests_cant": "all lists and sizes", "anchors": ["python/aces/lutFormats/Registry.py: read, write", "python/aces/lutFormats/LutSPI.py", "python/aces/lutFormats/LutCSP.py"]}
{"id": "C75", "title": "convertLUTtoCLF", "statement": "If the LUT file can be read and the resulting list be written, the CLF written opens, strictly or leniently, as that list with the numbers as text keeps them, and no other file changes; a .spi1d file that can be read (without IndexMaps) can be written, in either direction; in every other case no file changes: the tool raises what reading or writing raises, and ends quietly when a path is missing or no format reads the file.", "quantifier": "every file, registry order and option; IEEE doubles", "why_tests_cant": "all files", "anchors": ["python/aces/convertLUTtoCLF.py: main"]}
{"id": "C78", "title": "convertOCIOtoCLF", "statement": "The list converted from OCIO colour spaces holds the nodes of the source transforms, then those of the destination transforms, in order, named and described after their space and position; it computes what those nodes compute. A file transform becomes what its .spi1d, .spi3d or .csp file holds, read in its direction; other files and missing ones raise; transforms inside groups come in order, each with its own direction. Files are looked for under the config's directory, or the search path itself when it is absolute. The list is written to the CLF file, which opens as that list with numbers as text keeps them; if there are no nodes, or on failure before writing, no file changes. On the command line nothing is done without a config, an output path, or any colour space.", "quantifier": "every configuration, list of spaces and LUT file", "why_tests_cant": "all configurations", "anchors": ["python/aces/convertOCIOtoCLF.py: convertOCIOtoCLF"]}
{"id": "C79", "title": "What the depths a list declares do", "statement": "After setInBitDepth(d) (setOutBitDepth(d)) on a nonempty list, getInBitDepth (getOutBitDepth) gives d and the other is unchanged. Changing the input depth rescales what the list expects if the first node is a curve or a LUT without IndexMap; it changes nothing for a bypassed node, a Matrix, a Range with four limits, a Group, a Reference or a LUT with IndexMaps. Changing the output depth rescales the results of a final curve and changes nothing for those nodes or any LUT. getProcess gives the first node with a name.", "quantifier": "every list, depth and buffer; exact arithmetic for rescaling, every arithmetic otherwise", "why_tests_cant": "all lists and a continuum of values", "anchors": ["python/aces/clf/ProcessList.py: setInBitDepth, setOutBitDepth, getInBitDepth, getOutBitDepth, getProcess, process"]}
{"id": "C76", "title": "Cached IndexMap evaluation", "statement": "An IndexMap created with useCachedProcess gives at exact halfs what it gives without the cache (if finite there), between them a blend of its values at the neighbouring halfs, NaN for NaN and an infinity for everything from 65520 on (where the uncached map clamps). Once built, the cache is never rebuilt: values set or read later are ignored while the cache is on, and setValues on a cached map with a dimension raises AttributeError after storing the values. A map without values raises IndexError, cached or not. The constructor fills the cache only if it is given both a dimension and values.", "quantifier": "every index map, value and sequence of calls; IEEE arithmetic for the values", "why_tests_cant": "all values and call sequences", "anchors": ["python/aces/clf/IndexMap.py: __init__, setValues, setuseCachedProcess, _createCachedProcess, process"]}
{"id": "C77", "title": "Saving what was opened changes nothing further", "statement": "The first save of a process list may round its numbers (C45). Reading that document and writing the list read gives a second document that reads back as exactly the same list, so all later saves give the same document: printing with twelve significant digits, with nine decimals into float32, as an integer, or in one of the 16, 32 or 64 bit encodings moves a number at most once. The list read can be written again, with the features it was first written with, exactly when the tables of nodes with an integer outBitDepth hold finite numbers; an entry such as 1e39, beyond float32, is read as infinity and the second save then raises OverflowError. The second document itself need not equal the first (0.1 is written 0.100000000, then 0.100000001). An IndexMap written by hand without its dim attribute can be opened, but is saved with dim=\"[]\", and that document raises ValueError when opened.", "quantifier": "all process lists a document can hold whose index maps have dimensions, all doubles including subnormals, infinities and NaN, all encodings", "why_tests_cant": "The rounding argument must hold for every double: a sample of values says nothing about ties, subnormals or the binade where float32 spacing meets nine decimals.", "anchors": ["python/aces/clf/ProcessList.py: read, write", "python/aces/clf/Array.py: read, write", "python/aces/clf/IndexMap.py: read, write", "python/aces/clf/ProcessNode.py: read, write"]}
{"id": "C80", "title": "What clfinfo shows", "statement": "printInfo on a process list runs without exception exactly when every array has a row length and, for integer depths, finite values in the rows it shows, every IndexMap of 15 or more entries has as many values on both sides, and all Gamma and Log parameters have channel R, G, B or none. Then every node is named once, in order, those inside Groups and referenced lists included, with all its attributes, limits and dynamic parameters, and every comment of the list and its nodes under its own kind; a table of up to ten rows is shown in full and a longer one by its first and last three rows. Of a CDL exactly the parameters it has are shown, of Gamma and Log nodes those in force for each channel. A list that can be saved can be shown (known channels, no resolved References). The contrast of an ExposureContrast node is not shown: its exposure is printed in its place. clfinfo on a file saved from a clean list shows that list, numbers as their text keeps them; on a file that does not open it raises.", "quantifier": "every process list, to any nesting depth", "why_tests_cant": "all lists, nesting depths and table sizes", "anchors": ["python/aces/clf/ProcessList.py: printInfo", "python/aces/clf/ProcessNode.py: printInfo", "python/aces/clf/Array.py: printInfo", "python/aces/clf/IndexMap.py: printInfo", "python/aces/clf/ExtensionExposureContrast.py: printInfoChild"]}
{"id": "C82", "title": "Code values survive changes of depth", "statement": "A Range from an integer depth to itself keeps every code value of the depth, bit for bit, although each passes through two float32 roundings. Code values changed to another depth and back are the same codes again if the other depth is floating or an integer depth with at least as many codes; from 8 to 16 bits code k becomes exactly 257 k. Through a depth with fewer codes they need not survive: 10 bit code 999 does not come back from 8 bits.", "quantifier": "every code of every integer depth, every pair of depths; IEEE arithmetic", "why_tests_cant": "65536 codes per depth and every pair of depths; the error terms decide", "anchors": ["python/aces/clf/Common.py: bitDepthToNormalized, normalizedToBitDepth", "python/aces/clf/Range.py: process", "python/aces/filterImageWithCLF.py: filterImageWithCLF"]}
{"id": "C81", "title": "Rounding errors and order", "statement": "In the arithmetic of the code, a row of an n-column Matrix applied to finite samples is within n + 3 units of float32 precision of the exact sum, relative to the total size of its terms; a linear LUT1D is within two units of the exact interpolation, relative to the size of its entries plus n - 1 times its largest step; a LUT3D, with either interpolation and for inputs in range or not, within four units of what the same table gives in exact arithmetic; a change of depth within three units of the exact ratio. A Range with four limits of moderate size keeps the order of samples: a larger sample never gives a smaller result, clamped or not.", "quantifier": "every matrix, table, pair of depths and finite sample below 2^125; IEEE arithmetic", "why_tests_cant": "a continuum of inputs; the worst rounding is not found by sampling", "anchors": ["python/aces/clf/Matrix.py: process", "python/aces/clf/LUT1D.py: process", "python/aces/clf/Array.py: lookup1D, lookup3DTrilinear, lookup3DTetrahedral", "python/aces/clf/LUT3D.py: process", "python/aces/clf/Range.py: process", "python/aces/clf/Common.py: bitDepthToNormalized, normalizedToBitDepth"]}
{"id": "C85", "title": "Lists built in a program; metadata is inert", "statement": "Names, ids, descriptions, dynamic parameters, attributes other than the seven processing reads, and how tables are to be encoded never change what a list computes, at any depth inside Groups and referenced lists: same colours, same failures, same effect on the caller's buffer. What was set is got back and nothing else changes. Nodes come in the order they were added in, len counts them, indices (negative ones too) find them, and adding a node adds one processing step at the end. What processing does not look at can matter to saving: a LUT1D marked rawHalfs after it was given its table processes as one marked before, but its file cannot be read (ValueError).", "quantifier": "every list, node, buffer, stride and arithmetic", "why_tests_cant": "all lists and call sequences", "anchors": ["python/aces/clf/ProcessList.py: __iter__, __getitem__, __len__, setAttribute, getAttribute, setName, addElement, addValueElement, addProcess, process", "python/aces/clf/ProcessNode.py: setAttribute, addElement, addValueElement, setDynamicParam", "python/aces/clf/ExtensionGroup.py: addProcess, getProcess, process", "python/aces/clf/LUT1D.py: setArray"]}
{"id": "C83", "title": "filterImageWithCLF from image to image", "statement": "Filtering an integer image through an empty process list, with two workers or more, writes it unchanged at its own depth; at another integer depth code k becomes the exact ratio rounded down, for all twelve pairs of depths and all codes but two (10 bit 617 and 12 bit 2183 come out one higher at 16 bits). 16 bit samples tagged with a number of bits other than 10, 12 and 16 are shifted down but not back, so the picture darkens. A missing image raises ValueError, a sample type without CLF depth KeyError. Called with an unknown output depth, the filter keeps the image's. On the command line an unknown output depth or a missing path writes nothing, and the filter runs with at least one and at most as many workers as processors.", "quantifier": "every integer image, pair of depths, number of workers and schedule; IEEE arithmetic", "why_tests_cant": "2^16 codes, all pairs of depths and all schedules", "anchors": ["python/aces/filterImageWithCLF.py: readPixelArray, writePixelArray, filterImageWithCLF, main"]}
{"id": "C84", "title": "Identities are exact", "statement": "In the arithmetic of the code an identity Matrix returns finite float32 samples unchanged but for the sign of zeros, whatever its size; an infinite or NaN sample, however, makes every other channel of its pixel NaN. An identity LUT1D of 2^j + 1 entries, and an identity LUT3D of 2^j + 1 entries per side with either interpolation, return the float32 numbers between 0 and 1 unchanged at floating input depths. Other sizes need not: an identity LUT1D of eight entries changes some samples.", "quantifier": "every float32 sample, every j up to 24, both interpolations; IEEE arithmetic", "why_tests_cant": "2^30 samples per channel and every table size", "anchors": ["python/aces/clf/Matrix.py: process", "python/aces/clf/LUT1D.py: process", "python/aces/clf/LUT3D.py: process", "python/aces/clf/Array.py: lookup1DLinear, lookup3DTrilinear, lookup3DTetrahedral"]}
{"id": "C86", "title": "Half and float images", "statement": "Filtered through an empty process list with two workers or more, a half or float image is written unchanged at its own depth, and a half image as floats keeps every number, NaN and infinities included. A float image as halfs gets the nearest half, infinite from 65520 on. Integer codes as floats become the correctly rounded quotient by the largest code, and come back as the same codes; as halfs they do not (8 bit code 1 comes back as 0), and a half written for a 16 bit code need not be the nearest one, because the code rounds twice. Numbers between 0 and 1 become the code below their multiple of the largest code. A NaN or infinity is never written at an integer depth, and an image with a bits-per-sample attribute is never written at a float depth. Packing halfs for OpenImageIO and back loses nothing, except that before version 1.8 an odd number of samples is refused.", "quantifier": "every half and float image, pair of depths, number of workers from two on and schedule; IEEE arithmetic", "why_tests_cant": "2^32 samples, all depths and all schedules", "anchors": ["python/aces/filterImageWithCLF.py: readPixelArray, writePixelArray, filterImageWithCLF, npHalfArrayToOIIOFloatPixels, oiioFloatPixelsToNPHalfArray, floatToHalfs, halfsToFloat"]}
{"id": "C87", "title": "LUT files exported from a list agree with it at the grid points", "statement": "A list written to a .spi1d or .spi3d file over the unit range and read back gives, at the grid points of the table, the colours the list gives there: in the arithmetic of the code each channel is within four (1D) or seven (3D, either interpolation) units of float32 precision, measured against the largest entry plus the table's slope. Through both converters, convertCLFtoLUT and then convertLUTtoCLF, the .clf obtained agrees as well up to the nine decimals of the document (another 10^-9). The twelve digits str() prints are accurate enough for this.", "quantifier": "every list, table size up to 65536 per axis, grid point and compatibility setting; IEEE arithmetic", "why_tests_cant": "all lists and tables; four roundings and two text formats combine", "anchors": ["python/aces/convertCLFtoLUT.py: convertCLFtoLUT, main", "python/aces/convertLUTtoCLF.py: convertLUTtoCLF, main", "python/aces/lutFormats/LutSPI.py: readSPI1D, writeSPI1D, readSPI3D, writeSPI3D", "python/aces/clf/Array.py: lookup1DLinear, lookup3DTrilinear, lookup3DTetrahedral, read, write"]}
{"id": "C88", "title": "Rounding errors of a whole list", "statement": "A list of Range (four limits, clamping or not), Matrix, linear LUT1D, LUT3D (either interpolation) and Fwd CDL nodes (exponents of at least 1), run in the arithmetic of the code, gives colours within a computed error of those the same list gives in exact arithmetic. The error grows along the list: each node multiplies what it receives by its own slope (Range: ratio of its two intervals, Matrix: largest row sum, LUT1D: (n - 1) times the largest step, LUT3D: three times that, CDL: exponent times slope, times the spread of the saturation) and adds a few units of float32 precision (five, six, two, four and five times the exponent) relative to the size of its numbers, for a CDL also twice the error of the power function. Inputs may be out of range; no sample becomes NaN or infinite. Groups and References with their list may be nested among them: a Group adds nothing of its own, a Reference one rounding to single precision.", "quantifier": "every such list, of any length, every finite colour of bounded size; IEEE arithmetic", "why_tests_cant": "all lists and all colours; errors of dozens of roundings combine", "anchors": ["python/aces/clf/ProcessList.py: process", "python/aces/clf/Range.py: process", "python/aces/clf/Matrix.py: process", "python/aces/clf/LUT1D.py: process", "python/aces/clf/LUT3D.py: process", "python/aces/clf/ASCCDL.py: process", "python/aces/clf/Array.py: lookup1DLinear, lookup3DTrilinear, lookup3DTetrahedral"]}
{"id": "C89", "title": "The text of a CLF file", "statement": "Saving a list whose names are XML names, whose attributes are printable ASCII, whose comments are not empty and whose IndexMaps and CDL triples are not empty always succeeds if the list can be written, and opening the file gives the list back with its numbers as their text keeps them; characters that XML reserves are escaped and restored. Of the libraries only gzip is assumed to work: the text is printed as ElementTree and minidom print it and parsed as XML. A control character or one outside ASCII anywhere makes saving raise and leaves the target alone. Line breaks in attributes come back as blanks, carriage returns in comments as line feeds, an empty comment as none; a list with an empty IndexMap is saved but the file does not open.", "quantifier": "every list, text and nesting", "why_tests_cant": "all texts and trees", "anchors": ["python/aces/clf/ProcessList.py: xmlPrettify, writeFile, readFile, write, read"]}
{"id": "C90", "title": "Nodes built by setters", "statement": "After any sequence of setter calls a Range, ASC_CDL, ColorCorrection or ExposureContrast has for each parameter the value set last, and none for those never set; Gamma and Log collect their calls in order. A LUT's table and size are those set last, its index maps add up, and asking for the size of an index map always raises. LUT3Ds built with one list object for the size compute the same colours as with lists of their own, but each reports (and would write) its size with one more 3 for every other LUT.", "quantifier": "every constructor argument and every sequence of calls", "why_tests_cant": "all sequences of calls", "anchors": ["python/aces/clf/Range.py: setters", "python/aces/clf/ASCCDL.py: setters", "python/aces/clf/LUT1D.py: setIndexMaps, setArray, getters", "python/aces/clf/LUT3D.py: setArray, getters", "python/aces/clf/ExtensionGamma.py", "python/aces/clf/ExtensionLog.py", "python/aces/clf/ExtensionExposureContrast.py"]}
{"id": "C91", "title": "LUTs sampled from a function", "statement": "simpleSampledLUTHalfDomain gives a node that reproduces the function exactly (rounded to single precision) at every one of the 65536 half codes, at NaN and beyond the largest half; with its default function, the identity, every half comes out unchanged. simpleSampledLUT with n entries reproduces a function that changes by at most K per unit within K / (2 (n - 1)) plus a few roundings; with the identity within five units of float32 precision at any resolution. simple3DLUT stores the function at every grid point of a cube, and between them reproduces a function that changes by at most K per unit along each axis within 3 K / (2 (n - 1)) plus a few roundings, an affine one within roundings, the identity within nine units of float32 precision; with unequal resolutions colours are stored in the wrong places and the table may be too long.", "quantifier": "every function, resolution, depth and input; IEEE arithmetic", "why_tests_cant": "all functions and all inputs", "anchors": ["python/aces/clf/LUT1D.py: simpleSampledLUT, simpleSampledLUTHalfDomain", "python/aces/clf/LUT3D.py: simple3DLUT"]}
{"id": "C92", "title": "Whole images through a whole list", "statement": "filterImageWithCLF on an RGB image, run with two workers or more, writes every colour within a computed error of what exact arithmetic gives: the colour taken from the depth of the image to that of the first node, through the list (C88), and from the depth of the last node to the depth asked for, counting every storing in single precision on the way. At an integer depth that has room for the exact colours, every code written is less than one code plus that error away, so codes never wrap around. Run on a file saved from a list, the tool filters with that list, its numbers as their text keeps them.", "quantifier": "every RGB image, list with a budget (C88), depths, number of workers from two on and schedule; IEEE arithmetic", "why_tests_cant": "all images, lists and schedules; errors of every stage combine", "anchors": ["python/aces/filterImageWithCLF.py: readPixelArray, filterRow_parallel, filterImageWithCLF, writePixelArray, main", "python/aces/clf/ProcessList.py: process, readFile, writeFile"]}
{"id": "C93", "title": "Every spelling of a document opens alike", "statement": "Two files that spell the same XML document open as the same list, or with the same exception: single or double quotes, blanks and line breaks in tags, named, decimal and hexadecimal references, CDATA sections, comments and processing instructions anywhere, empty tags or an end tag, an XML declaration or none, text after elements, LF, CR LF or CR line ends, and one default namespace, several or none make no difference. Such a text always parses, to exactly the elements, attributes and texts it spells.", "quantifier": "every document (ASCII, no DOCTYPE) and every spelling of it", "why_tests_cant": "all texts and trees", "anchors": ["python/aces/clf/ProcessList.py: readFile, read, getElementType", "python/aces/clf/ProcessNode.py: read, getElementType"]}
{"id": "C94", "title": "Files that are not XML are refused whole", "statement": "A file cut off anywhere before the end of its root element, and one that anywhere has an end tag of another element than the innermost, an attribute twice, two attributes without a blank between them, an attribute without quotes, \"<\" in an attribute, a reference to something unknown, \"--\" in a comment, a control character, text outside the root or a second root, is refused with an XML parse error, whatever comes before and after, strict or not; no part of it becomes a list.", "quantifier": "every document (ASCII, no DOCTYPE), place and continuation", "why_tests_cant": "all texts", "anchors": ["python/aces/clf/ProcessList.py: readFile, __init__"]}
{"id": "C95", "title": "What the elements of a document say", "statement": "A node read from a document has the attributes its element gives, and for the others the defaults of its class (16f depths, linear and trilinear interpolation, style Fwd, basicFwd, log10 and linear), whatever its children; True and False are booleans. The limits of a Range, the numbers of an ASC CDL node (slope, offset, power, saturation), the parameters of Gamma, Log and ExposureContrast nodes with their defaults, and the tables and index maps of Matrix, LUT1D and LUT3D are those of the child elements; of a repeated limit or CDL value the last counts, unrelated children do not matter. The attributes may be in any order anywhere in the document: the lists compute the same colours, or opening fails with the same exception.", "quantifier": "every element and document, number type, feature set, strict or not", "why_tests_cant": "unbounded documents", "anchors": ["python/aces/clf/ProcessNode.py: read", "python/aces/clf/Range.py: readChild", "python/aces/clf/ASCCDL.py: readChild", "python/aces/clf/LUT1D.py: readChild", "python/aces/clf/ExtensionGamma.py: readChild", "python/aces/clf/ExtensionLog.py: readChild", "python/aces/clf/ExtensionExposureContrast.py: readChild", "python/aces/clf/Array.py: read", "python/aces/clf/IndexMap.py: read"]}
{"id": "C96", "title": "Rounding never leaves the table", "statement": "In floating point, a linear LUT1D and a LUT3D (trilinear or tetrahedral) give results between any two float32 numbers that enclose all entries of the channel, whatever the input, in range or not (a finite number of size up to 2^126 for the LUT1D; any number, an infinity or NaN for the LUT3D): rounding never overshoots, so a table of 0 to 1 never gives 1.0000001 or a small negative number. A LUT1D gives its first entry itself for inputs at or below zero and its last for inputs at or above full scale. A rising LUT1D keeps the order of its inputs, except perhaps for two results between the same two neighbouring entries; inputs in range two steps of the table apart are never swapped (tables of up to 2^22 entries). For inputs in range only the entries within two steps of the input have to be enclosed, in a LUT1D and in a LUT3D. Outside its range a LUT3D holds the colour of its edge, channel by channel: NaN, minus infinity and numbers down to -2^126 act like zero, infinity and numbers from full scale up to 2^126 like full scale. So a process list that ends with a LUT3D (not bypassed) whose entries are between 0 and 1 gives only numbers between 0 and 1 on RGB pixels, whatever its other nodes do, even if they produce infinities or NaN. The bounds must be float32 numbers: a table filled with one double built in a program can give the float32 number above it.", "quantifier": "every table, size up to 2^53, bounds, channel and input (LUT1D: finite, of size up to 2^126)", "why_tests_cant": "all tables and inputs, every rounding", "anchors": ["python/aces/clf/Array.py: lookup1DLinear", "python/aces/clf/Array.py: lookup3DTrilinear", "python/aces/clf/Array.py: lookup3DTetrahedral", "python/aces/clf/LUT1D.py: process", "python/aces/clf/LUT3D.py: process", "python/aces/clf/ProcessList.py: process"]}
