#!/usr/bin/env python3
"""Writes ../properties.jsonl. Kept so that the list can be edited as readable text."""
import json, os
P = []
def p(id, title, statement, quantifier, why, *anchors):
    P.append(dict(id=id, title=title, statement=" ".join(statement.split()), quantifier=" ".join(quantifier.split()),
                  why_tests_cant=" ".join(why.split()), anchors=list(anchors)))
CLF = "python/aces/clf/"
LF = "python/aces/lutFormats/"
AC = "python/aces/"

# ---------------------------------------------------------------- bit depths and Range
p("C01", "Bit-depth normalisation is undone by the matching denormalisation",
  """normalizedToBitDepth(bitDepthToNormalized(v, d), d) gives back v, and the other order does too; a depth string that is not
  one of 8i/10i/12i/16i leaves v as it is in both directions; bitDepthSize(d) is the code value that normalises to 1.""",
  "every numeric value v and every bit-depth string d (known or not), in exact arithmetic",
  "the value range is continuous and the set of depth strings is infinite",
  CLF+"ProcessNode.py: bitDepthToNormalized, normalizedToBitDepth, bitDepthSize")
p("C02", "A clamping Range never leaves its output interval",
  """If a Range has all four limits, clamps (style absent or 'clamp') and minOut <= maxOut, every component of the result of
  process lies between minOutValue and maxOutValue, whatever the input component is; with NaN or infinite inputs (IEEE arithmetic)
  the value clamped is still a number within the interval and NaN goes to the lower limit.""",
  "every buffer length and content, all limits with minOut <= maxOut, every pair of bit depths, NaN and infinities included",
  "tests sample a few inputs; the claim is about all reals and all IEEE special values",
  CLF+"Range.py: Range.process", CLF+"Common.py: clamp")
p("C03", "A Range with four limits is the affine map through its two anchor points",
  """A Range with four limits and minIn < maxIn sends minInValue to minOutValue and maxInValue to maxOutValue, is order preserving
  when minOut <= maxOut (a clamping Range needs minOut <= maxOut for its anchors too: with minOut > maxOut it is constantly maxOut), and in noClamp style is exactly the affine map through the two anchors; the Range with input and output
  sides exchanged undoes it (noClamp always; clamping for inputs inside [minIn, maxIn]).""",
  "every set of limits with minIn < maxIn, every input value, every pair of bit depths, exact arithmetic",
  "an identity over a continuum of parameters and inputs",
  CLF+"Range.py: Range.process")
p("C04", "Range with incomplete limits",
  """A Range that has both minimum limits but not both maximum limits shifts by minOut-minIn and (clamping) is bounded below by minOut; with both maximum limits but not both
  minimum limits it shifts by maxOut-maxIn and is bounded above by maxOut; with any other incomplete combination and no
  defaultRange attribute it converts the bit depth and does nothing else (never clamps, whatever the style); with a defaultRange
  attribute present, missing limits count as 0 and 1.""",
  "every subset of the four limits, every style, every value",
  "16 subsets of limits times a continuum of values",
  CLF+"Range.py: Range.process, Range.setDefaultRange")
p("C05", "Range works element by element on the caller's own buffer",
  """Range.process ignores the stride: every element of the buffer, alpha and incomplete trailing pixels included, is mapped by the
  same scalar function of that element alone; the length is kept; the array passed in is overwritten and is the object returned.""",
  "every buffer length and content, every stride", "all lengths and contents; aliasing is invisible to value tests",
  CLF+"Range.py: Range.process")
p("C06", "When Range.process fails",
  """Range.process raises only ZeroDivisionError, and does so exactly when the buffer is not empty, all four limits are in force and
  the two normalised input limits coincide.""",
  "every Range built through the API and every buffer", "absence of any other failure over all inputs",
  CLF+"Range.py: Range.process")
# ---------------------------------------------------------------- Matrix
p("C07", "Matrix.process is the affine map its array describes",
  """For dim [n, n, c] or [n, n+1, c] and pixels of at least n channels, output channel i < n is the sum over j of m[i][j]*in[j] (plus
  the last column when there are n+1 columns); channels n and up are copied; bit depths do not enter.""",
  "every n, every matrix, every pixel width >= n and every number of pixels", "all sizes and a continuum of coefficients",
  CLF+"Matrix.py: Matrix.process, Matrix.setMatrix")
p("C08", "Matrices compose like matrices",
  """Running matrix A and then matrix B over a buffer equals running the single matrix of the product affine map; the identity matrix
  leaves every buffer of whole pixels as it is.""",
  "every size n, every pair of n x n / n x n+1 matrices, every buffer; exact arithmetic",
  "an identity over all sizes and coefficients", CLF+"Matrix.py: Matrix.process")
p("C09", "When Matrix.process fails",
  """With an array of the size its dimensions announce, Matrix.process succeeds exactly when the pixel has at least dim[0]
  channels; with fewer channels it raises IndexError (it never silently uses a smaller matrix).""",
  "every dimension and pixel width", "all sizes", CLF+"Matrix.py: Matrix.process")
# ---------------------------------------------------------------- pixels and strides
p("C10", "Pixels are processed independently",
  """Processing a buffer of k whole pixels with a stride equals processing each pixel on its own and concatenating, for every node
  type except ExposureContrast and hence for every ProcessList (with Groups and References) built from the others.""",
  "every node and parameter, every process list, every stride >= 3, every number of pixels, any arithmetic",
  "all list lengths, nesting depths and pixel counts",
  CLF+"ProcessList.py: ProcessList.process", CLF+"Matrix.py", CLF+"LUT1D.py", CLF+"LUT3D.py", CLF+"ASCCDL.py", CLF+"ExtensionGamma.py",
  CLF+"ExtensionLog.py", CLF+"Range.py", CLF+"ExtensionGroup.py", CLF+"ExtensionReference.py")
p("C11", "Extra channels pass through colour nodes unchanged",
  """LUT1D, LUT3D, ASC_CDL, Gamma and Log return channels 4 and up of every pixel bit-for-bit as they came in; ExposureContrast does so
  only for the first pixel: every later pixel receives the first pixel's extra channels.""",
  "every node, stride and number of pixels, any arithmetic", "all strides and pixel counts",
  CLF+"LUT1D.py: LUT1D.process", CLF+"ExtensionExposureContrast.py: ExposureContrast.process (line 166)")
p("C12", "Length is preserved and an incomplete trailing pixel becomes zeros",
  """Every node and every ProcessList returns as many values as it was given; when the length is not a multiple of the stride, the
  stride-based nodes return zeros for the left-over values instead of the input.""",
  "every node, buffer and stride", "all lengths", CLF+"Matrix.py: Matrix.process", CLF+"LUT1D.py: LUT1D.process")
# ---------------------------------------------------------------- ProcessList
p("C13", "ProcessList.process is a pure function of the list and the values",
  """ProcessList.process never modifies the sequence passed in, while a node's own process does overwrite an array passed to it
  (the input afterwards holds the node's output) for LUT1D, LUT3D, ASC_CDL, Gamma, Log and Range but not for Matrix.""",
  "every process list, node, buffer, stride, compatibility setting", "aliasing over all nestings",
  CLF+"ProcessList.py: ProcessList.process (346)", CLF+"LUT1D.py: LUT1D.process (168-169)")
p("C14", "A process list is the composition of its nodes",
  """If the nodes next to the seam are not bypassed, processing with list A+B equals processing with A and feeding the result to B, including failures; the
  empty list only rounds to float32.""",
  "every pair of lists, any arithmetic whose float32 rounding is idempotent", "all list lengths",
  CLF+"ProcessList.py: ProcessList.process")
p("C15", "Bypass",
  """With the Autodesk feature enabled a node that carries a bypass attribute, whatever its value, is skipped: the result equals that of
  the list without the node whenever its neighbours are not bypassed and their depths agree, or it is first or last; with the feature disabled the attribute has
  no effect.  In particular bypass="False" in a file still bypasses the node.""",
  "every list, every position, every attribute value, every compatibility word", "all positions and lists",
  CLF+"ProcessList.py: ProcessList.process (357-389)", CLF+"ProcessNode.py: ProcessNode.read (197-201)")
p("C16", "A run of bypassed nodes rescales exactly from the depth before it to the depth after it",
  """In a list whose neighbouring depths agree, the effect of any interior run of bypassed nodes is the single linear change
  from the depth delivered by the node before the run to the depth expected by the node after it, with no clamping.""",
  "every run length and position, every mix of depths, exact arithmetic", "runs of any length",
  CLF+"ProcessList.py: ProcessList.process (378-389)")
p("C17", "A Group means the same as its nodes written inline",
  """With the Autodesk feature enabled (or when no grouped node carries bypass), a Group gives the same result as its nodes spliced
  into the list, provided its first and last node and the Group's neighbours are not bypassed; with the feature disabled it does not: a Group still skips bypassed nodes where a ProcessList runs them.""",
  "every list, every group, every nesting", "all nestings",
  CLF+"ExtensionGroup.py: Group.process (125)", CLF+"ProcessList.py: ProcessList.process (357)")
p("C18", "A resolved Reference means the same as the referenced list; an unresolved one is a no-op",
  """A Reference whose file exists processes exactly like the referenced process list; one whose file is missing returns the values
  unchanged, silently.""",
  "every referenced list and buffer", "all lists", CLF+"ExtensionReference.py: Reference.process, setPaths")
# ---------------------------------------------------------------- LUT1D / IndexMap
p("C19", "A 1D LUT returns its entries at its sample positions",
  """With linear interpolation, looking up the position k/(n-1) in an n-entry, 1- or 3-channel LUT gives exactly entry k of that channel, and
  positions below 0 or above 1 give the first or last entry.""",
  "every LUT size n >= 2, every table, every k, every channel; exact arithmetic", "all sizes and tables",
  CLF+"Array.py: lookup1D, lookup1DLinear", CLF+"LUT1D.py: LUT1D.process")
p("C20", "1D interpolation stays between the neighbouring entries and is monotone for monotone tables",
  """The interpolated value lies between the two entries that bracket the position; if a channel's entries are non-decreasing, so is the
  lookup as a function of position.""",
  "every LUT size, table, position and channel; exact arithmetic", "a continuum of positions and all tables",
  CLF+"Array.py: lookup1DLinear")
p("C21", "The channels of a 1D LUT do not influence one another",
  """In LUT1D.process output channel i (i < 3) depends only on input channel i; a table with a channel count other than 3 applies the same
  flat table to every channel.""",
  "every node, pixel and stride, any arithmetic", "non-interference quantifies over pairs of inputs",
  CLF+"LUT1D.py: LUT1D.process", CLF+"Array.py: lookup1D")
p("C22", "A LUT sampled from a function by the library reproduces it",
  """simpleSampledLUT(f) looked up at i/(n-1) is f(i/(n-1)), and is exact everywhere for affine f (so the default f is the identity on
  [0,1]).""",
  "every f, resolution n >= 2, channel count 1 or 3; exact arithmetic", "all functions and sizes",
  CLF+"LUT1D.py: simpleSampledLUT")
p("C23", "Looking up a well-formed LUT never fails",
  """For a 1D LUT with at least one entry and an array of the announced size (no cubic interpolation), LUT1D.process raises nothing for any
  float32 input including NaN and infinities; under linear interpolation NaN comes out as NaN and an infinity as that infinity (NaN if
  the table has one entry).""",
  "every well-formed table, every input; any arithmetic", "absence of failures over all inputs",
  CLF+"Array.py: lookup1DLinear, lookup1DHalfDomainInterpolated", CLF+"LUT1D.py: LUT1D.process")
p("C24", "interpolation='cubic' can never be used",
  """LUT1D.process with interpolation 'cubic' raises for every table and every buffer holding at least one pixel, with NameError when the node has no IndexMap and its array has dimensions.""",
  "every node and buffer", "a failure for all inputs", CLF+"Array.py: lookup1DCubic (513-514)")
p("C25", "IndexMap evaluation is total, bounded and exact at its knots",
  """An IndexMap with as many outputs as inputs (at least one) never fails and never divides by zero, sorted or not; results stay
  within the smallest and largest output; with strictly increasing inputs each knot maps to its output and values outside
  saturate; with non-decreasing outputs it is monotone.""",
  "every knot list and every value (exact arithmetic for the bounds, any ordered arithmetic for totality)",
  "all knot lists, including unsorted ones", CLF+"IndexMap.py: IndexMap.process, _processRaw")
p("C26", "Half-domain LUTs return the entry of the half-float code of the value",
  """With halfDomain, a value that is exactly a half-float gets the table entry at that half's 16-bit code if the entries next to it are finite (up to the sign of
  zero; false when a neighbouring entry is infinite or NaN); any finite value gets a blend of the entries of the two neighbouring half codes with weights in [0,1], values beyond the largest half
  but rounding to it its entry; NaN, overflow upwards (+inf) and overflow downwards (-inf) get entries 31745, 31744 and 64512.""",
  "every table and every float32 input", "2^32 inputs times all tables",
  CLF+"Array.py: lookup1DHalfDomainInterpolated")
# ---------------------------------------------------------------- LUT3D
p("C27", "A cubic 3D LUT returns its entries at its lattice points",
  """For an n*n*n table (blue fastest), both trilinear and tetrahedral lookup at (i,j,k)/(n-1) return exactly entry (i,j,k).""",
  "every n >= 2, every table, every lattice point; exact arithmetic", "all sizes and tables",
  CLF+"Array.py: lookup3D, lookup3DTrilinear, lookup3DTetrahedral")
p("C28", "3D interpolation stays within the surrounding entries",
  """Each output channel of trilinear and tetrahedral lookup lies between the least and greatest of the eight surrounding lattice
  entries of that channel; inputs outside [0,1] behave like the nearest input inside.""",
  "every n >= 2, table and position; exact arithmetic", "a continuum of positions and all tables",
  CLF+"Array.py: lookup3DTrilinear, lookup3DTetrahedral")
p("C29", "3D interpolation is exact on affine colour transforms",
  """A table sampled from an affine map of RGB (in particular the default identity table of simple3DLUT) reproduces that map at every
  position of the unit cube, with either interpolation.""",
  "every n >= 2, every affine map, every position; exact arithmetic", "a continuum of maps and positions",
  CLF+"LUT3D.py: simple3DLUT, LUT3D.process", CLF+"Array.py: lookup3DTrilinear, lookup3DTetrahedral")
p("C30", "Tetrahedral interpolation is continuous across its six regions",
  """On the planes where two interpolation fractions are equal the formulas of the adjacent tetrahedra give the same colour, so the choice of
  branch (> against >=) is unobservable.""",
  "every set of eight corner colours and all fractions; exact arithmetic", "a continuum", CLF+"Array.py: lookup3DTetrahedral (665-774)")
p("C31", "Non-cubic 3D LUTs",
  """For a table with different resolutions per axis in blue-fastest order, lookup does not return the stored entries in general: it
  uses strides dim[0]*dim[1] and dim[1] instead of dim[1]*dim[2] and dim[2], and can even fail; it is right whenever dim[0]=dim[1]=dim[2].""",
  "all dimensions", "all sizes", CLF+"Array.py: lookup3D (541)")
p("C32", "A well-formed cubic 3D LUT never fails",
  """LUT3D.process with a cubic table of the announced size and trilinear or tetrahedral interpolation raises nothing for pixels of
  at least three channels, including NaN and infinite inputs, and any arithmetic satisfying the clamp law; an unknown
  interpolation name skips the lookup and only normalises.""",
  "every n >= 1, table, pixel", "absence of failures over all inputs", CLF+"LUT3D.py: LUT3D.process")
# ---------------------------------------------------------------- CDL
p("C33", "Clamping CDL output is in range",
  """ASC_CDL in styles Fwd and Rev returns colour components within the output depth's full range for every input and parameter.""",
  "every slope, offset, power, saturation and pixel", "a continuum", CLF+"ASCCDL.py: ASCCDL.process")
p("C34", "CDL saturation preserves luma and defaults are neutral",
  """The saturation step of FwdNoClamp leaves the Rec.709 luma of the pixel unchanged; slope 1, offset 0, power 1, saturation 1 clamps to [0,1]
  in style Fwd and is the identity on all values for FwdNoClamp.""",
  "every pixel and saturation; exact arithmetic", "a continuum", CLF+"ASCCDL.py: ASCCDL.process")
p("C35", "CDL Rev undoes Fwd",
  """Rev(Fwd(x)) = x for every pixel whose intermediate values are not clamped, with slope != 0, power > 0 and saturation != 0;
  RevNoClamp does not undo FwdNoClamp: it clamps its saturated value to [0,1], so values above 1 are lost.""",
  "every parameter set and pixel; exact arithmetic", "a continuum; the failure needs a witness and a region",
  CLF+"ASCCDL.py: ASCCDL.process (207-223)")
p("C36", "CDL style gating and ColorCorrection",
  """The Autodesk style names (v1.2_Fwd, noClampFwd, v1.2_Rev, noClampRev) raise UnsupportedExtensionError unless the Autodesk feature is
  on and otherwise mean the same as their CLF names; an unknown style passes colours through; a ColorCorrection built by its
  constructor raises KeyError on every pixel of three or more channels.""",
  "every node, pixel and compatibility word", "all inputs", CLF+"ASCCDL.py: ASCCDL.process, ColorCorrection.__init__")
# ---------------------------------------------------------------- Gamma, Log, ExposureContrast
p("C37", "basicRev undoes basicFwd",
  """For gamma > 0 Gamma basicRev after basicFwd is the identity on non-negative values and sends negative values to 0; basicFwd is
  monotone.""",
  "every gamma > 0 per channel and every value; exact arithmetic", "a continuum", CLF+"ExtensionGamma.py: Gamma.process")
p("C38", "moncurveRev against moncurveFwd",
  """For gamma > 1 and offset > 0, moncurveRev undoes moncurveFwd for inputs up to the breakpoint offset/(gamma-1) and for inputs whose
  image exceeds offset/(gamma-1); between them (a non-empty gap exactly when offset differs from gamma-1) the wrong breakpoint test makes it return a different value.""",
  "every gamma > 1, offset > 0, value; exact arithmetic", "a continuum; a region of failure",
  CLF+"ExtensionGamma.py: Gamma.process (173-174)")
p("C39", "Log styles invert one another",
  """antiLog10 undoes log10 and antiLog2 undoes log2 on every value not below the float minimum, and log undoes antilog for exponents
  above log10 of it; logToLin and linToLog with the same parameters undo each other wherever the floor is not hit.""",
  "every parameter set and value; exact arithmetic", "a continuum", CLF+"ExtensionLog.py: Log.process")
p("C40", "ExposureContrast styles",
  """Style linear with exposure 0, contrast 1, positive pivot is the identity on non-negative values and maps the pivot to itself for any
  contrast; style video raises for every buffer with at least one pixel (TypeError when the pivot is positive) and style log raises NameError; channels
  beyond the third of every pixel become those of the first pixel.""",
  "every parameter set and pixel", "a continuum / failure for all inputs", CLF+"ExtensionExposureContrast.py: ExposureContrast.process")
p("C41", "Gamma, Log and ExposureContrast need three channels",
  """With a stride (or single-pixel length) below three these nodes raise an exception, never returning colours, whenever at least one pixel is present and the style
  is a known one, whereas LUT1D, Matrix (n <= stride), Range and ASC_CDL accept it.""",
  "every node and buffer", "all inputs", CLF+"ExtensionGamma.py: Gamma.process (146)", CLF+"ASCCDL.py: ASCCDL.process (129)")
# ---------------------------------------------------------------- serialisation
p("C42", "Array text encodings round-trip",
  """Writing an Array with a bit encoding (integer16/32/64bit, hex16/32/64bit or rawHalfs) and reading the element back returns the same
  dimensions and, bit for bit, the values rounded to that format; with the plain text form each value comes back as the float32
  nearest to a decimal within 0.5e-9 of it.  A trailing incomplete row is dropped; hex32bit fails with OverflowError for finite values too large for a float32.""",
  "every array shape and content", "all arrays", CLF+"Array.py: Array.write, Array.read", CLF+"Common.py: hex/int conversions")
p("C43", "The integer flag of an Array never changes what is written",
  """Array.write produces the same text whether or not values are flagged as integers (integer bit depths do not yield integer text).""",
  "every array without NaN/inf (for which the flagged array cannot be written)", "all arrays", CLF+"Array.py: Array.write (154-201)")
p("C44", "Encoding feature gate",
  """With the Duiker Research feature off, setFloatEncoding raises and leaves 'string'; writing an array with a complete row whose encoding is not
  'string' raises UnsupportedExtensionError; reading an encoded array is never refused.""",
  "every array, encoding and compatibility word", "all inputs", CLF+"Array.py: setFloatEncoding, write, read")
p("C45", "A process list survives write and read",
  """Reading back the element tree a ProcessList writes gives a list with the same attributes, descriptions, nodes, parameters and nesting (numbers as
  the text format keeps them: 12 significant digits for parameters, nine decimals or the chosen encoding for arrays); it processes identically if every number is kept exactly and arrays are already
  of the kind reading makes (a Matrix whose array holds doubles may change in the last float32 bit).  The same holds for saving to and opening from a file, gzipped or not. (IndexMaps must have been given a dimension, see C77.)""",
  "every process list over the modelled node types", "all lists and nestings",
  CLF+"ProcessList.py: ProcessList.write/read", CLF+"ProcessNode.py: ProcessNode.write/read")
p("C46", "Strict reading rejects, lenient reading skips, unknown elements",
  """In strict mode a child of unknown type makes read raise UnknownProcessNodeError, unless earlier content already fails; otherwise the result equals that of the document
  without it.  Inside a Group unknown children are skipped even in strict mode.""",
  "every document", "all documents and positions", CLF+"ProcessList.py: ProcessList.read", CLF+"ExtensionGroup.py: Group.readChild")
p("C47", "Feature gating while reading",
  """In strict mode a document whose top level holds an ExposureContrast, Gamma, Log or Reference (Autodesk) or a Group (Duiker Research) is
  rejected exactly when the feature is off; in lenient mode such nodes are kept and run; extension nodes inside a Group are never checked.""",
  "every document and compatibility word", "all documents", CLF+"ProcessList.py: ProcessList.read (212-222)")
p("C48", "Tag normalisation",
  """An element is recognised irrespective of its namespace and of '-' and '_' characters in its tag; whole documents that differ in nothing else are read alike.""",
  "every tag and namespace without '}'", "infinitely many tags", CLF+"ProcessNode.py: getElementType")
p("C49", "Gzip and plain files read alike; errors are masked",
  """With the Duiker Research feature on, a gzipped and a plain file of one document load to the same list when reading succeeds; when
  reading of a gzipped file fails for any reason, strict or not, the caller sees an XML parse error instead of the real one; with the feature off a gzipped
  file is not readable.""",
  "every document", "all documents", CLF+"ProcessList.py: readFile (238-257)")
p("C50", "Saving is not atomic",
  """If serialisation or the gzip feature check fails the target file is untouched; but the file is emptied before writing, so after a crash between opening and finishing
  the write the old content is lost, and an emptied file does not open.""",
  "every file content and crash point", "all crash points", CLF+"ProcessList.py: writeFile (150-177)")
p("C51", "Self-contained writing inlines top-level references only",
  """writeFile(writeSelfContained=True) replaces each top-level resolved Reference by the referenced nodes (and the written list processes
  the same when no bypass attribute is involved); a Reference inside a Group or inside a referenced list is still written as a reference; an unresolved one makes the write fail.""",
  "every list", "all nestings", CLF+"ProcessList.py: write (139-143)", CLF+"ExtensionReference.py: Reference.write", CLF+"ExtensionGroup.py: Group.write")
p("C52", "Cyclic references never load",
  """A file that (transitively) references itself cannot be read: with any recursion limit reading raises; for files with an acyclic
  reference graph the limit stops mattering once large enough, and they load if each file reached is a readable document or absent.""",
  "every file system and recursion depth", "all depths", CLF+"ExtensionReference.py: setPaths")
# ---------------------------------------------------------------- LUT formats
p("C53", "SPI 1D files round-trip", """Reading a .spi1d file the library wrote gives a LUT with the written resolution, channel count, samples and input range
  (numbers as printed), as a Range node exactly when the range is not [0,1] followed by a LUT1D; read for the inverse it gives the inverse (by IndexMaps, over the halfs or resampled, as asked) of that table over that range; reading fails on a version 1 file with a blank line. The kind of line ends, a missing last one, and blanks at the end of lines make no difference to .spi1d, .spi3d and .csp files.""",
  "every resolution, channel count, sample list, range and way of printing the samples as words float() reads", "all sizes", LF+"LutSPI.py: writeSPI1D, readSPI1D")
p("C54", "SPI 3D files round-trip but lose the input range", """Reading a .spi3d file the library wrote, cubic or not, gives a LUT3D whose entry (i,j,k)
  is sample [i][j][k] as printed; the input range given to write is not recorded, so files written for different ranges are identical.""",
  "every resolution and data", "all sizes", LF+"LutSPI.py: writeSPI3D, readSPI3D")
p("C55", "CSP files round-trip", """Reading a .csp file the library wrote (1D or cubic 3D) yields the same samples at the same lattice positions (red-fastest in the file,
  blue-fastest in the CLF table) and a Range for the written input interval, numbers with six decimals; a one-column 1D file is
  repeated for three channels, a two-column one reads as zeros; tables with differing resolutions are not read back right.""",
  "every resolution and data", "all sizes", LF+"LutCSP.py: writeCSP1D, writeCSP3D, readCSP")
p("C56", "CTL 1D export", """In a three-channel .ctl 1D LUT written by the library every one of the three tables holds the red samples; green and blue are lost. The CTL program (one or three tables, or a cube) passes each channel through its table over the interval given, and alpha unchanged.
  The cube of a 3D file lists every sample in order.""",
  "every resolution and data", "all sizes", LF+"LutCTL.py: writeCTL1D (179)")
p("C57", "Inverting a 1D LUT with an IndexMap is a true inverse", """For samples strictly increasing in every channel, the process nodes built by
  generateLUT1DInverseIndexMap undo the forward LUT (Range + LUT1D) for every input in [minIn, maxIn], and are undone by it for every value between the first and last entry.""",
  "every LUT size n >= 2, samples, input range and value; exact arithmetic", "a continuum and all sizes",
  LF+"Sampling.py: generateLUT1DInverseIndexMap")
p("C58", "Half-domain inversion ignores the input range", """generateLUT1DInverseHalfDomain stores for every half value its position in the table (0 at the first entry, 1 at the last) whatever minIn/maxIn are, so it undoes the forward
  LUT for at most one input range.""",
  "every LUT and range", "all LUTs", LF+"Sampling.py: generateLUT1DInverseHalfDomain")
p("C59", "Sampling covers the interval and is exact at the lattice", """sample1D / sample3D evaluate the list exactly at min + i/(n-1)*(max-min), including both end points, in order;
  sample3D fails whenever the first and last resolution differ, and a resolution of 1 raises ZeroDivisionError.""",
  "every list, resolution and interval", "all sizes", LF+"Sampling.py: sample1D, sample3D")
p("C60", "Shapers", """createShaper's forward and inverse lists undo each other on the shaper's domain (log2: ranges above the smallest float); other types give empty lists; sample1D3D1D fills the output LUT from the input shaper's inverse, so it is
  right only when both shapers are the same.""",
  "every shaper kind and range", "a continuum", LF+"Sampling.py: createShaper, sample1D3D1D (517)")
p("C61", "CLF 1D-3D-1D export", """The input shaper LUT written to a .clf is the inverse of the sampled shaper rather than the shaper; the written list agrees with the sampled
  transform at lattice points for the identity shaper on [0,1] and disagrees for a linear shaper on another range.""",
  "every transform, resolution and range", "all inputs", LF+"LutCLF.py: writeCLF1D3D1D")
p("C62", "Format dispatch does not depend on registration order", """Registry.read and Registry.write choose the same format and give the same result for every iteration order of the registry: the format is fixed by the
  lower-cased text after the last dot of the file name (and the kind of LUT to write); unsupported extensions and lists that cannot be sampled touch no file; write returns None whether or not it wrote.""",
  "every permutation of the registry, path, request", "all orders and paths", LF+"Registry.py: read, write", LF+"LutFormat.py")
# ---------------------------------------------------------------- tools
p("C63", "Image filtering does not depend on the thread schedule", """With multithreading the filtered image of two or more rows equals the row-by-row map of the process list (and the pixel-by-pixel map, for lists without
  ExposureContrast) for every number of workers and completion order; if any row fails, nothing is written; the pool never gets stuck.""",
  "every image, list, worker count and schedule", "all interleavings", AC+"filterImageWithCLF.py: filterImageWithCLF, filterRow_parallel")
p("C64", "Single-threaded filtering processes one row only", """With multithreading off, only image row 5 is processed and all other output samples are zero, so the result differs from the multithreaded one; images of
  fewer than six rows raise an exception; one-row images always fail, with any number of threads.""",
  "every image", "all images", AC+"filterImageWithCLF.py: filterImageWithCLF (589-597), filterRow_stride")
p("C65", "Integer pixel packing", """Reading 10/12-bit images shifts 16-bit samples right and writing shifts left, so codes round-trip exactly; writing truncates rather than rounds, and wraps modulo the type size outside the range; NaN and infinities
  make writing an integer image fail; an image whose metadata carries bits per sample cannot be written as 16f or 32f (KeyError).""",
  "every code and value", "all codes", AC+"filterImageWithCLF.py: readPixelArray, writePixelArray")
p("C66", "OCIO matrix conversion", """convertMatrixToProcessNode preserves the transform for 9-, 12- and 16-element matrices when the alpha row/column is trivial and no entry it fails to inspect (11, 14, 15) matters; it drops entries 11, 14
  and 15 otherwise, and drops the offset of any matrix it does not reduce.""",
  "every matrix and offset; exact arithmetic", "a continuum", AC+"convertOCIOtoCLF.py: convertMatrixToProcessNode")
p("C67", "OCIO groups are flattened and unconvertible parts vanish", """Converting a group of OCIO transforms gives the concatenated nodes of its members; an inverse matrix, a logarithm of a base other than 2 or 10 and
  an unknown transform contribute no node and no error, so the result is that of the group without them; logarithms of base 2 and 10 become nodes computing log and its inverse.""",
  "every transform tree", "all trees", AC+"convertOCIOtoCLF.py: convertTransformsToProcessNodes, convertLogToProcessNode")
p("C68", "Default stride", """process(values) without a stride (0) equals process(values, stride=len(values)) for every node, list and nonempty buffer: the whole buffer is one pixel,
  so channels after the third are left as extra channels.""",
  "every node, list and nonempty buffer; every arithmetic", "all lists and lengths", CLF+"ProcessList.py: process", CLF+"ProcessNode.py: process of each node")
p("C69", "Resampled inversion is exact only at its own sample points", """For strictly increasing samples the nodes built by generateLUT1DInverseResampled followed by the forward LUT return y unchanged at the 2n
  evenly spaced output values the inverse was sampled at (between the channel's first and last entry); between them the result may differ by a large part of full scale.""",
  "every LUT size, samples and range; exact arithmetic", "a continuum and all sizes", LF+"Sampling.py: generateLUT1DInverseResampled")
# ---------------------------------------------------------------- LUT files and the converters
p("C70", "CSP preluts", """Reading a .csp file whose three shapers have the same number (three or more) of rising inputs over one interval gives a Range to [0,1] and a LUT1D with twice as many entries,
  each on the polyline through the shaper's points; shapers that start at different inputs raise ZeroDivisionError; the outputs of shapers with two points are ignored.""",
  "every number of points and every shaper; exact arithmetic", "a continuum and all sizes", LF+"LutCSP.py: generateCLFPrelut, readCSP")
p("C71", "CSP files with a shaper", """Writing a 1D-3D LUT to .csp and reading it gives the expansion of the input shaper and the 3D table, numbers with six decimals; without an input shaper writing raises TypeError;
  the output shaper is not written, so LUTs differing only in it give the same file; a rising shaper whose inputs print alike gives a file that cannot be read.""",
  "every size, shaper and table; IEEE doubles", "all sizes", LF+"LutCSP.py: write1D3D1D, writeCSP1D3D, readCSP")
p("C72", "Asking for the inverse of a .csp or .spi3d file has no effect", """Registry.read gives the same result for a .csp file whatever the direction, interpolation and IndexMap and half-domain options are, and for a .spi3d file
  whatever the direction is; reading any LUT file changes no file.""",
  "every file content, registry order and option; every arithmetic", "all files", LF+"LutCSP.py: read", LF+"LutSPI.py: read", LF+"Registry.py: read")
p("C73", "convertCLFtoLUT writes the LUT asked for, except its 3D size", """Of the options only the paths, the kind of LUT (the first asked for of 1D, 3D, 1D-3D-1D, 1D by default), the 1D size, the first 1D-3D-1D sizes, the interval and the
  first shapers count: --lutResolution3d and --format do nothing, and a 3D LUT has the middle 1D-3D-1D size. The .spi1d or .spi3d file written holds the samples of the list in the CLF file, read back as printed. A 1D-3D-1D .clf export is sampled with the first sizes and shapers given (1024, 33, 2 and none by default) and opens as the exported list. Without both paths the tool ends quietly, and if the CLF cannot be opened it raises; no file changes.""",
  "every list of options, file and interval", "all files and options", AC+"convertCLFtoLUT.py: main, convertCLFtoLUT")
p("C74", "Sampling into a LUT file and reading it back through the registry", """For every registry order, writing a list as a .spi1d, .spi3d or .csp LUT changes only that file, and reading it gives the samples as printed; with .spi1d and .csp also the interval.""",
  "every list that can be sampled, size, interval and registry order; IEEE doubles", "all lists and sizes", LF+"Registry.py: read, write", LF+"LutSPI.py", LF+"LutCSP.py")
p("C75", "convertLUTtoCLF", """If the LUT file can be read and the resulting list be written, the CLF written opens, strictly or leniently, as that list with the numbers as text keeps them, and no other file
  changes; a .spi1d file that can be read (without IndexMaps) can be written, in either direction; in every other case no file changes: the tool raises what reading or writing raises, and ends quietly when a path is missing or no format reads the file.""",
  "every file, registry order and option; IEEE doubles", "all files", AC+"convertLUTtoCLF.py: main")
p("C78", "convertOCIOtoCLF", """The list converted from OCIO colour spaces holds the nodes of the source transforms, then those of the destination transforms, in order, named and described after their space and position;
  it computes what those nodes compute. A file transform becomes what its .spi1d, .spi3d or .csp file holds, read in its direction; other files and missing ones raise; transforms inside groups come in order, each with its own direction. Files are looked for under the config's directory, or the search path itself when it is absolute. The list is written to the CLF file, which opens as that list with numbers as text keeps them; if there are no nodes, or on failure before writing, no file changes. On the command line nothing is done without a config, an output path, or any colour space.""",
  "every configuration, list of spaces and LUT file", "all configurations", AC+"convertOCIOtoCLF.py: convertOCIOtoCLF")
p("C79", "What the depths a list declares do", """After setInBitDepth(d) (setOutBitDepth(d)) on a nonempty list, getInBitDepth (getOutBitDepth) gives d and the other is unchanged. Changing the input depth rescales what the list expects
  if the first node is a curve or a LUT without IndexMap; it changes nothing for a bypassed node, a Matrix, a Range with four limits, a Group, a Reference or a LUT with IndexMaps. Changing the output depth rescales the results of a final curve and changes nothing for those nodes or any LUT. getProcess gives the first node with a name.""",
  "every list, depth and buffer; exact arithmetic for rescaling, every arithmetic otherwise", "all lists and a continuum of values", CLF+"ProcessList.py: setInBitDepth, setOutBitDepth, getInBitDepth, getOutBitDepth, getProcess, process")
p("C76", "Cached IndexMap evaluation", """An IndexMap created with useCachedProcess gives at exact halfs what it gives without the cache (if finite there), between them a blend of its values at the neighbouring halfs, NaN for NaN and an infinity
  for everything from 65520 on (where the uncached map clamps). Once built, the cache is never rebuilt: values set or read later are ignored while the cache is on, and setValues on a cached map with a dimension raises AttributeError after storing the values. A map without values raises IndexError, cached or not. The constructor fills the cache only if it is given both a dimension and values.""",
  "every index map, value and sequence of calls; IEEE arithmetic for the values", "all values and call sequences", CLF+"IndexMap.py: __init__, setValues, setuseCachedProcess, _createCachedProcess, process")
p("C77", "Saving what was opened changes nothing further",
  "The first save of a process list may round its numbers (C45). Reading that document and writing the list read gives a second document that reads back as exactly the same list, so all later saves give the same document: printing with twelve significant digits, with nine decimals into float32, as an integer, or in one of the 16, 32 or 64 bit encodings moves a number at most once. The list read can be written again, with the features it was first written with, exactly when the tables of nodes with an integer outBitDepth hold finite numbers; an entry such as 1e39, beyond float32, is read as infinity and the second save then raises OverflowError. The second document itself need not equal the first (0.1 is written 0.100000000, then 0.100000001). An IndexMap written by hand without its dim attribute can be opened, but is saved with dim=\"[]\", and that document raises ValueError when opened.",
  "all process lists a document can hold whose index maps have dimensions, all doubles including subnormals, infinities and NaN, all encodings",
  "The rounding argument must hold for every double: a sample of values says nothing about ties, subnormals or the binade where float32 spacing meets nine decimals.",
  CLF + "ProcessList.py: read, write", CLF + "Array.py: read, write", CLF + "IndexMap.py: read, write", CLF + "ProcessNode.py: read, write")

p("C80", "What clfinfo shows", """printInfo on a process list runs without exception exactly when every array has a row length and, for integer depths, finite values in the rows it shows, every IndexMap of 15 or more entries has as many
  values on both sides, and all Gamma and Log parameters have channel R, G, B or none. Then every node is named once, in order, those inside Groups and referenced lists included, with all its attributes, limits and dynamic parameters, and every comment of the list and its nodes under its own kind; a table of up to ten rows is shown in full and a longer one by its first and last three rows. Of a CDL exactly the parameters it has are shown, of Gamma and Log nodes those in force for each channel. A list that can be saved can be shown (known channels, no resolved References).
  The contrast of an ExposureContrast node is not shown: its exposure is printed in its place. clfinfo on a file saved from a clean list shows that list, numbers as their text keeps them; on a file that does not open it raises.""",
  "every process list, to any nesting depth", "all lists, nesting depths and table sizes", CLF+"ProcessList.py: printInfo", CLF+"ProcessNode.py: printInfo", CLF+"Array.py: printInfo", CLF+"IndexMap.py: printInfo", CLF+"ExtensionExposureContrast.py: printInfoChild")

p("C82", "Code values survive changes of depth", """A Range from an integer depth to itself keeps every code value of the depth, bit for bit, although each passes through two float32 roundings. Code values changed to another depth and back are the same codes again
  if the other depth is floating or an integer depth with at least as many codes; from 8 to 16 bits code k becomes exactly 257 k. Through a depth with fewer codes they need not survive: 10 bit code 999 does not come back from 8 bits.""",
  "every code of every integer depth, every pair of depths; IEEE arithmetic", "65536 codes per depth and every pair of depths; the error terms decide", CLF+"Common.py: bitDepthToNormalized, normalizedToBitDepth", CLF+"Range.py: process", AC+"filterImageWithCLF.py: filterImageWithCLF")

p("C81", "Rounding errors and order", """In the arithmetic of the code, a row of an n-column Matrix applied to finite samples is within n + 3 units of float32 precision of the exact sum, relative to the total size of its terms; a linear LUT1D is within two units of the
  exact interpolation, relative to the size of its entries plus n - 1 times its largest step; a LUT3D, with either interpolation and for inputs in range or not, within four units of what the same table gives in exact arithmetic; a change of depth within three units of the exact ratio. A Range with four limits of moderate size keeps the order of samples: a larger sample never gives a smaller result, clamped or not.""",
  "every matrix, table, pair of depths and finite sample below 2^125; IEEE arithmetic", "a continuum of inputs; the worst rounding is not found by sampling", CLF+"Matrix.py: process", CLF+"LUT1D.py: process", CLF+"Array.py: lookup1D, lookup3DTrilinear, lookup3DTetrahedral", CLF+"LUT3D.py: process", CLF+"Range.py: process", CLF+"Common.py: bitDepthToNormalized, normalizedToBitDepth")

p("C85", "Lists built in a program; metadata is inert", """Names, ids, descriptions, dynamic parameters, attributes other than the seven processing reads, and how tables are to be encoded never change what a list computes, at any depth inside Groups and referenced lists: same colours, same failures, same effect on
  the caller's buffer. What was set is got back and nothing else changes. Nodes come in the order they were added in, len counts them, indices (negative ones too) find them, and adding a node adds one processing step at the end. What processing does not look at can matter to saving: a LUT1D marked rawHalfs after it was given its table processes as one marked before, but its file cannot be read (ValueError).""",
  "every list, node, buffer, stride and arithmetic", "all lists and call sequences", CLF+"ProcessList.py: __iter__, __getitem__, __len__, setAttribute, getAttribute, setName, addElement, addValueElement, addProcess, process", CLF+"ProcessNode.py: setAttribute, addElement, addValueElement, setDynamicParam", CLF+"ExtensionGroup.py: addProcess, getProcess, process", CLF+"LUT1D.py: setArray")

p("C83", "filterImageWithCLF from image to image", """Filtering an integer image through an empty process list, with two workers or more, writes it unchanged at its own depth; at another integer depth code k becomes the exact ratio rounded down, for all twelve pairs of
  depths and all codes but two (10 bit 617 and 12 bit 2183 come out one higher at 16 bits). 16 bit samples tagged with a number of bits other than 10, 12 and 16 are shifted down but not back, so the picture darkens. A missing image raises ValueError, a sample type without CLF depth KeyError. Called with an unknown output depth, the filter keeps the image's.
  On the command line an unknown output depth or a missing path writes nothing, and the filter runs with at least one and at most as many workers as processors.""",
  "every integer image, pair of depths, number of workers and schedule; IEEE arithmetic", "2^16 codes, all pairs of depths and all schedules", AC+"filterImageWithCLF.py: readPixelArray, writePixelArray, filterImageWithCLF, main")

p("C84", "Identities are exact", """In the arithmetic of the code an identity Matrix returns finite float32 samples unchanged but for the sign of zeros, whatever its size; an infinite or NaN sample, however, makes every other channel of its pixel NaN. An identity LUT1D of
  2^j + 1 entries, and an identity LUT3D of 2^j + 1 entries per side with either interpolation, return the float32 numbers between 0 and 1 unchanged at floating input depths. Other sizes need not: an identity LUT1D of eight entries changes some samples.""",
  "every float32 sample, every j up to 24, both interpolations; IEEE arithmetic", "2^30 samples per channel and every table size", CLF+"Matrix.py: process", CLF+"LUT1D.py: process", CLF+"LUT3D.py: process", CLF+"Array.py: lookup1DLinear, lookup3DTrilinear, lookup3DTetrahedral")

p("C86", "Half and float images", """Filtered through an empty process list with two workers or more, a half or float image is written unchanged at its own depth, and a half image as floats keeps every number, NaN and infinities included. A float image as halfs gets the nearest half, infinite from
  65520 on. Integer codes as floats become the correctly rounded quotient by the largest code, and come back as the same codes; as halfs they do not (8 bit code 1 comes back as 0), and a half written for a 16 bit code need not be the nearest one, because the code rounds twice. Numbers
  between 0 and 1 become the code below their multiple of the largest code. A NaN or infinity is never written at an integer depth, and an image with a bits-per-sample attribute is never written at a float depth. Packing halfs for OpenImageIO and back loses nothing, except that before version 1.8
  an odd number of samples is refused.""",
  "every half and float image, pair of depths, number of workers from two on and schedule; IEEE arithmetic", "2^32 samples, all depths and all schedules", AC+"filterImageWithCLF.py: readPixelArray, writePixelArray, filterImageWithCLF, npHalfArrayToOIIOFloatPixels, oiioFloatPixelsToNPHalfArray, floatToHalfs, halfsToFloat")

p("C87", "LUT files exported from a list agree with it at the grid points", """A list written to a .spi1d or .spi3d file over the unit range and read back gives, at the grid points of the table, the colours the list gives there: in the arithmetic of the code each channel is within four (1D) or seven (3D, either interpolation) units of float32
  precision, measured against the largest entry plus the table's slope. Through both converters, convertCLFtoLUT and then convertLUTtoCLF, the .clf obtained agrees as well up to the nine decimals of the document (another 10^-9). The twelve digits str() prints are accurate enough for this.""",
  "every list, table size up to 65536 per axis, grid point and compatibility setting; IEEE arithmetic", "all lists and tables; four roundings and two text formats combine", AC+"convertCLFtoLUT.py: convertCLFtoLUT, main", AC+"convertLUTtoCLF.py: convertLUTtoCLF, main", LF+"LutSPI.py: readSPI1D, writeSPI1D, readSPI3D, writeSPI3D", CLF+"Array.py: lookup1DLinear, lookup3DTrilinear, lookup3DTetrahedral, read, write")

p("C88", "Rounding errors of a whole list", """A list of Range (four limits, clamping or not), Matrix, linear LUT1D, LUT3D (either interpolation) and Fwd CDL nodes (exponents of at least 1), run in the arithmetic of the code, gives colours within a computed error of those the same list gives in exact arithmetic. The error grows along the list:
  each node multiplies what it receives by its own slope (Range: ratio of its two intervals, Matrix: largest row sum, LUT1D: (n - 1) times the largest step, LUT3D: three times that, CDL: exponent times slope, times the spread of the saturation) and adds a few units of float32 precision (five, six, two, four and five times the exponent) relative to the size of its numbers, for a CDL also twice the error of the power function. Inputs may be out of range;
  no sample becomes NaN or infinite. Groups and References with their list may be nested among them: a Group adds nothing of its own, a Reference one rounding to single precision.""",
  "every such list, of any length, every finite colour of bounded size; IEEE arithmetic", "all lists and all colours; errors of dozens of roundings combine", CLF+"ProcessList.py: process", CLF+"Range.py: process", CLF+"Matrix.py: process", CLF+"LUT1D.py: process", CLF+"LUT3D.py: process", CLF+"ASCCDL.py: process", CLF+"Array.py: lookup1DLinear, lookup3DTrilinear, lookup3DTetrahedral")

p("C89", "The text of a CLF file", """Saving a list whose names are XML names, whose attributes are printable ASCII, whose comments are not empty and whose IndexMaps and CDL triples are not empty always succeeds if the list can be written, and opening the file gives the list back with its numbers as their
  text keeps them; characters that XML reserves are escaped and restored. Of the libraries only gzip is assumed to work: the text is printed as ElementTree and minidom print it and parsed as XML. A control character or one outside ASCII anywhere makes saving raise and leaves the target alone. Line breaks
  in attributes come back as blanks, carriage returns in comments as line feeds, an empty comment as none; a list with an empty IndexMap is saved but the file does not open.""",
  "every list, text and nesting", "all texts and trees", CLF+"ProcessList.py: xmlPrettify, writeFile, readFile, write, read")

p("C90", "Nodes built by setters", """After any sequence of setter calls a Range, ASC_CDL, ColorCorrection or ExposureContrast has for each parameter the value set last, and none for those never set; Gamma and Log collect their calls in order. A LUT's table and size are
  those set last, its index maps add up, and asking for the size of an index map always raises. LUT3Ds built with one list object for the size compute the same colours as with lists of their own, but each reports (and would write) its size with one more 3 for every other LUT.""",
  "every constructor argument and every sequence of calls", "all sequences of calls", CLF+"Range.py: setters", CLF+"ASCCDL.py: setters", CLF+"LUT1D.py: setIndexMaps, setArray, getters", CLF+"LUT3D.py: setArray, getters", CLF+"ExtensionGamma.py", CLF+"ExtensionLog.py", CLF+"ExtensionExposureContrast.py")

p("C91", "LUTs sampled from a function", """simpleSampledLUTHalfDomain gives a node that reproduces the function exactly (rounded to single precision) at every one of the 65536 half codes, at NaN and beyond the largest half; with its default function, the identity, every half comes out unchanged.
  simpleSampledLUT with n entries reproduces a function that changes by at most K per unit within K / (2 (n - 1)) plus a few roundings; with the identity within five units of float32 precision at any resolution. simple3DLUT stores the function at every grid point of a cube, and between them reproduces a function that changes by at most K per unit along each axis within 3 K / (2 (n - 1)) plus a few roundings, an affine one within roundings, the identity within nine units of float32 precision; with unequal resolutions
  colours are stored in the wrong places and the table may be too long.""",
  "every function, resolution, depth and input; IEEE arithmetic", "all functions and all inputs", CLF+"LUT1D.py: simpleSampledLUT, simpleSampledLUTHalfDomain", CLF+"LUT3D.py: simple3DLUT")

p("C92", "Whole images through a whole list", """filterImageWithCLF on an RGB image, run with two workers or more, writes every colour within a computed error of what exact arithmetic gives: the colour taken from the depth of the image to that of the first node, through the list (C88), and from the depth of the last node to the depth asked for,
  counting every storing in single precision on the way. At an integer depth that has room for the exact colours, every code written is less than one code plus that error away, so codes never wrap around. Run on a file saved from a list, the tool filters with that list, its numbers as their text keeps them.""",
  "every RGB image, list with a budget (C88), depths, number of workers from two on and schedule; IEEE arithmetic", "all images, lists and schedules; errors of every stage combine", AC+"filterImageWithCLF.py: readPixelArray, filterRow_parallel, filterImageWithCLF, writePixelArray, main", CLF+"ProcessList.py: process, readFile, writeFile")

p("C93", "Every spelling of a document opens alike", """Two files that spell the same XML document open as the same list, or with the same exception: single or double quotes, blanks and line breaks in tags, named, decimal and hexadecimal references, CDATA sections, comments and processing instructions anywhere, empty tags or an end tag, an XML declaration or none,
  text after elements, LF, CR LF or CR line ends, and one default namespace, several or none make no difference. Such a text always parses, to exactly the elements, attributes and texts it spells.""",
  "every document (ASCII, no DOCTYPE) and every spelling of it", "all texts and trees", CLF+"ProcessList.py: readFile, read, getElementType", CLF+"ProcessNode.py: read, getElementType")

p("C94", "Files that are not XML are refused whole", """A file cut off anywhere before the end of its root element, and one that anywhere has an end tag of another element than the innermost, an attribute twice, two attributes without a blank between them, an attribute without quotes, "<" in an attribute, a reference to something unknown, "--" in a comment, a control character,
  text outside the root or a second root, is refused with an XML parse error, whatever comes before and after, strict or not; no part of it becomes a list.""",
  "every document (ASCII, no DOCTYPE), place and continuation", "all texts", CLF+"ProcessList.py: readFile, __init__")
p("C95", "What the elements of a document say", """A node read from a document has the attributes its element gives, and for the others the defaults of its class (16f depths, linear and trilinear interpolation, style Fwd, basicFwd, log10 and linear), whatever its children; True and False are booleans.
  The limits of a Range, the numbers of an ASC CDL node (slope, offset, power, saturation), the parameters of Gamma, Log and ExposureContrast nodes with their defaults, and the tables and index maps of Matrix, LUT1D and LUT3D are those of the child elements; of a repeated limit or CDL value the last counts, unrelated children do not matter.
  The attributes may be in any order anywhere in the document: the lists compute the same colours, or opening fails with the same exception.""",
  "every element and document, number type, feature set, strict or not", "unbounded documents", CLF+"ProcessNode.py: read", CLF+"Range.py: readChild", CLF+"ASCCDL.py: readChild", CLF+"LUT1D.py: readChild", CLF+"ExtensionGamma.py: readChild", CLF+"ExtensionLog.py: readChild", CLF+"ExtensionExposureContrast.py: readChild", CLF+"Array.py: read", CLF+"IndexMap.py: read")

p("C96", "Rounding never leaves the table", """In floating point, a linear LUT1D and a LUT3D (trilinear or tetrahedral) give results between any two float32 numbers that enclose all entries of the channel, whatever the input, in range or not (a finite number of size up to 2^126 for the LUT1D; any number, an infinity or NaN for the LUT3D): rounding never overshoots, so a table of 0 to 1 never gives 1.0000001 or a small negative number. A LUT1D gives its first entry itself for inputs at or below zero and its last for inputs at or above full scale. A rising LUT1D keeps the order of its inputs, except perhaps for two results between the same two neighbouring entries; inputs in range two steps of the table apart are never swapped (tables of up to 2^22 entries). For inputs in range only the entries within two steps of the input have to be enclosed, in a LUT1D and in a LUT3D. Outside its range a LUT3D holds the colour of its edge, channel by channel: NaN, minus infinity and numbers down to -2^126 act like zero, infinity and numbers from full scale up to 2^126 like full scale. So a process list that ends with a LUT3D (not bypassed) whose entries are between 0 and 1 gives only numbers between 0 and 1 on RGB pixels, whatever its other nodes do, even if they produce infinities or NaN.
  The bounds must be float32 numbers: a table filled with one double built in a program can give the float32 number above it.""",
  "every table, size up to 2^53, bounds, channel and input (LUT1D: finite, of size up to 2^126)", "all tables and inputs, every rounding", CLF+"Array.py: lookup1DLinear", CLF+"Array.py: lookup3DTrilinear", CLF+"Array.py: lookup3DTetrahedral", CLF+"LUT1D.py: process", CLF+"LUT3D.py: process", CLF+"ProcessList.py: process")

here = os.path.dirname(os.path.abspath(__file__))
with open(os.path.join(here, "..", "properties.jsonl"), "w") as f:
    for q in P:
        f.write(json.dumps(q, ensure_ascii=True) + "\n")
print(len(P), "properties")
