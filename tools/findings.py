"""Prints the table of refuted claims for DESIGN.md from the comments above the ..._refuted theorems."""
import glob, re
EXTRA = {
    "C35_own_share_refuted": "With an overflow between two consumers and no excess anywhere, two consumers get each other's fraction.",
    "C108_message_refuted": "A compressor without suction pressure fails with AssertionError instead of a message.",
    "C50_minus_zero_refuted": "A small negative number can be printed as minus zero.",
    "C37_liquid_refuted": "With a liquid remover inside a recirculation loop the mass that leaves is not the mass that enters.",
    "C39_tolerance_refuted": "A root finder that stops near the root, as the one in use does, gives no bound on the pressure.",
    "C67_recirculated_refuted": "A rate through the compressor beyond the chart is accepted, or an internal error.",
    "C109_rates_refuted": "A setting of a system without rates is accepted and fails with TypeError.",
    "C109_total_refuted": "A setting of a system with fractions and no total rate is accepted and fails with AssertionError.",
    "C109_not_in_use_refuted": "A system of pumps that is not in use is refused for its pressures; the same system of compressors is not.",
    "C27_margin_refuted": "In a period in which no table of the generator set applies it is invalid although its margin is not negative, and its fuel is 0 although power is required.",
    "C58_transparent_refuted": "A second flash a ten-millionth of a bar away gets the cached answer of the first.",
    "C111_adjusted_refuted": "The adjustment of the energy usage is left out when the largest rate of a compressor with turbine is found.",
    "C111_sampled_refuted": "A sampled compressor with a turbine has no largest rate at all.",
    "C78_too_much_refuted": "When there is not enough, less is given at an offtake than was asked for and no error is raised.",
}
rows = []
for f in sorted(glob.glob("rocq/theories/*_Props.v")):
    t = open(f).read()
    for m in re.finditer(r"Theorem (C\w+_refuted)", t):
        cs = list(re.finditer(r"\(\*\*(.*?)\*\)", t[: m.start()], re.S))
        c = ""
        if cs and m.start() - cs[-1].end() < 30:
            c = re.sub(r"\s+", " ", cs[-1].group(1).strip()).replace("|", "/")
            c = re.sub(r"^C\d+:? ", "", c) if not re.match(r"C\d+ (fails|does not)", c) else re.sub(r"^C\d+ ", "It ", c)
        rows.append((m.group(1), EXTRA.get(m.group(1), c)))
for n, c in sorted(rows, key=lambda r: (int(re.match(r"C(\d+)", r[0]).group(1)), r[0])):
    print(f"| {n} | {c[:1].upper() + c[1:]} |")
