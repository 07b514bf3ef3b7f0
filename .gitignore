*.vo
*.vok
*.vos
*.glob
*.aux
.*.aux
.nra.cache
.lia.cache
.Makefile.d
Makefile
Makefile.conf
*.cache
__pycache__
