*.vo
*.vok
*.vos
*.glob
*.aux
.*.aux
.lia.cache
Makefile
Makefile.conf
.Makefile.d
__pycache__
.nia.cache
